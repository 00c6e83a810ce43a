(** * What a command line means *)
From Verif Require Import Base PyStr RunModel UtilModel UtilSpec IniModel IniSpec.
Open Scope Z_scope.

(** The two things a command line can say. *)
Inductive item := Verbosely | Settings (file : str).

(** What the run is told: the last file named, and whether to be verbose. *)
Fixpoint last_file (l : list item) (before : option str) : option str :=
  match l with [] => before | Verbosely :: l => last_file l before | Settings f :: l => last_file l (Some f) end.
Definition said_verbose (l : list item) : Prop := In Verbosely l.

(** The name of a long option may be cut short as long as a letter is left. *)
Definition short_for (p : str) (name : string) : Prop := exists x r s, p = lit "--" ++ x :: r /\ lit name = p ++ s.

(** A word that looks like a number below zero. *)
Definition is_digit (c : ascii) : Prop := In c (lit "0123456789").
Definition below_zero (w : str) : Prop :=
  exists ds e, (e = [] \/ e = ["010"%char]) /\ ds <> [] /\ Forall is_digit ds /\
    (w = lit "-" ++ ds ++ e \/ exists ds0, Forall is_digit ds0 /\ w = lit "-" ++ ds0 ++ lit "." ++ ds ++ e).

(** A word with a dash that begins like one of the options. *)
Definition like_option (w : str) : Prop :=
  (exists x r, w = lit "-" ++ x :: r /\ In x (lit "hcv")) \/
  (exists p name s, In name ["--help"%string; "--config_file"%string; "--verbose"%string] /\ lit name = lit "--" ++ p ++ s /\
     (w = lit "--" ++ p \/ exists e, w = lit "--" ++ p ++ lit "=" ++ e)).

(** A word that can stand after -c as its value: one that does not begin with a
    dash, a dash alone, a number below zero, or a word with a space in it that
    does not begin like an option. *)
Definition plain (w : str) : Prop :=
  (forall r, w <> lit "-" ++ r) \/ w = lit "-" \/ below_zero w \/ (In " "%char w /\ ~ like_option w).

(** The letter v repeated. *)
Definition vs (n : nat) : str := repeat "v"%char n.

(** The words that say something: each line of this definition is one way of
    writing. *)
Inductive says_ : list str -> list item -> Prop :=
| Long_verbose p : short_for p "--verbose" -> says_ [p] [Verbosely]
| Long_config p f : short_for p "--config_file" -> plain f -> says_ [p; f] [Settings f]
| Long_config_eq p f : short_for p "--config_file" -> f <> lit "--" -> says_ [p ++ lit "=" ++ f] [Settings f]
| Config_eq f : f <> lit "--" -> says_ [lit "-c=" ++ f] [Settings f]
| Letters n : says_ [lit "-" ++ vs (S n)] (repeat Verbosely (S n))
| Letters_config n f : plain f -> says_ [lit "-" ++ vs n ++ lit "c"; f] (repeat Verbosely n ++ [Settings f])
| Letters_file n x f : (n = O -> x <> "="%char) -> x :: f <> lit "--" ->
    says_ [lit "-" ++ vs n ++ lit "c" ++ x :: f] (repeat Verbosely n ++ [Settings (x :: f)])
| Eq_letters n : says_ [lit "-v=" ++ vs (S n)] (repeat Verbosely (S (S n)))
| Eq_config n f : plain f -> says_ [lit "-v=" ++ vs n ++ lit "c"; f] (repeat Verbosely (S n) ++ [Settings f])
| Eq_file n x f : x :: f <> lit "--" ->
    says_ [lit "-v=" ++ vs n ++ lit "c" ++ x :: f] (repeat Verbosely (S n) ++ [Settings (x :: f)]).

Inductive line_says : list str -> list item -> Prop :=
| Nothing : line_says [] []
| Something ws l ws' l' : says_ ws l -> line_says ws' l' -> line_says (ws ++ ws') (l ++ l').

(** A word that asks for the help text. *)
Definition asks_help (w : str) : Prop := short_for w "--help" \/ exists n, w = lit "-" ++ vs n ++ lit "h".
(** A word that could be short for several options. *)
Definition undecided (w : str) : Prop := exists e, w = lit "--=" ++ e.

(** The configuration file a run is told to read after the default one, if any. *)
Definition named (l : list item) : list str :=
  match last_file l None with Some (x :: name) => [x :: name] | _ => [] end.

(** What the files of these names say, those that are not there left out. *)
Inductive reads (disk : str -> option str) : list str -> list cfgfile -> Prop :=
| Reads_all : reads disk [] []
| Reads_missing n ns fs : disk n = None -> reads disk ns fs -> reads disk (n :: ns) fs
| Reads_file n t d f ns fs : disk n = Some t -> document_ok d -> written t (document_lines d) -> says d f -> reads disk ns fs -> reads disk (n :: ns) (f :: fs).
