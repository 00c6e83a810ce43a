(** * The command line of a run
    (all_multipliers.py:684-690, with the argparse of Python 3.7, which wmenv.yml asks for). *)
From Verif Require Import Base PyStr UtilModel IniModel RunModel StartModel.
Open Scope Z_scope.

(** How parse_args can end without arguments: a usage message (exit status 2),
    the help text (exit status 0) or an exception of argparse itself. *)
Inductive stop := Usage | Help | Raised (e : exn).

(** all_multipliers.py:685-688; argparse adds -h and --help. *)
Inductive act := AHelp | AConfig | AVerbose.
Definition option_table : list (str * act) :=
  [(lit "-h", AHelp); (lit "--help", AHelp); (lit "-c", AConfig); (lit "--config_file", AConfig); (lit "-v", AVerbose); (lit "--verbose", AVerbose)].
Definition find_option (s : str) : option act :=
  match find (fun o => str_eqb s (fst o)) option_table with Some o => Some (snd o) | None => None end.

Definition dash : ascii := "-".
Definition equals : ascii := "=".

(** [s.split('=', 1)] when there is an equals sign. *)
Fixpoint split_eq (s : str) : option (str * str) :=
  match s with
  | [] => None
  | c :: s => if Ascii.eqb c equals then Some ([], s)
              else match split_eq s with Some (a, b) => Some (c :: a, b) | None => None end
  end.

(** [o.startswith(p)] *)
Definition startswith (o p : str) : bool := str_eqb (firstn (length p) o) p.

(** ArgumentParser._get_option_tuples: what a word may abbreviate. *)
Definition option_tuples (w : str) : list (act * str * option str) :=
  match w with
  | a :: b :: r =>
    if Ascii.eqb b dash then
      let '(p, e) := match split_eq w with Some (p, e) => (p, Some e) | None => (w, None) end in
      flat_map (fun o => if startswith (fst o) p then [(snd o, fst o, e)] else []) option_table
    else
      flat_map (fun o => if str_eqb (fst o) [a; b] then [(snd o, fst o, Some r)]
                         else if startswith (fst o) w then [(snd o, fst o, None)] else []) option_table
  | _ => []
  end.

(** ArgumentParser._negative_number_matcher, [^-\d+$|^-\d*\.\d+$]; [$] also
    matches before a newline that ends the word.  ASCII digits. *)
Definition digit (c : ascii) : bool := (48 <=? Z.of_nat (nat_of_ascii c)) && (Z.of_nat (nat_of_ascii c) <=? 57).
Fixpoint digits_end (s : str) : bool :=
  match s with
  | [] => true
  | c :: s => if digit c then digits_end s else if Ascii.eqb c nl then match s with [] => true | _ => false end else false
  end.
Definition digits1 (s : str) : bool := match s with c :: s => digit c && digits_end s | [] => false end.
Fixpoint after_point (s : str) : bool :=
  match s with
  | [] => false
  | c :: s => if digit c then after_point s else Ascii.eqb c dot && digits1 s
  end.
Definition negative_number (w : str) : bool :=
  match w with c :: s => Ascii.eqb c dash && (digits1 s || after_point s) | [] => false end.

(** ArgumentParser._parse_optional: a word is an argument, or an option (known or
    not, perhaps with a value in the same word). *)
Inductive cls := Argument | Option (o : option (act * str * option str)).
Definition parse_optional (w : str) : cls + stop :=
  match w with
  | [] => inl Argument
  | c :: r =>
    if negb (Ascii.eqb c dash) then inl Argument else
    match find_option w with
    | Some a => inl (Option (Some (a, w, None)))
    | None =>
      match r with
      | [] => inl Argument
      | _ =>
        match (match split_eq w with Some (p, e) => match find_option p with Some a => Some (a, p, Some e) | None => None end | None => None end) with
        | Some t => inl (Option (Some t))
        | None =>
          match option_tuples w with
          | _ :: _ :: _ => inr Usage
          | [t] => inl (Option (Some t))
          | [] => if negative_number w then inl Argument
                  else if has_char " " w then inl Argument
                  else inl (Option None)
          end
        end
      end
    end
  end.

(** ArgumentParser._parse_known_args, first loop: all words are classified before
    any action is taken; a word "--" and what follows it are no options. *)
Fixpoint classify (ws : list str) : list (str * cls) + stop :=
  match ws with
  | [] => inl []
  | w :: ws =>
    if str_eqb w (lit "--") then inl ((w, Option None) :: map (fun w => (w, Argument)) ws)
    else match parse_optional w with
         | inr s => inr s
         | inl c => match classify ws with inl cs => inl ((w, c) :: cs) | inr s => inr s end
         end
  end.

(** consume_optional: what one option word stands for: flags, then an option with
    its value, an option that wants the next word as its value, or no more. *)
Inductive tail := NoValue | Wanted | Given (v : str).
Definition last_act (a : act) : list act * tail := match a with AConfig => ([], Wanted) | _ => ([a], NoValue) end.
(** The while loop over a word with a single dash and text [e] after the letter. *)
Fixpoint cluster (a : act) (e : str) {struct e} : (list act * tail) + stop :=
  match a with
  | AConfig => inl ([], Given e)
  | _ =>
    match e with
    | [] => inr (Raised IndexError)
    | c :: e =>
      match find_option [dash; c] with
      | None => inr Usage
      | Some b =>
        match e with
        | [] => let '(l, t) := last_act b in inl (a :: l, t)
        | _ => match cluster b e with inl (l, t) => inl (a :: l, t) | inr s => inr s end
        end
      end
    end
  end.
Definition consume (t : act * str * option str) : (list act * tail) + stop :=
  let '(a, n, e) := t in
  match e with
  | None => inl (last_act a)
  | Some e =>
    match a, n with
    | AConfig, _ => inl ([], Given e)
    | _, _ :: b :: _ => if Ascii.eqb b dash then inr Usage else cluster a e
    | _, _ => inr Usage
    end
  end.

(** take_action for the flags of a word: help ends the program. *)
Fixpoint take_flags (l : list act) (v : bool) : bool + stop :=
  match l with
  | [] => inl v
  | AHelp :: _ => inr Help
  | _ :: l => take_flags l true
  end.

(** take_action for -c; _get_values drops a value "--" and then finds none. *)
Definition value_of (f : str) : str + stop := if str_eqb f (lit "--") then inr (Raised ValueError) else inl f.

(** The main loop of _parse_known_args and the check of parse_args that no word
    is left over.  The loop over indices is a recursion on the words here; with
    no positional arguments declared, every word that is not taken is left over. *)
Fixpoint take_words (cs : list (str * cls)) (c : option str) (v left : bool) : (option str * bool) + stop :=
  match cs with
  | [] => if left then inr Usage else inl (c, v)
  | (w, Argument) :: cs => take_words cs c v true
  | (w, Option None) :: cs => take_words cs c v true
  | (w, Option (Some t)) :: cs =>
    match consume t with
    | inr s => inr s
    | inl (l, NoValue) => match take_flags l v with inl v => take_words cs c v left | inr s => inr s end
    | inl (l, Given f) =>
      match take_flags l v with
      | inl v => match value_of f with inl f => take_words cs (Some f) v left | inr s => inr s end
      | inr s => inr s
      end
    | inl (l, Wanted) =>
      match cs with
      | (f, Argument) :: cs =>
        match take_flags l v with
        | inl v => match value_of f with inl f => take_words cs (Some f) v left | inr s => inr s end
        | inr s => inr s
        end
      | _ => inr Usage
      end
    end
  end.

(** all_multipliers.py:690: [args.config_file] and [args.verbose]. *)
Definition parse_args (argv : list str) : (option str * bool) + stop :=
  match classify argv with inl cs => take_words cs None false false | inr s => inr s end.

(** config.py:32-38, at import: the default file is read when there is one. *)
Definition imported (disk : str -> option str) (default : str) : res parser :=
  match disk default with
  | Some _ => load_text disk default (Parser empty_conf false default)
  | None => Ok (Parser empty_conf false default)
  end.

(** all_multipliers.py:684-770: the program from its command line on.  [disk] has
    the texts of configuration files. *)
Inductive ending := Stopped (s : stop) | Went (r : option exn).
Definition program (disk : str -> option str) (default : str) (w : world) (data : bool) (argv : list str) (f : fsys) : fsys * ending :=
  match imported disk default with
  | Err e => (f, Stopped (Raised e))
  | Ok p =>
    match parse_args argv with
    | inr s => (f, Stopped s)
    | inl (c, v) =>
      match (match c with Some (x :: name) => load_text disk (x :: name) p | _ => Ok p end) with
      | Err e => (f, Stopped (Raised e))
      | Ok p =>
        let get := fun s o => match cfg_get (p_conf p) s o with Ok x => Some x | Err _ => None end in
        let '(f, r) := start (World get (w_float w) (w_bool w) (w_level w) (w_path w) (w_raster w) (w_cwd w)) v data f in
        (f, Went r)
      end
    end
  end.
