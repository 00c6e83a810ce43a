(** * How a configuration file may be laid out, and what it then says

    Independent of the scanner of IniModel: a file is a document made of
    filler lines and sections; a section is a header line followed by filler
    and settings; a setting is a [name = value] line followed by the lines that
    belong to its value. *)
From Coq Require Import Ascii String.
From Verif Require Import Base PyStr.
Open Scope Z_scope.

Definition newline : ascii := "010"%char.
Definition return_ : ascii := "013"%char.
Definition space_char (c : ascii) : Prop := In (nat_of_ascii c) [9; 10; 11; 12; 13; 28; 29; 30; 31; 32]%nat.
(** Characters that can be on one line, and spacing inside a line. *)
Definition on_line (s : str) : Prop := forall c, In c s -> c <> newline /\ c <> return_.
Definition gap (s : str) : Prop := on_line s /\ forall c, In c s -> space_char c.
(** No space at either end (the empty text qualifies). *)
Definition begins_bare (s : str) : Prop := forall c t, s = c :: t -> ~ space_char c.
Definition ends_bare (s : str) : Prop := forall c t, s = t ++ [c] -> ~ space_char c.
Definition trimmed (s : str) : Prop := begins_bare s /\ ends_bare s.
Definition mark (c : ascii) : Prop := c = "#"%char \/ c = ";"%char.
Definition marked (s : str) : Prop := exists c t, s = c :: t /\ mark c.
Definition sign (c : ascii) : Prop := c = "="%char \/ c = ":"%char.
(** [[name]] and then anything. *)
Definition bracketed (s : str) : Prop :=
  exists h r, s = "["%char :: h ++ "]"%char :: r /\ h <> [] /\ ~ In "]"%char h.

Inductive filler :=
| Empty (g : str)                                   (* a line of spaces *)
| Remark (g : str) (m : ascii) (t : str).           (* spaces, # or ;, anything *)
Inductive tail :=
| Between (f : filler)
| More (g t e : str).                               (* an indented line of text *)
Record setting := Setting { s_indent : str; s_name : str; s_before : str; s_sign : ascii; s_after : str; s_value : str; s_end : str; s_tail : list tail }.
Record section := Section_ { h_indent : str; h_name : str; h_rest : str; h_fill : list filler; h_settings : list setting }.
Record document := Document { d_fill : list filler; d_sections : list section }.

(** The lines. *)
Definition filler_line (f : filler) : str := match f with Empty g => g | Remark g m t => g ++ m :: t end.
Definition tail_line (t : tail) : str := match t with Between f => filler_line f | More g t e => g ++ t ++ e end.
Definition setting_lines (s : setting) : list str :=
  (s_indent s ++ s_name s ++ s_before s ++ s_sign s :: s_after s ++ s_value s ++ s_end s) :: map tail_line (s_tail s).
Definition section_lines (x : section) : list str :=
  (h_indent x ++ "["%char :: h_name x ++ "]"%char :: h_rest x) :: map filler_line (h_fill x) ++ flat_map setting_lines (h_settings x).
Definition document_lines (d : document) : list str := map filler_line (d_fill d) ++ flat_map section_lines (d_sections d).

(** The text of a file with these lines: each ends with a newline, the last one need not. *)
Definition ended (l : str) : str := l ++ [newline].
Definition written (t : str) (ls : list str) : Prop :=
  t = concat (map ended ls) \/ exists ls' l, ls = ls' ++ [l] /\ l <> [] /\ t = concat (map ended ls') ++ l.

(** Well laid out. *)
Definition filler_ok (f : filler) : Prop := match f with Empty g => gap g | Remark g m t => gap g /\ mark m /\ on_line t end.
Definition tail_ok (k : nat) (t : tail) : Prop :=
  match t with
  | Between f => filler_ok f
  | More g t e => gap g /\ gap e /\ on_line t /\ t <> [] /\ trimmed t /\ ~ marked t /\ (k < length g)%nat
  end.
Definition setting_ok (s : setting) : Prop :=
  gap (s_indent s) /\ gap (s_before s) /\ gap (s_after s) /\ gap (s_end s) /\ sign (s_sign s) /\
  on_line (s_name s) /\ s_name s <> [] /\ trimmed (s_name s) /\ ~ marked (s_name s) /\ (forall c, In c (s_name s) -> ~ sign c) /\
  on_line (s_value s) /\ trimmed (s_value s) /\
  ~ bracketed (s_name s ++ s_before s ++ s_sign s :: s_after s ++ s_value s) /\
  Forall (tail_ok (length (s_indent s))) (s_tail s).
(** Consecutive elements of a list. *)
Definition in_turn {A} (P : A -> A -> Prop) (l : list A) : Prop := forall a x y b, l = a ++ x :: y :: b -> P x y.
Definition section_ok (x : section) : Prop :=
  gap (h_indent x) /\ on_line (h_name x) /\ h_name x <> [] /\ ~ In "]"%char (h_name x) /\ on_line (h_rest x) /\
  Forall filler_ok (h_fill x) /\ Forall setting_ok (h_settings x) /\
  in_turn (fun s s' => length (s_indent s') <= length (s_indent s))%nat (h_settings x).
Definition document_ok (d : document) : Prop :=
  Forall filler_ok (d_fill d) /\ Forall section_ok (d_sections d) /\
  in_turn (fun x x' => forall ss s, h_settings x = ss ++ [s] -> (length (h_indent x') <= length (s_indent s))%nat) (d_sections d).

(** What it says.  The value of a setting: the text after the sign and the
    lines that belong to it, an empty one for a line of spaces, comments left
    out; trailing space and empty lines removed. *)
Definition tail_text (t : tail) : list str :=
  match t with Between (Empty _) => [[]] | Between (Remark _ _ _) => [] | More _ t _ => [t] end.
Fixpoint joined (ls : list str) : str :=
  match ls with [] => [] | [l] => l | l :: ls => l ++ newline :: joined ls end.
Definition setting_says (s : setting) (p : str * str) : Prop :=
  fst p = s_name s /\
  exists w, joined (s_value s :: flat_map tail_text (s_tail s)) = snd p ++ w /\ (forall c, In c w -> space_char c) /\ ends_bare (snd p).
Definition section_says (x : section) (e : str * list (str * str)) : Prop :=
  fst e = h_name x /\ Forall2 setting_says (h_settings x) (snd e).
Definition says (d : document) (f : list (str * list (str * str))) : Prop := Forall2 section_says (d_sections d) f.

(** [u] is [t] with every line end (return, or return and newline) written as a newline. *)
Inductive newlines : str -> str -> Prop :=
| newlines_nil : newlines [] []
| newlines_char c t u : c <> return_ -> newlines t u -> newlines (c :: t) (c :: u)
| newlines_dos t u : newlines t u -> newlines (return_ :: newline :: t) (newline :: u)
| newlines_mac t u : (forall t', t <> newline :: t') -> newlines t u -> newlines (return_ :: t) (newline :: u).
