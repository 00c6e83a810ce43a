(** * What command lines with options that take values mean (C98). *)
From Verif Require Import Base PyStr RunModel UtilModel UtilSpec IniModel IniSpec CmdSpec.
Open Scope Z_scope.

(** A program declares its options by a letter and a name; [-h] and [--help] come
    with them.  Here the name begins with the letter, which is a small one. *)
Definition options := list (ascii * str).
Definition small (x : ascii) : Prop := In x (lit "abcdefghijklmnopqrstuvwxyz").
Definition options_ok (table : options) : Prop :=
  table <> [] /\ NoDup ("h"%char :: map fst table) /\
  forall x n, In (x, n) table -> small x /\ exists r, n = x :: r /\ ~ In "="%char n.
Definition declared (table : options) (x : ascii) (n : str) : Prop := In (x, n) table \/ (x = "h"%char /\ n = lit "help").

(** The name may be cut short as long as a letter is left. *)
Definition shortened (p n : str) : Prop := exists x r s, p = lit "--" ++ x :: r /\ lit "--" ++ n = p ++ s.
(** A word with a dash that begins like one of the options. *)
Definition begins_like (table : options) (w : str) : Prop :=
  exists x n, declared table x n /\
    ((exists r, w = lit "-" ++ x :: r) \/ exists p s, n = p ++ s /\ (w = lit "--" ++ p \/ exists e, w = lit "--" ++ p ++ lit "=" ++ e)).
(** A word that can stand by itself as a value. *)
Definition free (table : options) (w : str) : Prop :=
  (forall r, w <> lit "-" ++ r) \/ w = lit "-" \/ below_zero w \/ (In " "%char w /\ ~ begins_like table w).

(** Words that give option [x] a value. *)
Inductive gives_value (table : options) : list str -> ascii -> str -> Prop :=
| Long_next x n p v : In (x, n) table -> shortened p n -> free table v -> gives_value table [p; v] x v
| Long_equals x n p v : In (x, n) table -> shortened p n -> v <> lit "--" -> gives_value table [p ++ lit "=" ++ v] x v
| Letter_next x n v : In (x, n) table -> free table v -> gives_value table [lit "-" ++ [x]; v] x v
| Letter_equals x n v : In (x, n) table -> v <> lit "--" -> gives_value table [lit "-" ++ x :: lit "=" ++ v] x v
| Letter_joined x n c v : In (x, n) table -> c <> "="%char -> c :: v <> lit "--" -> gives_value table [lit "-" ++ x :: c :: v] x (c :: v).
Inductive line_gives (table : options) : list str -> list (ascii * str) -> Prop :=
| Gives_nothing : line_gives table [] []
| Gives_more ws x v ws' l : gives_value table ws x v -> line_gives table ws' l -> line_gives table (ws ++ ws') ((x, v) :: l).

(** The options of rasterize.py and of the converter's program. *)
Definition rasterizer : options := [("i"%char, lit "input"); ("a"%char, lit "attribute"); ("t"%char, lit "topography"); ("c"%char, lit "crop")].
Definition converter : options := [("p"%char, lit "path")].

(** The last value of an option. *)
Fixpoint last_value (x : ascii) (l : list (ascii * str)) (before : option str) : option str :=
  match l with [] => before | (y, v) :: l => last_value x l (if ascii_dec y x then Some v else before) end.
