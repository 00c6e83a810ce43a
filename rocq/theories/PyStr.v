(** * Python strings as lists of characters. *)
From Verif Require Import Base.
From Coq Require Export Ascii String List.
Export ListNotations.
Open Scope Z_scope.

Definition str := list ascii.

(** String literal. *)
Definition lit (s : string) : str := list_ascii_of_string s.
Arguments lit s%string.

(** Python [s[:n]] for n >= 0. *)
Definition take (n : nat) (s : str) : str := firstn n s.

(** Python [s[:-n]] for n > 0. *)
Definition drop_last (n : nat) (s : str) : str := firstn (length s - n) s.

(** Python [s[-n:]] for n > 0. *)
Definition last_n (n : nat) (s : str) : str := skipn (length s - n) s.

(** Python [s.split(c)[0]]: everything before the first [c]. *)
Fixpoint split_head (c : ascii) (s : str) : str :=
  match s with
  | [] => []
  | x :: xs => if Ascii.eqb x c then [] else x :: split_head c xs
  end.

(** Python [c in s] for a one-character [c]. *)
Definition has_char (c : ascii) (s : str) : bool := existsb (Ascii.eqb c) s.

(** Index of the last occurrence of [c], -1 when absent ([s.rfind(c)]). *)
Fixpoint rfind_from (c : ascii) (s : str) (i last : Z) : Z :=
  match s with
  | [] => last
  | x :: xs => rfind_from c xs (i + 1) (if Ascii.eqb x c then i else last)
  end.
Definition rfind (c : ascii) (s : str) : Z := rfind_from c s 0 (-1).

Definition slash : ascii := "/"%char.
Definition dot : ascii := "."%char.
Definition underscore : ascii := "_"%char.

(** [os.path.splitext(p)[0]] (CPython genericpath._splitext): cut at the last
    dot when it comes after the last separator and the characters between the
    separator and that dot are not all dots. *)
Definition splitext_root (p : str) : str :=
  let sep := rfind slash p in
  let d := rfind dot p in
  if sep <? d then
    let between := firstn (Z.to_nat (d - (sep + 1))) (skipn (Z.to_nat (sep + 1)) p) in
    if forallb (Ascii.eqb dot) between then p else firstn (Z.to_nat d) p
  else p.

(** [os.path.basename(p)] (posixpath): after the last separator. *)
Definition basename (p : str) : str := skipn (Z.to_nat (rfind slash p + 1)) p.

(** Characters after which posixpath.dirname strips: trailing slashes of the head. *)
Fixpoint strip_left_slashes (s : str) : str :=
  match s with
  | x :: xs => if Ascii.eqb x slash then strip_left_slashes xs else s
  | [] => []
  end.
Definition rstrip_slashes (s : str) : str := rev (strip_left_slashes (rev s)).

(** [os.path.dirname(p)] (posixpath): head up to the last separator, trailing
    slashes removed unless the head is all slashes. *)
Definition dirname (p : str) : str :=
  let head := firstn (Z.to_nat (rfind slash p + 1)) p in
  if forallb (Ascii.eqb slash) head then head else rstrip_slashes head.

(** [os.path.join(a, b)] (posixpath) for a relative second component [b]
    (all callers pass literals or names without a leading slash). *)
Definition pjoin (a b : str) : str :=
  match rev a with
  | [] => b
  | x :: _ => if Ascii.eqb x slash then a ++ b else a ++ [slash] ++ b
  end.
