(** * Words for reading a text file that something else wrote (C105). *)
From Coq Require Import Ascii String Qabs.
From Verif Require Import Base PyStr TxtSpec.
Open Scope Z_scope.

(** ** Decimal numbers *)
Inductive sign := Bare | Minus | Plus.
Definition sign_text (s : sign) : str := match s with Bare => [] | Minus => lit "-" | Plus => lit "+" end.
Definition negated (s : sign) (q : Q) : Q := match s with Minus => (- q)%Q | _ => q end.
(** Digits, most significant first. *)
Definition digits_text (l : list Z) : str := map (fun n => ascii_of_nat (Z.to_nat (48 + n))) l.
Definition whole (l : list Z) : Z := fold_left (fun a n => 10 * a + n) l 0.
(** Sign and digits, perhaps a point and digits, perhaps e or E and an exponent. *)
Record decimal := Decimal { d_sign : sign; d_whole : list Z; d_frac : option (list Z); d_exp : option (bool * sign * list Z) }.
Definition frac_digits (x : decimal) : list Z := match d_frac x with Some l => l | None => [] end.
Definition decimal_text (x : decimal) : str :=
  sign_text (d_sign x) ++ digits_text (d_whole x) ++
  match d_frac x with Some l => "."%char :: digits_text l | None => [] end ++
  match d_exp x with Some (capital, s, l) => (if capital : bool then "E"%char else "e"%char) :: sign_text s ++ digits_text l | None => [] end.
Definition all_digit (l : list Z) : Prop := forall n, In n l -> 0 <= n <= 9.
(** At least one digit before or after the point, and one in the exponent. *)
Definition proper (x : decimal) : Prop :=
  all_digit (d_whole x) /\ all_digit (frac_digits x) /\ (d_whole x <> [] \/ frac_digits x <> []) /\
  match d_exp x with Some (_, _, l) => l <> [] /\ all_digit l | None => True end.
Definition power (x : decimal) : Z := match d_exp x with Some (_, Minus, l) => - whole l | Some (_, _, l) => whole l | None => 0 end.
Definition decimal_value (x : decimal) : Q :=
  negated (d_sign x) ((inject_Z (whole (d_whole x)) + inject_Z (whole (frac_digits x)) / 10 ^ zlen (frac_digits x)) * 10 ^ power x)%Q.
(** The double nearest to a number (one of them, if there are two). *)
Definition nearest (q y : Q) : Prop := double y /\ forall z, double z -> (Qabs (y - q) <= Qabs (z - q))%Q.
(** Far from the largest double. *)
Definition moderate (x : decimal) : Prop := (Qabs (decimal_value x) <= 2 ^ 1023)%Q.
Definition reads_as (x : decimal) (v : num) : Prop := match v with Num y => nearest (decimal_value x) y | NaN => False end.

(** ** Lines *)
(** Some blanks, numbers with the delimiter between them, some blanks, and perhaps a comment. *)
Record line := Line { before : nat; numbers : list decimal; after : nat; remark : option str }.
Fixpoint between (d : ascii) (l : list str) : str :=
  match l with [] => [] | x :: l' => match l' with [] => x | _ => x ++ [d] ++ between d l' end end.
Definition blanks (n : nat) : str := repeat " "%char n.
Definition line_text (d : ascii) (l : line) : str :=
  blanks (before l) ++ between d (map decimal_text (numbers l)) ++ blanks (after l) ++ match remark l with Some t => "%"%char :: t | None => [] end.
Definition good_line (l : line) : Prop :=
  (forall x, In x (numbers l) -> proper x /\ moderate x) /\ match remark l with Some t => ~ In "010"%char t /\ ~ In "013"%char t | None => True end.
(** Each line ends with a newline, or with a carriage return and a newline; the last one need not end. *)
Definition ended (d : ascii) (l : line * bool) : str := line_text d (fst l) ++ (if snd l then ["013"%char; "010"%char] else ["010"%char]).
Definition file_text (d : ascii) (ls : list (line * bool)) (last : line) : str := flat_map (ended d) ls ++ line_text d last.
(** The lines with numbers, as rows. *)
Definition rows (ls : list (line * bool)) (last : line) : list (list decimal) :=
  filter (fun r => match r with [] => false | _ => true end) (map numbers (map fst ls ++ [last])).
(** The delimiter is no part of a number or a comment, and does not end a line. *)
Definition divides (d : ascii) : Prop := ~ In d (lit "0123456789+-.eE%") /\ d <> "010"%char /\ d <> "013"%char.
