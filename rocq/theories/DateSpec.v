(** * Vocabulary for the dates of files. *)
From Verif Require Import Base PyStr.
Open Scope Z_scope.

(** ** The calendar *)
Definition leap_year (y : Z) : Prop := y mod 4 = 0 /\ (y mod 100 <> 0 \/ y mod 400 = 0).
(** Days of a year before its month [m], for a year without and with a leap day. *)
Definition before_month : list Z := [0; 31; 59; 90; 120; 151; 181; 212; 243; 273; 304; 334; 365].
(** Days before the first of January of the year [y], from that of the year 1. *)
Definition before_year (y : Z) : Z := 365 * (y - 1) + (y - 1) / 4 - (y - 1) / 100 + (y - 1) / 400.

(** [n] days after the first of January 1970 is the date [y]-[m]-[d]. *)
Inductive is_date (n y m d : Z) : Prop :=
| IsDate lp :
    (leap_year y -> lp = 1) -> (~ leap_year y -> lp = 0) -> 1 <= m <= 12 -> 1 <= d ->
    (let start m := nth (Z.to_nat (m - 1)) before_month 0 + (if 2 <? m then lp else 0) in
     start m + d <= start (m + 1) /\ n = before_year y - before_year 1970 + start m + d - 1) ->
    is_date n y m d.
(** [t] whole seconds after midnight of the first of January 1970 is this date and time. *)
Definition is_time (t y m d h mi s : Z) : Prop :=
  exists n, is_date n y m d /\ 0 <= h < 24 /\ 0 <= mi < 60 /\ 0 <= s < 60 /\ t = n * 86400 + h * 3600 + mi * 60 + s.

(** ** Text *)
Definition digit_of (c : ascii) : Z := Z.of_nat (nat_of_ascii c) - 48.
(** [s] is [n] in [w] decimal digits. *)
Definition in_digits (w : nat) (n : Z) (s : str) : Prop :=
  length s = w /\ (forall c, In c s -> 0 <= digit_of c <= 9) /\ n = fold_left (fun a c => 10 * a + digit_of c) s 0.
(** Python's < on text. *)
Fixpoint before (a b : str) : Prop :=
  match a, b with
  | [], _ :: _ => True
  | x :: a, y :: b => (nat_of_ascii x < nat_of_ascii y)%nat \/ x = y /\ before a b
  | _, [] => False
  end.
