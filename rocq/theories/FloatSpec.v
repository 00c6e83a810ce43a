(** * Vocabulary for the rounding of stored multipliers. *)
From Verif Require Import Base.
Open Scope Z_scope.

(** [fl] rounds to binary floating-point numbers of [p] significant bits, with
    exponents of any size: it keeps such numbers, yields such numbers, keeps
    the order and errs by at most one part in 2^p. *)
Record binary (p : Z) (fl : Q -> Q) : Prop := {
  bin_proper : forall x y, (x == y)%Q -> (fl x == fl y)%Q;
  bin_mono : forall x y, (x <= y)%Q -> (fl x <= fl y)%Q;
  bin_format : forall x, exists k e : Z, Z.abs k <= 2 ^ p /\ (fl x == inject_Z k * Qpower 2 e)%Q;
  bin_exact : forall k e : Z, Z.abs k <= 2 ^ p -> (fl (inject_Z k * Qpower 2 e) == inject_Z k * Qpower 2 e)%Q;
  bin_near : forall x, (Qabs (fl x - x) <= Qpower 2 (- p) * Qabs x)%Q
}.
(** Single and double precision. *)
Definition single : (Q -> Q) -> Prop := binary 24.
Definition double : (Q -> Q) -> Prop := binary 53.

(** A possibly missing value, rounded. *)
Definition nround (fl : Q -> Q) (x : num) : num := match x with NaN => NaN | Num q => Num (fl q) end.

(** Two possibly missing values that differ by at most [b]. *)
Definition within (b : Q) (x y : num) : Prop :=
  match x, y with NaN, NaN => True | Num a, Num c => (Qabs (a - c) <= b)%Q | _, _ => False end.
