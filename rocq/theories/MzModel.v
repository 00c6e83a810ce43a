(** * The roughness-length formula of the terrain multiplier. *)
From Coq Require Import Reals Lra.
Open Scope R_scope.

(** terrain_mult.py:193, in real arithmetic. *)
Definition mz (roughness : R) : R := -0.2827 * ln (0.4554 * ln roughness + 3.734) + 1.0762.

(** The formula has a value when both logarithms have positive arguments
    (otherwise numpy yields NaN or infinity). *)
Definition mz_defined (roughness : R) : Prop := 0 < roughness /\ 0 < 0.4554 * ln roughness + 3.734.

(** The same with a rounding [rnd] after every operation and on the result of
    each logarithm. *)
Definition mz_rnd (rnd : R -> R) (roughness : R) : R :=
  rnd (rnd (rnd (-0.2827) * rnd (ln (rnd (rnd (rnd 0.4554 * rnd (ln roughness)) + rnd 3.734)))) + rnd 1.0762).
Definition mz_rnd_defined (rnd : R -> R) (roughness : R) : Prop :=
  0 < roughness /\ 0 < rnd (rnd (rnd 0.4554 * rnd (ln roughness)) + rnd 3.734).
