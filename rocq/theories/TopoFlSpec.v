(** * Vocabulary for rounding in the topographic stage. *)
From Verif Require Import Base TopoSpec.
Open Scope Z_scope.

(** [x] differs from the limit [t] by more than one part in 2^40. *)
Definition apart (t x : Q) : Prop := (t * Qpower 2 (-40) < Qabs (x - t))%Q.

(** The rise from [v] to [r] is nowhere near a limit at which the formula for
    point [k] jumps: the upwind slope at 0.05 and 0.45, the downwind stretch
    0.2 away from 1, the distance from the crest at a quarter of the height. *)
Definition off_limits (y : list Q) (v r : Z) (ds : Q) (k : Z) : Prop :=
  let h := (elev_at y r - elev_at y v)%Q in
  let sl := (h / (inject_Z (r - v) * ds))%Q in
  apart (5#100) sl /\ apart (45#100) sl /\ apart (2#10) (Qabs (stretch y v r - 1)) /\
  apart (h / 4) (inject_Z (Z.abs (r - k)) * ds).

(** Elevations of less than 2^50 m in size. *)
Definition moderate (line : list Q) : Prop := forall x, In x line -> (Qabs x <= inject_Z (2 ^ 50))%Q.
