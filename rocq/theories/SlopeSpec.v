(** * Vocabulary for slope and aspect (C68). *)
From Coq Require Import Reals Qreals.
From Verif Require Import Base NameModel ShldSpec Atan2.
Open Scope Z_scope.

(** A height that is missing: NaN or the raster's no-data value. *)
Definition no_height (nodata : option Q) (x : num) : Prop :=
  match x with NaN => True | Num q => match nodata with Some n => (q == n)%Q | None => False end end.

(** Beyond the edge the raster repeats its border pixels. *)
Definition border (n k : Z) : Z := Z.max 0 (Z.min (n - 1) k).

(** Third-order finite differences (Horn 1981) of heights [z] at row r, column c, rows running
    south: rise per metre towards the east and towards the north; [x], [y] pixel size in metres. *)
Definition rise_east (z : Z -> Z -> Q) (x : Q) (r c : Z) : Q :=
  ((z (r - 1)%Z (c + 1)%Z + 2 * z r (c + 1)%Z + z (r + 1)%Z (c + 1)%Z)
   - (z (r - 1)%Z (c - 1)%Z + 2 * z r (c - 1)%Z + z (r + 1)%Z (c - 1)%Z)) / (8 * x).
Definition rise_north (z : Z -> Z -> Q) (y : Q) (r c : Z) : Q :=
  ((z (r - 1)%Z (c - 1)%Z + 2 * z (r - 1)%Z c + z (r - 1)%Z (c + 1)%Z)
   - (z (r + 1)%Z (c - 1)%Z + 2 * z (r + 1)%Z c + z (r + 1)%Z (c + 1)%Z)) / (8 * y).

Local Open Scope R_scope.
Definition degrees (a : R) : R := a * 180 / PI.

(** What the numerical functions of shield_mult.py:134-136 and 142-143 compute, up to an error
    of [eps] degrees: the angle of the gradient with the horizontal, and the compass heading
    (450 - arctan2 (dzdy, -dzdx)) modulo 360, in [0, 360]. *)
Definition slope_close (eps : R) (slope_fn : Q -> Q -> Q) : Prop :=
  forall x y, Rabs (Q2R (slope_fn x y) - degrees (atan (norm2 (Q2R x) (Q2R y)))) <= eps.
Definition aspect_close (eps : R) (aspect_fn : Q -> Q -> Q) : Prop :=
  forall x y, (~ (x == 0) \/ ~ (y == 0))%Q ->
    (0 <= aspect_fn x y <= 360)%Q /\
    exists k : Z, Rabs (Q2R (aspect_fn x y) - (450 - degrees (atan2 (Q2R y) (- Q2R x))) + 360 * IZR k) <= eps.

(** Compass bearing [b] (degrees clockwise from north) points down the gradient: the horizontal
    direction of steepest descent is (- east, - north). *)
Definition downhill (east north b : R) : Prop :=
  - east = norm2 east north * sin (b * PI / 180) /\ - north = norm2 east north * cos (b * PI / 180).
