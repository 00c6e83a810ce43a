(** * What the direct geodesic formulae should compute (C70), independent of the model. *)
From Coq Require Import Reals.
From Verif Require Import Base VincSpec.
Local Open Scope R_scope.

(** A geodesic on the ellipsoid of flattening [f] and equatorial radius [a] which leaves a
    point of reduced latitude [u1] in the direction [az], in Bessel's description: it
    corresponds to the great circle of the unit sphere which leaves the point of latitude [u1]
    in the same direction, [al] is the azimuth of that great circle where it crosses the
    equator and [s1] the distance from that crossing.  After the angle [sg] the great circle is
    at latitude [u2] and [lam] further east; the geodesic is then at reduced latitude [u2],
    [dlon] further east, and has the length [len]. *)
Definition geodesic_from (f a u1 az sg u2 lam dlon len : R) : Prop :=
  walk u1 0 az sg = point u2 lam /\
  exists al s1, 0 <= cos al /\ sin al = cos u1 * sin az /\ sin u1 = cos al * sin s1 /\ cos u1 * cos az = cos al * cos s1 /\
    let k2 := cos al ^ 2 * ecc2 f in
    integral_is (fun t => a * (1 - f) * sqrt (1 + k2 * sin t ^ 2)) s1 (s1 + sg) len /\
    exists v, integral_is (fun t => (2 - f) / (1 + (1 - f) * sqrt (1 + k2 * sin t ^ 2))) s1 (s1 + sg) v /\
              dlon = lam - f * sin al * v.

(** [u] is the reduced latitude of [phi], the poles included: tan u = (1 - f) tan phi. *)
Definition reduced_of (f phi u : R) : Prop :=
  - (PI / 2) <= phi <= PI / 2 /\ - (PI / 2) <= u <= PI / 2 /\ sin u * cos phi = (1 - f) * sin phi * cos u.
