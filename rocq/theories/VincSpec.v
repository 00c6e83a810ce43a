(** * What the geodesic formulae should compute (C62), independent of the model.
    A point of the unit sphere is given by a latitude and a longitude in radians. *)
From Coq Require Import Reals.
From Verif Require Import Base.
Local Open Scope R_scope.

Definition vec := (R * R * R)%type.
Definition vadd (x y : vec) : vec := let '(a, b, c) := x in let '(d, e, g) := y in (a + d, b + e, c + g).
Definition vscale (k : R) (x : vec) : vec := let '(a, b, c) := x in (k * a, k * b, k * c).
Definition dot (x y : vec) : R := let '(a, b, c) := x in let '(d, e, g) := y in a * d + b * e + c * g.

(** The point of the unit sphere with this latitude and longitude. *)
Definition point (lat lon : R) : vec := (cos lat * cos lon, cos lat * sin lon, sin lat).
(** The directions north and east there. *)
Definition north (lat lon : R) : vec := (- sin lat * cos lon, - sin lat * sin lon, cos lat).
Definition east (lat lon : R) : vec := (- sin lon, cos lon, 0).

(** Where one arrives by leaving the point in the direction [az] (clockwise from north) and
    following the great circle for the angle [d]. *)
Definition walk (lat lon az d : R) : vec :=
  vadd (vscale (cos d) (point lat lon))
       (vscale (sin d) (vadd (vscale (cos az) (north lat lon)) (vscale (sin az) (east lat lon)))).

(** Great-circle distance on the unit sphere. *)
Definition arc (lat1 lon1 lat2 lon2 : R) : R := acos (dot (point lat1 lon1) (point lat2 lon2)).

(** Reduced latitude on an ellipsoid of flattening [f]. *)
Definition reduced (f phi : R) : R := atan ((1 - f) * tan phi).

(** A latitude strictly between the poles. *)
Definition latitude (phi : R) : Prop := - (PI / 2) < phi < PI / 2.
(** The two points are not within 1e-8 radians in both coordinates. *)
Definition apart (phi1 lon1 phi2 lon2 : R) : Prop := / 10 ^ 8 <= Rabs (phi2 - phi1) \/ / 10 ^ 8 <= Rabs (lon2 - lon1).

(** [v] is the integral of [g] from [a] to [b]. *)
Definition integral_is (g : R -> R) (a b v : R) : Prop :=
  exists G, (forall t, a <= t <= b -> derivable_pt_lim G t (g t)) /\ v = G b - G a.

(** Second eccentricity squared, (a^2 - b^2) / b^2 with b = a (1 - f). *)
Definition ecc2 (f : R) : R := / ((1 - f) * (1 - f)) - 1.

(** A geodesic on the ellipsoid of flattening [f] and equatorial radius [a] between the
    reduced latitudes [u1] and [u2], in Bessel's description: it corresponds to a great
    circle of the unit sphere which crosses the equator at azimuth [al] and runs from
    distance [s1] to distance [s1 + sg] from that crossing; [lam] is the difference of
    longitude on the sphere, [dlon] the difference of longitude on the ellipsoid and [len]
    the length. *)
Definition geodesic (f a u1 u2 lam sg dlon len : R) : Prop :=
  sg = arc u1 0 u2 lam /\
  exists al s1, 0 <= cos al /\
    sin u1 = cos al * sin s1 /\ sin u2 = cos al * sin (s1 + sg) /\ sin al * sin sg = cos u1 * cos u2 * sin lam /\
    let k2 := cos al ^ 2 * ecc2 f in
    integral_is (fun t => a * (1 - f) * sqrt (1 + k2 * sin t ^ 2)) s1 (s1 + sg) len /\
    exists v, integral_is (fun t => (2 - f) / (1 + (1 - f) * sqrt (1 + k2 * sin t ^ 2))) s1 (s1 + sg) v /\
              dlon = lam - f * sin al * v.

(** Length of the meridian ellipse (a cos t, b sin t), b = a (1 - f), between the reduced
    latitudes [u1] <= [u2]. *)
Definition meridian_arc (f a u1 u2 len : R) : Prop :=
  integral_is (fun t => sqrt ((a * sin t) ^ 2 + (a * (1 - f) * cos t) ^ 2)) u1 u2 len.
