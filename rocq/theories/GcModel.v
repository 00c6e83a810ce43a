(** * Model of the class GreatCircle (utilities/vincenty.py) over the real numbers. *)
From Coq Require Import Reals List ZArith.
From Verif Require Import Base Atan2 VincModel.
Import ListNotations.
Local Open Scope R_scope.

(** math.radians and math.degrees *)
Definition radians (x : R) : R := x * PI / 180.
Definition degrees (x : R) : R := x * 180 / PI.

(** vincenty.py:40-61: the attributes of an instance. *)
Record great_circle := { gc_a : R; gc_f : R; gc_lat1 : R; gc_lat2 : R; gc_lon1 : R; gc_lon2 : R;
                         gc_distance : R; gc_azimuth12 : R; gc_azimuth21 : R; gc_arclen : R; gc_antipodal : bool }.

(** vincenty.py:20-61, GreatCircle(rmajor, rminor, lon1, lat1, lon2, lat2), allowing [fuel]
    passes in vinc_dist.  Line 41 divides by rmajor. *)
Definition great_circle_init (fuel : nat) (rmajor rminor lon1 lat1 lon2 lat2 : R) : option (res great_circle) :=
  let lat1 := radians lat1 in
  let lon1 := radians lon1 in
  let lat2 := radians lat2 in
  let lon2 := radians lon2 in
  if Req_EM_T rmajor 0 then Some (Err ZeroDivisionError) else
  let f := (rmajor - rminor) / rmajor in
  match vinc_dist fuel f rmajor lat1 lon1 lat2 lon2 with
  | None => None
  | Some (Err e) => Some (Err e)
  | Some (Ok (d, a12, a21)) =>
      let gcarclen := 2 * asin (sqrt ((sin ((lat1 - lat2) / 2)) ^ 2 + cos lat1 * cos lat2 * (sin ((lon1 - lon2) / 2)) ^ 2)) in
      Some (Ok {| gc_a := rmajor; gc_f := f; gc_lat1 := lat1; gc_lat2 := lat2; gc_lon1 := lon1; gc_lon2 := lon2;
                  gc_distance := d; gc_azimuth12 := a12; gc_azimuth21 := a21; gc_arclen := gcarclen;
                  gc_antipodal := if Req_EM_T gcarclen PI then true else false |})
  end.

(** vincenty.py:97-107, one entry of the arrays: longitude and latitude in degrees at the
    fraction [f] of the way. *)
Definition sphere_point (g : great_circle) (f : R) : R * R :=
  let d := gc_arclen g in
  let A := sin ((1 - f) * d) / sin d in
  let B := sin (f * d) / sin d in
  let x := A * cos (gc_lat1 g) * cos (gc_lon1 g) + B * cos (gc_lat2 g) * cos (gc_lon2 g) in
  let y := A * cos (gc_lat1 g) * sin (gc_lon1 g) + B * cos (gc_lat2 g) * sin (gc_lon2 g) in
  let z := A * sin (gc_lat1 g) + B * sin (gc_lat2 g) in
  (degrees (atan2 y x), degrees (atan2 z (sqrt (x ^ 2 + y ^ 2)))).

(** vincenty.py:115-123: [k] passes; the entries appended to lons and lats. *)
Fixpoint ellipsoid_points (fuel k : nat) (g : great_circle) (incdist latpt lonpt azimuth : R) : option (res (list R * list R)) :=
  match k with
  | O => Some (Ok ([], []))
  | S k =>
      match vinc_pt fuel (gc_f g) (gc_a g) latpt lonpt azimuth incdist with
      | None => None
      | Some (Err e) => Some (Err e)
      | Some (Ok (latptnew, lonptnew, _)) =>
          match vinc_dist fuel (gc_f g) (gc_a g) latptnew lonptnew (gc_lat2 g) (gc_lon2 g) with
          | None => None
          | Some (Err e) => Some (Err e)
          | Some (Ok (_, azimuth, _)) =>
              match ellipsoid_points fuel k g incdist latptnew lonptnew azimuth with
              | None => None
              | Some (Err e) => Some (Err e)
              | Some (Ok (lons, lats)) => Some (Ok (degrees lonptnew :: lons, degrees latptnew :: lats))
              end
          end
      end
  end.

(** vincenty.py:63-126, points(npoints): lons and lats.  Lines 106-107 return iterators
    instead of lists, which is not modelled.  sin d = 0 on line 97 makes numpy fill the
    arrays with NaN: [NonFinite]. *)
Definition points (fuel : nat) (g : great_circle) (npoints : Z) : option (res (list R * list R)) :=
  if (npoints <=? 1)%Z then Some (Err ValueError)
  else if (npoints =? 2)%Z then
    Some (Ok ([degrees (gc_lon1 g); degrees (gc_lon2 g)], [degrees (gc_lat1 g); degrees (gc_lat2 g)]))
  else if gc_antipodal g then Some (Err ValueError)
  else
    let delta := 1 / (IZR npoints - 1) in
    let incdist := gc_distance g / (IZR npoints - 1) in
    if Req_EM_T (gc_f g) 0 then
      if Req_EM_T (sin (gc_arclen g)) 0 then Some (Err NonFinite) else
      let ps := map (fun k => sphere_point g (delta * IZR k)) (zrange npoints) in
      Some (Ok (map fst ps, map snd ps))
    else
      match ellipsoid_points fuel (Z.to_nat (npoints - 2)) g incdist (gc_lat1 g) (gc_lon1 g) (gc_azimuth12 g) with
      | None => None
      | Some (Err e) => Some (Err e)
      | Some (Ok (lons, lats)) =>
          Some (Ok (degrees (gc_lon1 g) :: lons ++ [degrees (gc_lon2 g)], degrees (gc_lat1 g) :: lats ++ [degrees (gc_lat2 g)]))
      end.
