(** * Model of the geodesic formulae (utilities/vincenty.py) over the real numbers.
    Floating-point rounding is not modelled: [math.sin] and the like are the functions of
    the Coq library, [math.atan2] is [atan2] of Atan2.v.  One consequence is visible: for
    two points exactly on the equator the code divides by the square of cos(asin 1), which
    is 0 over the reals and about 4e-33 in floating point. *)
From Coq Require Import Reals Lra List ZArith.
From Verif Require Import Base Atan2.
Import ListNotations.
Local Open Scope R_scope.

(** vincenty.py:207-240: the values one pass of the loop of vinc_dist assigns. *)
Record vinc_state := { v_sqr_sin_sigma : R; v_sin_sigma : R; v_cos_sigma : R; v_sigma : R;
                       v_alpha : R; v_cos2sigma_m : R; v_lembda : R }.

(** vincenty.py:214-240.  Line 225 divides by sin(sigma), line 227 is asin of a value that
    must lie in [-1, 1], line 229 divides by cos(alpha) squared. *)
Definition vinc_step (f u1 u2 omega lembda : R) : res vinc_state :=
  let sqr_sin_sigma := (cos u2 * sin lembda) ^ 2 + (cos u1 * sin u2 - sin u1 * cos u2 * cos lembda) ^ 2 in
  let sin_sigma := sqrt sqr_sin_sigma in
  let cos_sigma := sin u1 * sin u2 + cos u1 * cos u2 * cos lembda in
  let sigma := atan2 sin_sigma cos_sigma in
  if Req_EM_T (sin sigma) 0 then Err ZeroDivisionError else
  let sin_alpha := cos u1 * cos u2 * sin lembda / sin sigma in
  if Rlt_dec 1 (Rabs sin_alpha) then Err ValueError else
  let alpha := asin sin_alpha in
  if Req_EM_T ((cos alpha) ^ 2) 0 then Err ZeroDivisionError else
  let cos2sigma_m := cos sigma - 2 * sin u1 * sin u2 / (cos alpha) ^ 2 in
  let c := f / 16 * (cos alpha) ^ 2 * (4 + f * (4 - 3 * (cos alpha) ^ 2)) in
  let new := omega + (1 - c) * f * sin alpha *
             (sigma + c * sin sigma * (cos2sigma_m + c * cos sigma * (-1 + 2 * cos2sigma_m ^ 2))) in
  Ok {| v_sqr_sin_sigma := sqr_sin_sigma; v_sin_sigma := sin_sigma; v_cos_sigma := cos_sigma;
        v_sigma := sigma; v_alpha := alpha; v_cos2sigma_m := cos2sigma_m; v_lembda := new |}.

(** vincenty.py:207-212: the loop condition.  The division is guarded by lembda != 0. *)
Definition vinc_again (last lembda : R) : bool :=
  if Rlt_dec last (-3000000) then true
  else if Req_EM_T lembda 0 then false
  else if Rlt_dec (1 / 10 ^ 9) (Rabs ((last - lembda) / lembda)) then true else false.

(** vincenty.py:207-240.  [None]: not finished after [fuel] passes.  [st] holds what the
    previous pass assigned. *)
Fixpoint vinc_loop (fuel : nat) (f u1 u2 omega last lembda : R) (st : option vinc_state) : option (res vinc_state) :=
  if vinc_again last lembda then
    match fuel with
    | O => None
    | S n => match vinc_step f u1 u2 omega lembda with
             | Err e => Some (Err e)
             | Ok s => vinc_loop n f u1 u2 omega lembda (v_lembda s) (Some s)
             end
    end
  else match st with Some s => Some (Ok s) | None => Some (Err UnboundLocalError) end.

(** vincenty.py:244 and 329-330. *)
Definition series_A (u2 : R) : R := 1 + u2 / 16384 * (4096 + u2 * (-768 + u2 * (320 - 175 * u2))).
(** vincenty.py:246 and 331. *)
Definition series_B (u2 : R) : R := u2 / 1024 * (256 + u2 * (-128 + u2 * (74 - 47 * u2))).

(** vincenty.py:276-279, 282-285, 315-318, 394-397. *)
Definition wrap (al : R) : R :=
  let al := if Rlt_dec al 0 then al + 2 * PI else al in
  if Rlt_dec (2 * PI) al then al - 2 * PI else al.

(** vincenty.py:248-255 *)
Definition inv_delta_sigma (B sin_sigma cos_sigma sqr_sin_sigma c2 : R) : R :=
  B * sin_sigma * (c2 + B / 4 * (cos_sigma * (-1 + 2 * c2 ^ 2) - B / 6 * c2 * (-3 + 4 * sqr_sin_sigma) * (-3 + 4 * c2 ^ 2))).

(** vincenty.py:242-287: what vinc_dist makes of the last pass.  Line 242 divides by b * b. *)
Definition vinc_finish (f a u1 u2 : R) (s : vinc_state) : res (R * R * R) :=
  let b := a * (1 - f) in
  if Req_EM_T (b * b) 0 then Err ZeroDivisionError else
  let usq := (cos (v_alpha s)) ^ 2 * (a * a - b * b) / (b * b) in
  let delta_sigma := inv_delta_sigma (series_B usq) (v_sin_sigma s) (v_cos_sigma s) (v_sqr_sin_sigma s) (v_cos2sigma_m s) in
  let dist := b * series_A usq * (v_sigma s - delta_sigma) in
  let l := v_lembda s in
  let alpha12 := atan2 (cos u2 * sin l) (cos u1 * sin u2 - sin u1 * cos u2 * cos l) in
  let alpha21 := atan2 (cos u1 * sin l) (- sin u1 * cos u2 + cos u1 * sin u2 * cos l) in
  Ok (dist, wrap alpha12, wrap (alpha21 + 2 * PI / 2)).

(** vincenty.py:190-287: the part of vinc_dist after the test for close points. *)
Definition vinc_far (fuel : nat) (f a phi1 lembda1 phi2 lembda2 : R) : option (res (R * R * R)) :=
  let u1 := atan ((1 - f) * tan phi1) in
  let u2 := atan ((1 - f) * tan phi2) in
  let lembda := lembda2 - lembda1 in
  match vinc_loop fuel f u1 u2 lembda (-4000000) lembda None with
  | None => None
  | Some (Err e) => Some (Err e)
  | Some (Ok s) => Some (vinc_finish f a u1 u2 s)
  end.

(** vincenty.py:171-287, vinc_dist(f, a, phi1, lembda1, phi2, lembda2), allowing [fuel]
    passes of the loop. *)
Definition vinc_dist (fuel : nat) (f a phi1 lembda1 phi2 lembda2 : R) : option (res (R * R * R)) :=
  if Rlt_dec (Rabs (phi2 - phi1)) (1 / 10 ^ 8) then
    if Rlt_dec (Rabs (lembda2 - lembda1)) (1 / 10 ^ 8) then Some (Ok (0, 0, 0))
    else vinc_far fuel f a phi1 lembda1 phi2 lembda2
  else vinc_far fuel f a phi1 lembda1 phi2 lembda2.

(** vincenty.py:344-352: the B / 6 term stands inside the factor cos(sigma). *)
Definition dir_delta_sigma (B sigma two_sigma_m : R) : R :=
  let c2 := cos two_sigma_m in
  B * sin sigma * (c2 + B / 4 * (cos sigma * (-1 + 2 * c2 ^ 2 - B / 6 * c2 * (-3 + 4 * (sin sigma) ^ 2) * (-3 + 4 * c2 ^ 2)))).

(** vincenty.py:341-355.  [tsm] is two_sigma_m of the previous pass; line 341 divides by
    sigma. *)
Fixpoint direct_loop (fuel : nat) (sigma0 sigma1 B last sigma : R) (tsm : option R) : option (res (R * option R)) :=
  if Req_EM_T sigma 0 then Some (Err ZeroDivisionError)
  else if Rlt_dec (1 / 10 ^ 9) (Rabs ((last - sigma) / sigma)) then
    match fuel with
    | O => None
    | S n => let two_sigma_m := 2 * sigma1 + sigma in
             direct_loop n sigma0 sigma1 B sigma (sigma0 + dir_delta_sigma B sigma two_sigma_m) (Some two_sigma_m)
    end
  else Some (Ok (sigma, tsm)).

(** vincenty.py:357-399: what vinc_pt makes of the final sigma; two_sigma_m is unbound if
    the loop body never ran. *)
Definition direct_finish (f u1 sinalpha cosalpha_sq lembda1 alpha12 : R) (r : R * option R) : res (R * R * R) :=
  let '(sigma, tsm) := r in
  match tsm with
  | None => Err UnboundLocalError
  | Some two_sigma_m =>
      let phi2 := atan2 (sin u1 * cos sigma + cos u1 * sin sigma * cos alpha12)
                        ((1 - f) * sqrt (sinalpha ^ 2 + (sin u1 * sin sigma - cos u1 * cos sigma * cos alpha12) ^ 2)) in
      let lembda := atan2 (sin sigma * sin alpha12) (cos u1 * cos sigma - sin u1 * sin sigma * cos alpha12) in
      let c := f / 16 * cosalpha_sq * (4 + f * (4 - 3 * cosalpha_sq)) in
      let omega := lembda - (1 - c) * f * sinalpha *
                   (sigma + c * sin sigma * (cos two_sigma_m + c * cos sigma * (-1 + 2 * (cos two_sigma_m) ^ 2))) in
      let alpha21 := atan2 sinalpha (- sin u1 * sin sigma + cos u1 * cos sigma * cos alpha12) in
      Ok (phi2, lembda1 + omega, wrap (alpha21 + 2 * PI / 2))
  end.

(** vincenty.py:303-399, vinc_pt(f, a, phi1, lembda1, alpha12, s), allowing [fuel] passes.
    Line 328 divides by b * b, line 334 by b * A. *)
Definition vinc_pt (fuel : nat) (f a phi1 lembda1 alpha12 s : R) : option (res (R * R * R)) :=
  let alpha12 := wrap alpha12 in
  let b := a * (1 - f) in
  let tan_u1 := (1 - f) * tan phi1 in
  let u1 := atan tan_u1 in
  let sigma1 := atan2 tan_u1 (cos alpha12) in
  let sinalpha := cos u1 * sin alpha12 in
  let cosalpha_sq := 1 - sinalpha * sinalpha in
  if Req_EM_T (b * b) 0 then Some (Err ZeroDivisionError) else
  let usq := cosalpha_sq * (a * a - b * b) / (b * b) in
  let A := series_A usq in
  let B := series_B usq in
  if Req_EM_T (b * A) 0 then Some (Err ZeroDivisionError) else
  let sigma := s / (b * A) in
  match direct_loop fuel sigma sigma1 B (2 * sigma + 2) sigma None with
  | None => None
  | Some (Err e) => Some (Err e)
  | Some (Ok r) => Some (direct_finish f u1 sinalpha cosalpha_sq lembda1 alpha12 r)
  end.
