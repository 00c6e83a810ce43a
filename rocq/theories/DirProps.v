(** * Property theorems: the direct geodesic formulae (C70). *)
From Coq Require Import Reals Lia ZArith.
From Verif Require Import Base Atan2 VincModel VincSpec VincProofs VincSeries VincRunProofs VincGeoProofs VincTermProofs VincProps DirSpec DirProofs.
From Coq Require Import Lra.
Local Open Scope R_scope.

(** ** Helpers *)
(** What vinc_pt computes when its loop ends at [x], having been at [y] before. *)
Lemma vinc_pt_eq n f a phi lon az s : 0 <= f < 1 -> 0 < a -> latitude phi ->
  let u1 := reduced f phi in let al := dal u1 az in let b := a * (1 - f) in let x := cos al * cos al * ecc2 f in
  vinc_pt n f a phi lon az s =
  if Req_EM_T (b * series_A x) 0 then Some (Err ZeroDivisionError) else
  let s0 := s / (b * series_A x) in
  match direct_loop n s0 (ds1 u1 az) (series_B x) (2 * s0 + 2) s0 None with
  | None => None
  | Some (Err e) => Some (Err e)
  | Some (Ok (sg, None)) => Some (Err UnboundLocalError)
  | Some (Ok (sg, Some tsm)) =>
      Some (Ok (atan2 (sin (du2 u1 az sg)) ((1 - f) * cos (du2 u1 az sg)),
                lon + (dlam u1 az sg - (1 - series_C f (cos al * cos al)) * f * sin al *
                  (sg + series_C f (cos al * cos al) * sin sg * (cos tsm + series_C f (cos al * cos al) * cos sg * (-1 + 2 * cos tsm ^ 2)))),
                daz21 u1 az sg))
  end.
Proof.
  intros Hf Ha Lp. cbv zeta. pose proof (reduced_facts f phi Hf Lp) as C1. fold (reduced f phi) in C1. unfold vinc_pt. destruct (wrap_trig az) as [Wc Ws]. rewrite Wc, Ws.
  fold (reduced f phi). set (u1 := reduced f phi) in *. assert (T : (1 - f) * tan phi = tan u1) by (unfold u1, reduced; rewrite tan_atan; reflexivity). rewrite T.
  fold (ds1 u1 az). fold (sal u1 az). rewrite <- (proj2 (cos_dal u1 az C1)). set (b := a * (1 - f)). assert (Hb : 0 < b) by (unfold b; nra).
  destruct (Req_EM_T (b * b) 0) as [Z|_]; [exfalso; destruct (Rmult_integral _ _ Z); lra|].
  replace (cos (dal u1 az) * cos (dal u1 az) * (a * a - b * b) / (b * b)) with (cos (dal u1 az) * cos (dal u1 az) * ecc2 f) by (unfold ecc2, b; field; lra).
  destruct (Req_EM_T _ 0) as [|_]; [reflexivity|]. destruct (direct_loop _ _ _ _ _ _ _) as [[[sg [tsm|]]|e]|]; try reflexivity.
  unfold direct_finish. do 2 f_equal. destruct (wrap_trig az) as [Wc' Ws']. rewrite ?Wc, ?Ws. fold (dZ u1 az sg) (dW u1 az sg) (dX u1 az sg) (dY az sg) (dlam u1 az sg).
  rewrite <- (sin_dal u1 az C1). apply f_equal2; [apply f_equal2|].
  - rewrite <- (sin_du2 u1 az sg C1). f_equal. f_equal. replace (sin (dal u1 az) ^ 2 + dW u1 az sg ^ 2) with (cos (du2 u1 az sg) * cos (du2 u1 az sg)).
    + apply sqrt_square. apply cos_du2. exact C1.
    + rewrite <- (dW_sqr u1 az sg C1), (sin_dal u1 az C1). ring.
  - unfold series_C. ring.
  - unfold daz21. do 3 f_equal; [apply sin_dal, C1|]. unfold dW. ring.
Qed.
Lemma al_facts f u1 az : 0 <= f <= 1 / 100 -> 0 < cos u1 -> let w := cos (dal u1 az) * cos (dal u1 az) in
  0 <= w <= 1 /\ 0 <= w * ecc2 f <= 205 / 100 * f.
Proof.
  intros Hf C1. cbv zeta. destruct (cos_dal u1 az C1) as [P Q]. pose proof (sq_nonneg (sal u1 az)). pose proof (sq_nonneg (cos (dal u1 az))). pose proof (ecc2_bound f Hf).
  set (w := cos (dal u1 az) * cos (dal u1 az)) in *. split; [lra|]. split; nra.
Qed.

(** ** C70 *)

(** Leaving a point for a distance s > 0 in any direction: the loop ends after at most five
    passes, and the answer is the end of a geodesic which leaves in that direction and whose
    length is s up to a relative error f^3 / 25 + 1e-10; the longitude is right up to the error
    of the other series, and the last component points back (where that has a meaning). *)
Theorem C70_direct : forall n f a phi1 lon1 az s, 0 <= f <= 1 / 100 -> 0 < a -> latitude phi1 -> 0 < s -> (5 <= n)%nat ->
  exists phi2 lon2 az21, vinc_pt n f a phi1 lon1 az s = Some (Ok (phi2, lon2, az21)) /\ 0 <= az21 <= 2 * PI /\
  exists sg u2 lam dlon len, geodesic_from f a (reduced f phi1) az sg u2 lam dlon len /\ 0 < sg /\ - PI < lam <= PI /\ reduced_of f phi2 u2 /\
    Rabs (len - s) <= (f ^ 3 / 25 + / 10 ^ 10) * len /\
    Rabs (lon2 - lon1 - dlon) <= (2 * f ^ 4 + f / 10 ^ 11) * sg /\
    (cos u2 <> 0 -> walk u2 lam az21 sg = point (reduced f phi1) 0).
Proof.
  intros n f a p1 l1 az s Hf Ha Lp Hs Hn. pose proof (vinc_pt_eq n f a p1 l1 az s ltac:(lra) Ha Lp) as E. cbv zeta in E. rewrite E. clear E.
  pose proof (reduced_facts f p1 ltac:(lra) Lp) as C1. fold (reduced f p1) in C1. set (u1 := reduced f p1) in *.
  destruct (al_facts f u1 az Hf C1) as [Hw Hx]. set (al := dal u1 az) in *. set (w := cos al * cos al) in *. set (x := w * ecc2 f) in *. set (s1 := ds1 u1 az) in *.
  assert (Hx' : 0 <= x <= 1 / 40) by lra. destruct (series_bounds x Hx') as [HA HB]. set (A := series_A x) in *. set (B := series_B x) in *.
  set (b := a * (1 - f)) in *. assert (Hb : 0 < b) by (unfold b; nra). assert (HbA : 0 < b * A) by nra. destruct (Req_EM_T (b * A) 0) as [Z|_]; [lra|].
  set (s0 := s / (b * A)) in *. assert (H0 : 0 < s0) by (apply Rdiv_lt_0_compat; lra).
  assert (HB' : 0 <= B <= 54 / 10000) by lra.
  destruct (loop_start s0 s1 B HB' H0 n Hn) as (y & sg & -> & Es & D & R). assert (Sg : 0 < sg) by lra.
  do 3 eexists. split; [reflexivity|]. split; [apply daz21_range|].
  assert (L : s1 <= s1 + sg) by lra.
  destruct (integral_exists (fun t => sqrt (1 + x * (sin t * sin t))) s1 (s1 + sg) L (fun t _ => cont_rate x t ltac:(lra))) as (M & HM).
  destruct (integral_exists (lon_true f w) s1 (s1 + sg) L (fun t _ => cont_lon f w t Hf Hw)) as (V & HV).
  set (LL := M (s1 + sg) - M s1) in *. set (v := V (s1 + sg) - V s1) in *.
  exists sg, (du2 u1 az sg), (dlam u1 az sg), (dlam u1 az sg - f * sin al * v), (b * LL).
  destruct (ds1_facts u1 az C1) as [F1 F2]. fold al s1 in F1, F2.
  split; [split; [apply walk_there; exact C1|]|].
  { exists al, s1. split; [apply cos_dal; exact C1|]. split; [apply sin_dal; exact C1|]. split; [exact F1|]. split; [exact F2|]. cbv zeta.
    split; [|exists v; split; [|reflexivity]].
    - exists (fun t => b * M t). split; [|unfold LL; ring]. intros t Ht. fold b. replace (1 + cos al ^ 2 * ecc2 f * sin t ^ 2) with (1 + x * (sin t * sin t)) by (unfold x, w; ring).
      apply (derivable_pt_lim_scal M b). apply HM. exact Ht.
    - exists V. split; [|reflexivity]. intros t Ht. replace (1 + cos al ^ 2 * ecc2 f * sin t ^ 2) with (1 + w * ecc2 f * (sin t * sin t)) by (unfold w; ring).
      rewrite <- lon_true_alt by assumption. apply HV. exact Ht. }
  split; [exact Sg|]. split; [apply atan2_range|]. split; [apply unreduce; [exact Hf|apply du2_range]|]. split; [|split].
  - assert (S : s = b * A * (sg - dir_delta_sigma B y (2 * s1 + y))). { replace (sg - dir_delta_sigma B y (2 * s1 + y)) with s0 by lra. unfold s0. field. lra. }
    pose proof (dist_close x s1 sg M Hx' ltac:(lra) HM) as T1. fold A B LL in T1.
    pose proof (delta_paren B s1 sg (proj1 HB)) as T2. rewrite (Rabs_pos_eq sg) in T2 by lra. pose proof (delta_lip B s1 sg y HB') as T3. rewrite (Rabs_minus_sym sg y) in T3.
    set (dv := inv_delta_sigma B (sin sg) (cos sg) (sin sg * sin sg) (cos (2 * s1 + sg))) in *. set (dd := dir_delta_sigma B sg (2 * s1 + sg)) in *. set (dy := dir_delta_sigma B y (2 * s1 + y)) in *.
    assert (LG : sg <= LL).
    { pose proof (integral_ge1 M _ s1 (s1 + sg) L HM) as Q. unfold LL. enough (s1 + sg - s1 <= M (s1 + sg) - M s1) by lra. apply Q. intros t _. rewrite <- sqrt_1 at 1. apply sqrt_le_1_alt. pose proof (sq_nonneg (sin t)). nra. }
    rewrite S. replace (b * LL - b * A * (sg - dy)) with (b * ((LL - A * (sg - dv)) + A * ((dd - dv) + (dy - dd)))) by ring. rewrite Rabs_mult, (Rabs_pos_eq b) by lra.
    replace ((f ^ 3 / 25 + / 10 ^ 10) * (b * LL)) with (b * ((f ^ 3 / 25 + / 10 ^ 10) * LL)) by ring. apply Rmult_le_compat_l; [lra|].
    rewrite Rabs_minus_sym in T1. rewrite (Rabs_minus_sym dd dy) in T3.
    assert (T4 : Rabs (dy - dd) <= / 90 * (/ 10 ^ 9 * sg)) by (apply Rle_trans with (1 := T3); apply Rmult_le_compat_l; lra).
    pose proof (ap _ _ _ _ T1 (am A _ (1007 / 1000) _ ltac:(rewrite Rabs_pos_eq; lra) (ap _ _ _ _ T2 T4))) as T5. apply Rle_trans with (1 := T5).
    assert (X4 : x ^ 4 / 80 <= 23 / 10000 * f ^ 3).
    { pose proof (pow4_le x (205 / 100 * f) ltac:(lra)) as P4. assert (F3 : 0 <= f ^ 3) by (apply pow_le; lra). replace ((205 / 100 * f) ^ 4) with ((205 / 100) ^ 4 * (f * f ^ 3)) in P4 by ring.
      assert (f * f ^ 3 <= 1 / 100 * f ^ 3) by (apply Rmult_le_compat_r; lra). assert ((205 / 100) ^ 4 <= 177 / 10) by (cbn [pow]; lra). assert (0 <= f * f ^ 3) by (apply Rmult_le_pos; lra). nra. }
    assert (B3 : B ^ 3 / 4 <= 337 / 10000 * f ^ 3).
    { assert (P : 0 <= B <= 5125 / 10000 * f) by lra. pose proof (pow_incr _ _ 3 P) as P3. replace ((5125 / 10000 * f) ^ 3) with ((5125 / 10000) ^ 3 * f ^ 3) in P3 by ring.
      assert ((5125 / 10000) ^ 3 <= 1347 / 10000) by (cbn [pow]; lra). assert (F3 : 0 <= f ^ 3) by (apply pow_le; lra). nra. }
    assert (F3 : 0 <= f ^ 3) by (apply pow_le; lra).
    apply Rle_trans with ((f ^ 3 / 25 + / 10 ^ 10) * sg); [|apply Rmult_le_compat_l; [|exact LG]; assert (0 < / 10 ^ 10) by (apply Rinv_0_lt_compat, pow_lt; lra); lra].
    replace (x ^ 4 / 80 * sg + 1007 / 1000 * (B ^ 3 / 4 * sg + / 90 * (/ 10 ^ 9 * sg))) with ((x ^ 4 / 80 + 1007 / 1000 * (B ^ 3 / 4 + / 90 * / 10 ^ 9)) * sg) by ring.
    apply Rmult_le_compat_r; [lra|]. assert (1007 / 1000 * (/ 90 * / 10 ^ 9) <= / 10 ^ 10) by (cbn [pow]; lra). lra.
  - pose proof (lon_close f w s1 sg V Hf Hw ltac:(lra) HV) as T1. fold v in T1. pose proof (series_C_bounds f w Hf Hw) as HC. set (C := series_C f w) in *.
    pose proof (lon_stale C sg (cos (2 * s1 + y)) (cos (2 * s1 + sg)) HC (abs_cos _) (abs_cos _)) as T2.
    set (g := (1 - C) * (sg + C * sin sg * (cos (2 * s1 + sg) + C * cos sg * (-1 + 2 * cos (2 * s1 + sg) ^ 2)))) in *.
    set (g' := (1 - C) * (sg + C * sin sg * (cos (2 * s1 + y) + C * cos sg * (-1 + 2 * cos (2 * s1 + y) ^ 2)))) in *.
    match goal with |- Rabs ?t <= _ => replace t with (- (f * (sin al * ((g' - g) + (g - v))))) by (unfold g'; ring) end. rewrite Rabs_Ropp.
    pose proof (cos_lip (2 * s1 + y) (2 * s1 + sg)) as T3. replace (2 * s1 + y - (2 * s1 + sg)) with (y - sg) in T3 by ring.
    assert (T4 : Rabs (g' - g) <= 27 / 10000 * (/ 10 ^ 9 * sg)) by (apply Rle_trans with (1 := T2); apply Rmult_le_compat_l; lra).
    pose proof (am f _ f _ ltac:(rewrite Rabs_pos_eq; lra) (am _ _ _ _ (abs_sin al) (ap _ _ _ _ T4 T1))) as T5. apply Rle_trans with (1 := T5).
    assert (27 / 10000 * / 10 ^ 9 <= 1 / 10 ^ 11) by (cbn [pow]; lra).
    replace (f * (1 * (27 / 10000 * (/ 10 ^ 9 * sg) + 2 * f ^ 3 * sg))) with ((2 * f ^ 4 + f * (27 / 10000 * / 10 ^ 9)) * sg) by ring.
    apply Rmult_le_compat_r; [lra|]. unfold Rdiv at 1. pose proof (Rmult_le_compat_l f _ _ (proj1 Hf) H) as K. lra.
  - intros N. apply walk_back; assumption.
Qed.

(** ** Helpers on rotations about the axis *)
Definition turn (l : R) (x : vec) : vec := let '(p, q, r) := x in (cos l * p - sin l * q, sin l * p + cos l * q, r).
Lemma turn_point l u m : point u (l + m) = turn l (point u m).
Proof. unfold turn, point. rewrite cos_plus, sin_plus. apply f_equal2; [apply f_equal2|]; ring. Qed.
Lemma turn_walk l u m az d : walk u (l + m) az d = turn l (walk u m az d).
Proof. unfold turn, walk, point, north, east, vadd, vscale. rewrite cos_plus, sin_plus. apply f_equal2; [apply f_equal2|]; ring. Qed.

(** On a sphere the answer is exact. *)
Lemma sphere_pt n a phi lon az s : 0 < a -> latitude phi -> 0 < s -> (1 <= n)%nat ->
  vinc_pt n 0 a phi lon az s = Some (Ok (du2 phi az (s / a), lon + dlam phi az (s / a), daz21 phi az (s / a))).
Proof.
  intros Ha Lp Hs Hn. pose proof (vinc_pt_eq n 0 a phi lon az s ltac:(lra) Ha Lp) as E. cbv zeta in E. rewrite E. clear E. rewrite (reduced0 phi Lp).
  assert (C1 : 0 < cos phi) by (unfold latitude in Lp; apply cos_gt_0; lra).
  replace (ecc2 0) with 0 by (unfold ecc2; field). rewrite Rmult_0_r. replace (series_A 0) with 1 by (unfold series_A; field). replace (series_B 0) with 0 by (unfold series_B; field).
  replace (a * (1 - 0) * 1) with a by ring. destruct (Req_EM_T a 0); [lra|]. set (d := s / a). assert (Hd : 0 < d) by (apply Rdiv_lt_0_compat; lra).
  assert (L : direct_loop n d (ds1 phi az) 0 (2 * d + 2) d None = Some (Ok (d, Some (2 * ds1 phi az + d)))).
  { destruct n as [|n]; [lia|]. cbn [direct_loop]. destruct (Req_EM_T d 0); [lra|]. destruct (Rlt_dec _ _) as [_|N].
    - replace (d + dir_delta_sigma 0 d (2 * ds1 phi az + d)) with d by (unfold dir_delta_sigma; ring).
      destruct n; cbn [direct_loop]; (destruct (Req_EM_T d 0); [lra|]); replace ((d - d) / d) with 0 by (field; lra); rewrite Rabs_R0; (destruct (Rlt_dec _ _) as [G|_]; [exfalso; cbn [pow] in G; lra|reflexivity]).
    - exfalso. apply N. unfold Rdiv. rewrite Rabs_mult, (Rabs_pos_eq (/ d)) by (left; apply Rinv_0_lt_compat; lra). rewrite Rabs_pos_eq by lra.
      apply Rlt_le_trans with 1; [cbn [pow]; lra|]. apply Rmult_le_reg_r with d; [lra|]. rewrite Rmult_assoc, Rinv_l by lra. lra. }
  rewrite L. do 4 f_equal; [|ring]. replace ((1 - 0) * cos (du2 phi az d)) with (cos (du2 phi az d)) by ring. set (u := du2 phi az d).
  pose proof (unreduce 0 u ltac:(lra) (du2_range phi az d)) as (R1 & R2 & R3). replace ((1 - 0) * cos u) with (cos u) in * by ring. set (p := atan2 (sin u) (cos u)) in *.
  destruct (atan2_unit (sin u) (cos u)) as [Ec Es]; [pose proof (sc u); lra|]. fold p in Ec, Es. rewrite <- (asin_sin p), Es by exact R1. apply asin_sin. exact R2.
Qed.
Theorem C70_sphere : forall n a phi1 lon1 az s, 0 < a -> latitude phi1 -> 0 < s -> (1 <= n)%nat ->
  exists phi2 lon2 az21, vinc_pt n 0 a phi1 lon1 az s = Some (Ok (phi2, lon2, az21)) /\
    point phi2 lon2 = walk phi1 lon1 az (s / a) /\ - (PI / 2) <= phi2 <= PI / 2 /\ - PI < lon2 - lon1 <= PI /\ 0 <= az21 <= 2 * PI /\
    (cos phi2 <> 0 -> walk phi2 lon2 az21 (s / a) = point phi1 lon1).
Proof.
  intros n a p1 l1 az s Ha Lp Hs Hn. rewrite (sphere_pt n a p1 l1 az s Ha Lp Hs Hn). set (d := s / a). assert (C1 : 0 < cos p1) by (unfold latitude in Lp; apply cos_gt_0; lra).
  do 3 eexists. split; [reflexivity|]. split; [|split; [apply du2_range|split; [|split; [apply daz21_range|]]]].
  - rewrite turn_point, <- walk_there, <- turn_walk, Rplus_0_r by exact C1. reflexivity.
  - pose proof (atan2_range (dY az d) (dX p1 az d)) as R. fold (dlam p1 az d) in R. lra.
  - intros N. rewrite turn_walk, walk_back, <- turn_point, Rplus_0_r by assumption. reflexivity.
Qed.

(** On a sphere the inverse formulae find the distance and the direction again. *)
Lemma walk_dot u l az d : dot (point u l) (walk u l az d) = cos d.
Proof.
  unfold dot, walk, point, north, east, vadd, vscale. pose proof (sc u) as A. pose proof (sc l) as B.
  transitivity (cos d * (cos u * cos u * (sin l * sin l + cos l * cos l) + sin u * sin u) + sin d * cos az * (sin u * cos u - sin u * cos u * (sin l * sin l + cos l * cos l))); [ring|].
  rewrite B. replace (cos u * cos u * 1 + sin u * sin u) with 1 by lra. ring.
Qed.
Lemma walk_inj u l az az' d : sin d <> 0 -> walk u l az d = walk u l az' d -> cos az = cos az' /\ sin az = sin az'.
Proof.
  intros N E. assert (X : forall az, dot (north u l) (walk u l az d) = sin d * cos az /\ dot (east u l) (walk u l az d) = sin d * sin az).
  { intros z. unfold dot, walk, point, north, east, vadd, vscale. pose proof (sc u) as A. pose proof (sc l) as B. split.
    - transitivity (cos d * (sin u * cos u * (1 - (sin l * sin l + cos l * cos l))) + sin d * cos z * (sin u * sin u * (sin l * sin l + cos l * cos l) + cos u * cos u)); [ring|]. rewrite B. replace (sin u * sin u * 1 + cos u * cos u) with 1 by lra. ring.
    - transitivity (sin d * sin z * (sin l * sin l + cos l * cos l)); [ring|]. rewrite B. ring. }
  destruct (X az) as [P Q]. destruct (X az') as [P' Q']. rewrite E in P, Q. rewrite P' in P. rewrite Q' in Q. split; apply Rmult_eq_reg_l with (sin d); auto.
Qed.
Theorem C70_round_trip : forall n a phi1 lon1 az s phi2 lon2 az21, 0 < a -> latitude phi1 -> 0 < s < PI * a -> (1 <= n)%nat ->
  vinc_pt n 0 a phi1 lon1 az s = Some (Ok (phi2, lon2, az21)) -> latitude phi2 -> phi1 <> 0 \/ phi2 <> 0 -> apart phi1 lon1 phi2 lon2 ->
  exists bz12 bz21, vinc_dist n 0 a phi1 lon1 phi2 lon2 = Some (Ok (s, bz12, bz21)) /\ cos bz12 = cos az /\ sin bz12 = sin az /\ cos bz21 = cos az21 /\ sin bz21 = sin az21.
Proof.
  intros n a p1 l1 az s p2 l2 az21 Ha Lp Hs Hn H L2 NE Ap. destruct (C70_sphere n a p1 l1 az s Ha Lp ltac:(lra) Hn) as (p & l & z & E & W & _ & Rl & _ & Bk).
  rewrite H in E. injection E as <- <- <-. set (d := s / a) in *. assert (Hd : 0 < d < PI).
  { unfold d. split; [apply Rdiv_lt_0_compat; lra|]. apply Rmult_lt_reg_r with a; [exact Ha|]. unfold Rdiv. rewrite Rmult_assoc, Rinv_l by lra. lra. }
  assert (Ar : arc p1 l1 p2 l2 = d) by (unfold arc; rewrite W, walk_dot; apply acos_cos; lra).
  destruct (C62_sphere n a p1 l1 p2 l2 Ha Lp L2 NE) as (b12 & b21 & E & W1 & W2 & _ & _); [apply Rabs_le; lra|exact Ap|rewrite Ar; exact Hd|exact Hn|].
  rewrite Ar in *. exists b12, b21. rewrite E. split; [do 4 f_equal; unfold d; field; lra|]. assert (Sd : sin d <> 0) by (apply Rgt_not_eq, sin_gt_0; lra).
  assert (C2 : cos p2 <> 0) by (apply Rgt_not_eq, cos_gt_0; unfold latitude in L2; lra).
  destruct (walk_inj _ _ b12 az d Sd (eq_trans W1 W)) as [-> ->]. destruct (walk_inj _ _ b21 az21 d Sd (eq_trans W2 (eq_sym (Bk C2)))) as [-> ->]. auto.
Qed.

(** Going nowhere fails instead of staying where one is. *)
Theorem C70_zero_refuted : forall n f a phi1 lon1 az, 0 <= f <= 1 / 100 -> 0 < a -> latitude phi1 ->
  vinc_pt n f a phi1 lon1 az 0 = Some (Err ZeroDivisionError).
Proof.
  intros n f a p1 l1 az Hf Ha Lp. pose proof (vinc_pt_eq n f a p1 l1 az 0 ltac:(lra) Ha Lp) as E. cbv zeta in E. rewrite E. clear E.
  destruct (Req_EM_T _ 0) as [|_]; [reflexivity|]. unfold Rdiv. rewrite Rmult_0_l. destruct n; cbn [direct_loop]; (destruct (Req_EM_T 0 0); [reflexivity|lra]).
Qed.
(** Going backwards by twice the radius of a sphere hits the value meant to be impossible. *)
Theorem C70_backwards_refuted : forall n a phi1 lon1 az, 0 < a -> latitude phi1 ->
  vinc_pt n 0 a phi1 lon1 az (- (2 * a)) = Some (Err UnboundLocalError).
Proof.
  intros n a p1 l1 az Ha Lp. pose proof (vinc_pt_eq n 0 a p1 l1 az (- (2 * a)) ltac:(lra) Ha Lp) as E. cbv zeta in E. rewrite E. clear E.
  replace (ecc2 0) with 0 by (unfold ecc2; field). rewrite Rmult_0_r. replace (series_A 0) with 1 by (unfold series_A; field).
  replace (a * (1 - 0) * 1) with a by ring. destruct (Req_EM_T a 0); [lra|]. replace (- (2 * a) / a) with (-2) by (field; lra). replace (2 * -2 + 2) with (-2) by ring.
  destruct n; cbn [direct_loop]; (destruct (Req_EM_T (-2) 0); [lra|]); replace ((-2 - -2) / -2) with 0 by field; rewrite Rabs_R0; (destruct (Rlt_dec _ _) as [G|_]; [exfalso; cbn [pow] in G; lra|reflexivity]).
Qed.

(** A quarter of the way round a sphere of radius 1, north from the equator. *)
Example C70_example : exists phi2 lon2 az21, vinc_pt 1 0 1 0 0 0 (PI / 4) = Some (Ok (phi2, lon2, az21)) /\ point phi2 lon2 = (cos (PI / 4), 0, sin (PI / 4)).
Proof.
  destruct (C70_sphere 1 1 0 0 0 (PI / 4)) as (p & l & z & E & W & _); [lra|unfold latitude; pose proof PI_RGT_0; lra|pose proof PI_RGT_0; lra|lia|].
  exists p, l, z. split; [exact E|]. rewrite W. unfold walk, point, north, east, vadd, vscale. rewrite cos_0, sin_0. replace (PI / 4 / 1) with (PI / 4) by field. apply f_equal2; [apply f_equal2|]; ring.
Qed.
(** Flattening of the GRS80 ellipsoid, 100 km from latitude -0.6 to the north-east: the
    hypotheses of C70_direct hold and the length is right to a millimetre. *)
Example C70_direct_example : exists phi2 lon2 az21, vinc_pt 5 (1 / 298) 6378137 (- (6 / 10)) 2 (PI / 4) 100000 = Some (Ok (phi2, lon2, az21)) /\
  exists sg u2 lam dlon len, geodesic_from (1 / 298) 6378137 (reduced (1 / 298) (- (6 / 10))) (PI / 4) sg u2 lam dlon len /\ reduced_of (1 / 298) phi2 u2 /\ Rabs (len - 100000) <= 1 / 1000.
Proof.
  destruct (C70_direct 5 (1 / 298) 6378137 (- (6 / 10)) 2 (PI / 4) 100000) as (p & l & z & E & _ & sg & u2 & lam & dlon & len & G & _ & _ & Rd & B & _); [lra|lra|unfold latitude; pose proof PI2_3_2; lra|lra|lia|].
  exists p, l, z. split; [exact E|]. exists sg, u2, lam, dlon, len. split; [exact G|]. split; [exact Rd|]. 
  assert (K : (1 / 298) ^ 3 / 25 + / 10 ^ 10 <= 2 / 10 ^ 9) by (cbn [pow]; lra). destruct (Rle_lt_dec 0 len) as [P|P].
  - assert (Q : ((1 / 298) ^ 3 / 25 + / 10 ^ 10) * len <= 2 / 10 ^ 9 * len) by (apply Rmult_le_compat_r; assumption). apply Rle_trans with (1 := B). apply Rle_trans with (1 := Q). pose proof (abs_between _ _ (Rle_trans _ _ _ B Q)) as [B1 B2]. cbn [pow] in *. lra.
  - exfalso. pose proof (Rabs_pos (len - 100000)) as P0. assert (0 < (1 / 298) ^ 3 / 25 + / 10 ^ 10) by (cbn [pow]; lra). nra.
Qed.

Print Assumptions C70_direct.
Print Assumptions C70_sphere.
Print Assumptions C70_round_trip.
Print Assumptions C70_zero_refuted.
Print Assumptions C70_backwards_refuted.
