(** * Property theorems: geodesic distance and azimuths (C62). *)
From Coq Require Import Reals Lia ZArith.
From Verif Require Import Base Atan2 VincModel VincSpec VincProofs VincSeries VincRunProofs VincGeoProofs VincTermProofs.
From Coq Require Import Lra.
Local Open Scope R_scope.

(** ** Helpers *)
Lemma far_iff fuel f a p1 l1 p2 l2 : apart p1 l1 p2 l2 -> vinc_dist fuel f a p1 l1 p2 l2 = vinc_far fuel f a p1 l1 p2 l2.
Proof.
  intros A. unfold vinc_dist, apart in *. unfold Rdiv. rewrite Rmult_1_l. destruct (Rlt_dec (Rabs (p2 - p1)) (/ 10 ^ 8)); [|reflexivity]. destruct (Rlt_dec (Rabs (l2 - l1)) (/ 10 ^ 8)); [lra|reflexivity].
Qed.
Lemma reduced_sin f phi : 0 <= f < 1 -> latitude phi -> phi <> 0 -> sin (reduced f phi) <> 0.
Proof.
  intros Hf Hp N Z. unfold reduced, latitude in *. set (t := (1 - f) * tan phi) in *. pose proof (atan_bound t) as B.
  assert (T : t = 0). { rewrite <- (tan_atan t). unfold tan. rewrite Z. unfold Rdiv. ring. }
  unfold t in T. apply Rmult_integral in T. destruct T as [T|T]; [lra|]. apply N. rewrite <- tan_0 in T. pose proof PI_RGT_0; apply tan_inj; [lra|lra|exact T].
Qed.
Lemma vinc_loop_more f u1 u2 om : forall n m last l st r, (n <= m)%nat -> vinc_loop n f u1 u2 om last l st = Some r -> vinc_loop m f u1 u2 om last l st = Some r.
Proof.
  induction n as [|n IH]; intros m last l st r L H.
  - cbn [vinc_loop] in H. destruct (vinc_again last l) eqn:A; [discriminate|]. destruct m; cbn [vinc_loop]; rewrite A; exact H.
  - destruct m as [|m]; [lia|]. cbn [vinc_loop] in *. destruct (vinc_again last l); [|exact H]. destruct (vinc_step f u1 u2 om l); [|exact H]. apply IH; [lia|exact H].
Qed.

(** ** C62 *)

(** The number of passes allowed does not matter once the loop has ended. *)
Theorem C62_fuel : forall n m f a phi1 lon1 phi2 lon2 r, (n <= m)%nat ->
  vinc_dist n f a phi1 lon1 phi2 lon2 = Some r -> vinc_dist m f a phi1 lon1 phi2 lon2 = Some r.
Proof.
  intros n m f a p1 l1 p2 l2 r L H. unfold vinc_dist in *. assert (F : vinc_far n f a p1 l1 p2 l2 = Some r -> vinc_far m f a p1 l1 p2 l2 = Some r).
  { unfold vinc_far. intros K. match type of K with match ?t with _ => _ end = _ => destruct t as [o|] eqn:E; [|discriminate] end. rewrite (vinc_loop_more _ _ _ _ n m _ _ _ _ L E). exact K. }
  destruct (Rlt_dec _ _); [destruct (Rlt_dec _ _)|]; auto.
Qed.

(** Points within 1e-8 radians in both coordinates: distance 0. *)
Theorem C62_close : forall n f a phi1 lon1 phi2 lon2, ~ apart phi1 lon1 phi2 lon2 -> vinc_dist n f a phi1 lon1 phi2 lon2 = Some (Ok (0, 0, 0)).
Proof.
  intros n f a p1 l1 p2 l2 N. unfold vinc_dist, apart in *. unfold Rdiv. rewrite Rmult_1_l.
  destruct (Rlt_dec (Rabs (p2 - p1)) (/ 10 ^ 8)) as [A|A]; [|exfalso; apply N; left; lra]. destruct (Rlt_dec (Rabs (l2 - l1)) (/ 10 ^ 8)) as [B|B]; [reflexivity|exfalso; apply N; right; lra].
Qed.

(** Any two points not both on the equator whose arc is at most 2.4 radians get an answer
    after at most nine passes. *)
Theorem C62_terminates : forall n f a phi1 lon1 phi2 lon2, 0 <= f <= 1 / 100 -> 0 < a -> latitude phi1 -> latitude phi2 ->
  phi1 <> 0 \/ phi2 <> 0 -> Rabs (lon2 - lon1) <= PI -> apart phi1 lon1 phi2 lon2 ->
  arc (reduced f phi1) lon1 (reduced f phi2) lon2 <= 12 / 5 -> (9 <= n)%nat ->
  exists s az12 az21, vinc_dist n f a phi1 lon1 phi2 lon2 = Some (Ok (s, az12, az21)).
Proof.
  intros n f a p1 l1 p2 l2 Hf Ha L1 L2 NE Ho A HS Hn. rewrite (far_iff _ _ _ _ _ _ _ A). unfold vinc_far. fold (reduced f p1) (reduced f p2). rewrite sigma_arc in HS.
  assert (NE' : sin (reduced f p1) <> 0 \/ sin (reduced f p2) <> 0) by (destruct NE; [left|right]; apply reduced_sin; auto; lra).
  pose proof (reduced_facts f p1 ltac:(lra) L1) as C1. pose proof (reduced_facts f p2 ltac:(lra) L2) as C2. fold (reduced f p1) in C1. fold (reduced f p2) in C2.
  assert (X : exists s, vinc_loop n f (reduced f p1) (reduced f p2) (l2 - l1) (-4000000) (l2 - l1) None = Some (Ok s)).
  { destruct (Req_dec (l2 - l1) 0) as [Z|N].
    - rewrite Z in *. destruct (loop_meridian f (reduced f p1) (reduced f p2) n Hf) as (s & E & _); [|exact NE'|lia|eauto].
      destruct A as [A|A]; [|rewrite Z, Rabs_R0 in A; assert (0 < / 10 ^ 8) by (apply Rinv_0_lt_compat, pow_lt; lra); lra].
      assert (D : p1 <> p2) by (intros ->; rewrite Rminus_diag_eq, Rabs_R0 in A by reflexivity; assert (0 < / 10 ^ 8) by (apply Rinv_0_lt_compat, pow_lt; lra); lra).
      assert (DU : reduced f p1 <> reduced f p2).
      { unfold reduced. intros E. apply (f_equal tan) in E. rewrite !tan_atan in E. apply Rmult_eq_reg_l in E; [|lra]. apply D. unfold latitude in *. apply tan_inj; [lra|lra|exact E]. }
      intros S0. destruct (sigma_facts (reduced f p1) (reduced f p2) 0) as (E & _ & _ & B & _). cbv zeta in *. pose proof (sc (sigma_of (reduced f p1) (reduced f p2) 0)) as T. rewrite S0, E in T.
      assert (KC : KK (reduced f p1) (reduced f p2) 0 = cos (reduced f p2 - reduced f p1)) by (unfold KK; rewrite cos_0, cos_minus; ring). rewrite KC in T.
      pose proof (sc (reduced f p2 - reduced f p1)) as T2. assert (SZ : sin (reduced f p2 - reduced f p1) * sin (reduced f p2 - reduced f p1) = 0) by lra.
      assert (SZ1 : sin (reduced f p2 - reduced f p1) = 0) by (destruct (Rmult_integral _ _ SZ); assumption).
      pose proof (atan_bound ((1 - f) * tan p1)) as B1. pose proof (atan_bound ((1 - f) * tan p2)) as B2. fold (reduced f p1) in B1. fold (reduced f p2) in B2.
      destruct (Rtotal_order (reduced f p2 - reduced f p1) 0) as [Q|[Q|Q]]; [|lra|].
      + pose proof (sin_lt_0_var (reduced f p2 - reduced f p1)); lra.
      + pose proof (sin_gt_0 (reduced f p2 - reduced f p1)); lra.
    - apply abs_between in Ho. assert (Xe : exists e, (e = 1 \/ e = -1) /\ 0 < e * (l2 - l1) <= PI). { destruct (Rtotal_order (l2 - l1) 0) as [Q|[Q|Q]]; [exists (-1)|contradiction|exists 1]; split; auto; lra. }
      destruct Xe as (e & He & Hw). apply (loop_from_start f (reduced f p1) (reduced f p2) (l2 - l1) e Hf C1 C2 NE' He Hw HS n Hn). }
  destruct X as (s & ->). unfold vinc_finish. destruct (Req_EM_T _ _) as [Z|_]; [|do 3 eexists; reflexivity].
  exfalso. assert (a * (1 - f) <> 0) by (apply Rmult_integral_contrapositive_currified; lra). destruct (Rmult_integral _ _ Z); contradiction.
Qed.

(** Every answer describes a geodesic of the ellipsoid between the two latitudes: [s] is its
    length up to the relative error f^4 / 4 of the series, the longitudes of its ends differ
    by [lon2 - lon1] up to the tolerance of the loop and the error of the other series, and
    the azimuths are those of the corresponding great circle, both measured clockwise from
    north, the second one pointing back to the first point. *)
Theorem C62_geodesic : forall n f a phi1 lon1 phi2 lon2 s az12 az21, 0 <= f <= 1 / 100 -> 0 < a -> latitude phi1 -> latitude phi2 ->
  Rabs (lon2 - lon1) <= PI -> apart phi1 lon1 phi2 lon2 -> vinc_dist n f a phi1 lon1 phi2 lon2 = Some (Ok (s, az12, az21)) ->
  let u1 := reduced f phi1 in let u2 := reduced f phi2 in
  exists lam lam' sg dlon len, geodesic f a u1 u2 lam sg dlon len /\ 0 < sg < PI /\
    Rabs (s - len) <= f ^ 4 / 4 * len /\
    Rabs (dlon - (lon2 - lon1)) <= / 10 ^ 9 * Rabs lam' + 2 * f ^ 4 * sg /\
    Rabs (lam - lam') <= / 10 ^ 9 * Rabs lam' /\ Rabs (lam' - (lon2 - lon1)) <= 405 / 10000 /\
    walk u1 0 az12 (arc u1 0 u2 lam') = point u2 lam' /\ walk u2 lam' az21 (arc u1 0 u2 lam') = point u1 0 /\
    0 <= az12 <= 2 * PI /\ 0 <= az21 <= 2 * PI.
Proof.
  intros n f a p1 l1 p2 l2 s az12 az21 Hf Ha L1 L2 Ho A H. cbv zeta. rewrite (far_iff _ _ _ _ _ _ _ A) in H. unfold vinc_far in H. fold (reduced f p1) (reduced f p2) in H.
  pose proof (reduced_facts f p1 ltac:(lra) L1) as C1. pose proof (reduced_facts f p2 ltac:(lra) L2) as C2. fold (reduced f p1) in C1. fold (reduced f p2) in C2.
  set (u1 := reduced f p1) in *. set (u2 := reduced f p2) in *.
  destruct (vinc_loop n f u1 u2 (l2 - l1) (-4000000) (l2 - l1) None) as [[t|]|] eqn:E; try discriminate. injection H as H.
  destruct (loop_final f u1 u2 (l2 - l1) n t Hf C1 C2 Ho E) as (l & P & D1 & D2 & _ & _).
  destruct (finish_geodesic f a u1 u2 (l2 - l1) l t Hf Ha P) as (d & len & dlon & Fi & G & _ & G1 & G2). rewrite H in Fi. injection Fi as -> -> ->.
  exists l, (v_lembda t), (v_sigma t), dlon, len. split; [exact G|]. split; [exact (p_range _ _ _ _ _ _ P)|]. split; [exact G1|]. split.
  - replace (dlon - (l2 - l1)) with ((dlon - (l2 - l1) - (l - v_lembda t)) + (l - v_lembda t)) by ring. pose proof (Rabs_triang (dlon - (l2 - l1) - (l - v_lembda t)) (l - v_lembda t)). lra.
  - split; [exact D1|]. split; [exact D2|]. pose proof (azimuth12 u1 0 u2 (v_lembda t)) as Z1. pose proof (azimuth21 u1 0 u2 (v_lembda t)) as Z2. cbv zeta in Z1, Z2. rewrite Rminus_0_r in Z1, Z2.
    split; [exact Z1|]. split; [exact Z2|]. pose proof PI_RGT_0.
    split; apply wrap_range; [pose proof (atan2_range (cos u2 * sin (v_lembda t)) (cos u1 * sin u2 - sin u1 * cos u2 * cos (v_lembda t)))|
      pose proof (atan2_range (cos u1 * sin (v_lembda t)) (- sin u1 * cos u2 + cos u1 * sin u2 * cos (v_lembda t)))]; lra.
Qed.

(** Every error is a division by zero, and only for two points on the equator or a longitude
    difference at which the corresponding points of the sphere coincide or are antipodal. *)
Lemma loop_err f u1 u2 om : 0 <= f <= 1 / 100 -> forall fuel last l st e, Rabs (l - om) <= 405 / 10000 -> vinc_again last l = true \/ st <> None ->
  vinc_loop fuel f u1 u2 om last l st = Some (Err e) ->
  e = ZeroDivisionError /\ ((sin u1 = 0 /\ sin u2 = 0) \/ exists lam, Rabs (lam - om) <= 405 / 10000 /\ sin (sigma_of u1 u2 lam) = 0).
Proof.
  intros Hf. induction fuel as [|n IH]; intros last l st e Hl St H.
  - cbn [vinc_loop] in H. destruct (vinc_again last l); [discriminate|]. destruct st; [discriminate|]. destruct St; [discriminate|contradiction].
  - cbn [vinc_loop] in H. destruct (vinc_again last l).
    + destruct (vinc_step_cases f u1 u2 om l) as [(_ & _ & s & Es & P)|(Z & Es)]; rewrite Es in H.
      * apply (IH _ _ _ _ (shift_small _ _ _ _ _ _ P Hf)) in H; [exact H|]. right. discriminate.
      * injection H as <-. split; [reflexivity|]. destruct Z as [Z|Z]; [right; exists l; auto|left; exact Z].
    + destruct st; [discriminate|]. destruct St; [discriminate|contradiction].
Qed.
Theorem C62_errors : forall n f a phi1 lon1 phi2 lon2 e, 0 <= f <= 1 / 100 -> 0 < a -> latitude phi1 -> latitude phi2 ->
  vinc_dist n f a phi1 lon1 phi2 lon2 = Some (Err e) ->
  e = ZeroDivisionError /\ ((phi1 = 0 /\ phi2 = 0) \/ exists lam, Rabs (lam - (lon2 - lon1)) <= 405 / 10000 /\ sin (arc (reduced f phi1) 0 (reduced f phi2) lam) = 0).
Proof.
  intros n f a p1 l1 p2 l2 e Hf Ha L1 L2 H. assert (F : vinc_far n f a p1 l1 p2 l2 = Some (Err e)).
  { unfold vinc_dist in H. destruct (Rlt_dec _ _); [destruct (Rlt_dec _ _); [discriminate|]|]; exact H. }
  clear H. unfold vinc_far in F. fold (reduced f p1) (reduced f p2) in F. destruct (vinc_loop _ _ _ _ _ _ _ _) as [[t|e']|] eqn:E; [| |discriminate].
  - exfalso. injection F as F. unfold vinc_finish in F. destruct (Req_EM_T _ _) as [Z|_]; [|discriminate]. assert (a * (1 - f) <> 0) by (apply Rmult_integral_contrapositive_currified; lra). destruct (Rmult_integral _ _ Z); contradiction.
  - injection F as <-. apply (loop_err _ _ _ _ Hf) in E; [|rewrite Rminus_diag_eq, Rabs_R0 by reflexivity; lra|left; apply again_start].
    destruct E as (-> & D). split; [reflexivity|]. destruct D as [[Z1 Z2]|(lam & B & Z)].
    + left. split; [destruct (Req_dec p1 0) as [|N]; [assumption|destruct (reduced_sin f p1 ltac:(lra) L1 N Z1)]|destruct (Req_dec p2 0) as [|N]; [assumption|destruct (reduced_sin f p2 ltac:(lra) L2 N Z2)]].
    + right. exists lam. split; [exact B|]. rewrite sigma_arc, Rminus_0_r. exact Z.
Qed.

(** Only the difference of the longitudes counts. *)
Theorem C62_longitude : forall n f a phi1 lon1 phi2 lon2 d, vinc_dist n f a phi1 (lon1 + d) phi2 (lon2 + d) = vinc_dist n f a phi1 lon1 phi2 lon2.
Proof. intros n f a p1 l1 p2 l2 d. unfold vinc_dist, vinc_far. replace (l2 + d - (l1 + d)) with (l2 - l1) by ring. reflexivity. Qed.

(** Exchanging the points leaves the distance as it is. *)
Definition flip (s : vinc_state) : vinc_state :=
  {| v_sqr_sin_sigma := v_sqr_sin_sigma s; v_sin_sigma := v_sin_sigma s; v_cos_sigma := v_cos_sigma s; v_sigma := v_sigma s;
     v_alpha := - v_alpha s; v_cos2sigma_m := v_cos2sigma_m s; v_lembda := - v_lembda s |}.
Lemma SS_sym u1 u2 l : SS u2 u1 (- l) = SS u1 u2 l.
Proof. pose proof (SS_KK u2 u1 (- l)) as A. pose proof (SS_KK u1 u2 l) as B. rewrite KK_sym in A. lra. Qed.
Lemma step_flip f u1 u2 om l : vinc_step f u2 u1 (- om) (- l) = match vinc_step f u1 u2 om l with Ok s => Ok (flip s) | Err e => Err e end.
Proof.
  unfold vinc_step. fold (SS u1 u2 l) (SS u2 u1 (- l)) (KK u1 u2 l) (KK u2 u1 (- l)). rewrite SS_sym, KK_sym. fold (sigma_of u1 u2 l). set (sg := sigma_of u1 u2 l).
  destruct (Req_EM_T (sin sg) 0) as [|N]; [reflexivity|]. rewrite sin_neg. replace (cos u2 * cos u1 * - sin l / sin sg) with (- (cos u1 * cos u2 * sin l / sin sg)) by (field; exact N). rewrite Rabs_Ropp.
  destruct (Rlt_dec _ _); [reflexivity|]. rewrite asin_opp, cos_neg. set (al := asin _). destruct (Req_EM_T (cos al ^ 2) 0) as [|N2]; [reflexivity|].
  unfold flip. cbn [v_sqr_sin_sigma v_sin_sigma v_cos_sigma v_sigma v_alpha v_cos2sigma_m v_lembda].
  replace (2 * sin u2 * sin u1) with (2 * sin u1 * sin u2) by ring. f_equal. f_equal. rewrite sin_neg. ring.
Qed.
Lemma again_flip last l : -4 <= last <= 4 -> vinc_again (- last) (- l) = vinc_again last l.
Proof.
  intros H. unfold vinc_again. destruct (Rlt_dec (- last) (-3000000)); [lra|]. destruct (Rlt_dec last (-3000000)); [lra|].
  destruct (Req_EM_T (- l) 0), (Req_EM_T l 0); try reflexivity; try lra. replace ((- last - - l) / - l) with ((last - l) / l) by (field; lra). reflexivity.
Qed.
Lemma loop_flip f u1 u2 om : 0 <= f <= 1 / 100 -> Rabs om <= PI -> forall n last l st, -4 <= last <= 4 -> -4 <= l <= 4 ->
  vinc_loop n f u2 u1 (- om) (- last) (- l) (option_map flip st) = option_map (fun r => match r with Ok s => Ok (flip s) | Err e => Err e end) (vinc_loop n f u1 u2 om last l st).
Proof.
  intros Hf Ho. induction n as [|n IH]; intros last l st B1 B2; cbn [vinc_loop]; rewrite (again_flip last l B1).
  - destruct (vinc_again last l); [reflexivity|]. destruct st; reflexivity.
  - destruct (vinc_again last l); [|destruct st; reflexivity]. rewrite step_flip. destruct (vinc_step f u1 u2 om l) as [s|e] eqn:E; [|reflexivity].
    change (Some (flip s)) with (option_map flip (Some s)). change (v_lembda (flip s)) with (- v_lembda s). apply IH; [exact B2|].
    pose proof (abs_between _ _ (shift_small _ _ _ _ _ _ (vinc_step_ok _ _ _ _ _ _ E) Hf)). apply abs_between in Ho. pose proof pi_bounds. lra.
Qed.
Theorem C62_symmetric : forall n f a phi1 lon1 phi2 lon2 s az12 az21, 0 <= f <= 1 / 100 -> Rabs (lon2 - lon1) <= PI ->
  vinc_dist n f a phi1 lon1 phi2 lon2 = Some (Ok (s, az12, az21)) -> exists bz12 bz21, vinc_dist n f a phi2 lon2 phi1 lon1 = Some (Ok (s, bz12, bz21)).
Proof.
  intros n f a p1 l1 p2 l2 s az12 az21 Hf Ho H. unfold vinc_dist in *. rewrite (Rabs_minus_sym p1 p2), (Rabs_minus_sym l1 l2).
  assert (F : vinc_far n f a p1 l1 p2 l2 = Some (Ok (s, az12, az21)) -> exists bz12 bz21, vinc_far n f a p2 l2 p1 l1 = Some (Ok (s, bz12, bz21))).
  { clear H. intros H. unfold vinc_far in *. set (u1 := atan ((1 - f) * tan p1)) in *. set (u2 := atan ((1 - f) * tan p2)) in *.
    assert (X : vinc_loop n f u2 u1 (l1 - l2) (-4000000) (l1 - l2) None = option_map (fun r => match r with Ok s => Ok (flip s) | Err e => Err e end) (vinc_loop n f u1 u2 (l2 - l1) (-4000000) (l2 - l1) None)).
    { replace (l1 - l2) with (- (l2 - l1)) by ring. set (om := l2 - l1) in *. destruct n as [|n]; cbn [vinc_loop]; rewrite !again_start; [reflexivity|].
      rewrite step_flip. destruct (vinc_step f u1 u2 om om) as [t|e] eqn:E; [|reflexivity]. change (Some (flip t)) with (option_map flip (Some t)). change (v_lembda (flip t)) with (- v_lembda t).
      pose proof (abs_between _ _ (shift_small _ _ _ _ _ _ (vinc_step_ok _ _ _ _ _ _ E) Hf)). pose proof (abs_between _ _ Ho). pose proof pi_bounds. apply loop_flip; [exact Hf|exact Ho|lra|lra]. }
    rewrite X. destruct (vinc_loop n f u1 u2 (l2 - l1) (-4000000) (l2 - l1) None) as [[t|]|]; try discriminate. cbn [option_map]. injection H as H. unfold vinc_finish in *.
    destruct (Req_EM_T _ _) as [|N]; [discriminate|]. injection H as H1 _ _. cbn [flip v_sqr_sin_sigma v_sin_sigma v_cos_sigma v_sigma v_alpha v_cos2sigma_m v_lembda] in *. rewrite cos_neg.
    subst s. do 2 eexists. reflexivity. }
  destruct (Rlt_dec (Rabs (p2 - p1)) (1 / 10 ^ 8)); [destruct (Rlt_dec (Rabs (l2 - l1)) (1 / 10 ^ 8))|]; auto. injection H as <- <- <-. eauto.
Qed.

(** On a sphere the answer is exact: great-circle distance and azimuths. *)
Lemma reduced0 phi : latitude phi -> reduced 0 phi = phi.
Proof. intros H. unfold reduced, latitude in *. replace ((1 - 0) * tan phi) with (tan phi) by ring. apply atan_tan. lra. Qed.
Theorem C62_sphere : forall n a phi1 lon1 phi2 lon2, 0 < a -> latitude phi1 -> latitude phi2 -> phi1 <> 0 \/ phi2 <> 0 ->
  Rabs (lon2 - lon1) <= PI -> apart phi1 lon1 phi2 lon2 -> 0 < arc phi1 lon1 phi2 lon2 < PI -> (1 <= n)%nat ->
  exists az12 az21, vinc_dist n 0 a phi1 lon1 phi2 lon2 = Some (Ok (a * arc phi1 lon1 phi2 lon2, az12, az21)) /\
    walk phi1 lon1 az12 (arc phi1 lon1 phi2 lon2) = point phi2 lon2 /\ walk phi2 lon2 az21 (arc phi1 lon1 phi2 lon2) = point phi1 lon1 /\
    0 <= az12 <= 2 * PI /\ 0 <= az21 <= 2 * PI.
Proof.
  intros n a p1 l1 p2 l2 Ha L1 L2 NE Ho A Har Hn. rewrite (far_iff _ _ _ _ _ _ _ A). unfold vinc_far. fold (reduced 0 p1) (reduced 0 p2).
  assert (NE' : sin (reduced 0 p1) <> 0 \/ sin (reduced 0 p2) <> 0) by (destruct NE; [left|right]; apply reduced_sin; auto; lra).
  rewrite !reduced0 in * by assumption. pose proof Har as Har'. rewrite sigma_arc in Har'.
  destruct n as [|n]; [lia|]. cbn [vinc_loop]. rewrite again_start.
  destruct (vinc_step_cases 0 p1 p2 (l2 - l1) (l2 - l1)) as [(_ & _ & s & Es & P)|([Z|[Z1 Z2]] & _)]; [|exfalso; pose proof (sin_gt_0 _ (proj1 Har') (proj2 Har')); lra|exfalso; destruct NE'; contradiction].
  rewrite Es. assert (V : v_lembda s = l2 - l1) by (rewrite (p_new _ _ _ _ _ _ P); cbv zeta; ring).
  assert (X : vinc_loop n 0 p1 p2 (l2 - l1) (l2 - l1) (v_lembda s) (Some s) = Some (Ok s)).
  { assert (G : vinc_again (l2 - l1) (v_lembda s) = false) by (rewrite V; apply again_same; apply abs_between in Ho; pose proof pi_bounds; lra). destruct n; cbn [vinc_loop]; rewrite G; reflexivity. }
  rewrite X. unfold vinc_finish. replace (a * (1 - 0)) with a by ring. destruct (Req_EM_T (a * a) 0) as [Z|_]; [exfalso; destruct (Rmult_integral _ _ Z); lra|].
  rewrite V. replace (cos (v_alpha s) ^ 2 * (a * a - a * a) / (a * a)) with 0 by (field; lra).
  do 2 eexists. split; [|split; [apply azimuth12|split; [apply azimuth21|]]].
  - do 4 f_equal. rewrite sigma_arc, <- (p_sigma _ _ _ _ _ _ P). unfold inv_delta_sigma, series_A, series_B, Rdiv. ring.
  - pose proof PI_RGT_0. split; apply wrap_range; [pose proof (atan2_range (cos p2 * sin (l2 - l1)) (cos p1 * sin p2 - sin p1 * cos p2 * cos (l2 - l1)))|
      pose proof (atan2_range (cos p1 * sin (l2 - l1)) (- sin p1 * cos p2 + cos p1 * sin p2 * cos (l2 - l1)))]; lra.
Qed.

(** Points on one meridian: due north and due south, and the length of the meridian ellipse. *)
Lemma reduced_lt f p1 p2 : 0 <= f < 1 -> latitude p1 -> latitude p2 -> p1 < p2 -> - (PI / 2) < reduced f p1 < reduced f p2 /\ reduced f p2 < PI / 2.
Proof.
  intros Hf L1 L2 H. unfold latitude, reduced in *. pose proof (atan_bound ((1 - f) * tan p1)). pose proof (atan_bound ((1 - f) * tan p2)).
  assert (atan ((1 - f) * tan p1) < atan ((1 - f) * tan p2)) by (apply atan_increasing, Rmult_lt_compat_l; [lra|]; apply tan_increasing; lra). lra.
Qed.
Lemma sigma_meridian u1 u2 : 0 <= u2 - u1 <= PI -> sigma_of u1 u2 0 = u2 - u1.
Proof.
  intros H. destruct (sigma_facts u1 u2 0) as (C & _ & _ & R & _). cbv zeta in *. rewrite <- (acos_cos (sigma_of u1 u2 0)) by exact R. rewrite C.
  replace (KK u1 u2 0) with (cos (u2 - u1)) by (unfold KK; rewrite cos_0, cos_minus; ring). apply acos_cos. exact H.
Qed.
Lemma meridian_pass f a u1 u2 s len : 0 <= f <= 1 / 100 -> 0 < a -> - (PI / 2) < u1 < u2 -> u2 < PI / 2 -> pass f u1 u2 0 0 s -> v_lembda s = 0 -> meridian_arc f a u1 u2 len ->
  exists d, vinc_finish f a u1 u2 s = Ok (d, 0, PI) /\ Rabs (d - len) <= f ^ 4 / 4 * len.
Proof.
  intros Hf Ha B1 B2 P V (G & HG & Hlen). set (b := a * (1 - f)). assert (Hb : 0 < b) by (unfold b; nra).
  assert (Sg : v_sigma s = u2 - u1) by (rewrite (p_sigma _ _ _ _ _ _ P); apply sigma_meridian; pose proof PI_RGT_0; lra).
  assert (Sp : 0 < sin (u2 - u1)) by (apply sin_gt_0; pose proof PI_RGT_0; lra).
  assert (Sa : sin (v_alpha s) = 0). { pose proof (p_alpha _ _ _ _ _ _ P) as E. rewrite sin_0, Rmult_0_r, Sg in E. destruct (Rmult_integral _ _ E); [assumption|lra]. }
  assert (Ca : cos (v_alpha s) = 1). { pose proof (sc (v_alpha s)) as E. rewrite Sa in E. pose proof (p_cosa _ _ _ _ _ _ P). nra. }
  assert (C2 : v_cos2sigma_m s = cos (2 * u1 + (u2 - u1))).
  { pose proof (p_c2 _ _ _ _ _ _ P) as E. rewrite Ca, Sg in E. replace (2 * u1 + (u2 - u1)) with (u1 + u2) by ring. rewrite cos_plus. rewrite cos_minus in E. lra. }
  set (x := ecc2 f). pose proof (ecc2_bound f Hf) as [E0 E1]. fold x in E0, E1. assert (Hx : 0 <= x <= 1 / 40) by lra.
  assert (HM : forall t, u1 <= t <= u1 + (u2 - u1) -> derivable_pt_lim (fun t => / b * G t) t (sqrt (1 + x * (sin t * sin t)))).
  { intros t Ht. replace (sqrt (1 + x * (sin t * sin t))) with (/ b * sqrt ((a * sin t) ^ 2 + (a * (1 - f) * cos t) ^ 2)).
    - apply (derivable_pt_lim_scal G (/ b)). apply HG. lra.
    - apply Rmult_eq_reg_l with b; [|lra]. rewrite <- Rmult_assoc, Rinv_r, Rmult_1_l by lra. rewrite <- (sqrt_square b) at 1 by lra. rewrite <- sqrt_mult_alt by nra. f_equal.
      pose proof (sc t) as T. replace (cos t) with (cos t) by reflexivity. unfold x, ecc2, b.
      replace ((a * sin t) ^ 2 + (a * (1 - f) * cos t) ^ 2) with (a * a * (sin t * sin t) + a * a * (1 - f) * (1 - f) * (cos t * cos t)) by ring.
      replace (cos t * cos t) with (1 - sin t * sin t) by lra. field. lra. }
  pose proof (dist_close x u1 (u2 - u1) _ Hx ltac:(lra) HM) as D. replace (u1 + (u2 - u1)) with u2 in * by ring.
  assert (Lm : u2 - u1 <= / b * G u2 - / b * G u1).
  { apply (integral_ge1 _ _ u1 u2 ltac:(lra) HM). intros t _. rewrite <- sqrt_1 at 1. apply sqrt_le_1_alt. pose proof (sq_nonneg (sin t)). nra. }
  assert (EL : len = b * (/ b * G u2 - / b * G u1)) by (rewrite Hlen; field; lra).
  eexists. split.
  - unfold vinc_finish. fold b. destruct (Req_EM_T (b * b) 0) as [Z|_]; [exfalso; destruct (Rmult_integral _ _ Z); lra|].
    rewrite Ca. replace (1 ^ 2 * (a * a - b * b) / (b * b)) with x by (unfold x, ecc2, b; field; lra).
    rewrite V, sin_0, cos_0, !Rmult_0_r, !Rmult_1_r.
    replace (cos u1 * sin u2 - sin u1 * cos u2) with (sin (u2 - u1)) by (rewrite sin_minus; ring). replace (- sin u1 * cos u2 + cos u1 * sin u2) with (sin (u2 - u1)) by (rewrite sin_minus; ring).
    assert (T : atan2 0 (sin (u2 - u1)) = 0). { unfold atan2. destruct (Rlt_dec 0 (sin (u2 - u1))); [|lra]. unfold Rdiv. rewrite Rmult_0_l. apply atan_0. }
    rewrite T. pose proof PI_RGT_0. assert (W0 : wrap 0 = 0) by (unfold wrap; destruct (Rlt_dec 0 0); [lra|]; destruct (Rlt_dec (2 * PI) 0); lra).
    assert (W1 : wrap (0 + 2 * PI / 2) = PI) by (unfold wrap; destruct (Rlt_dec (0 + 2 * PI / 2) 0); [lra|]; destruct (Rlt_dec (2 * PI) (0 + 2 * PI / 2)); lra).
    rewrite W0, W1. reflexivity.
  - rewrite (p_cos _ _ _ _ _ _ P), (p_sin _ _ _ _ _ _ P), (p_sqr _ _ _ _ _ _ P), Sg, C2, EL. rewrite Rmult_assoc, <- Rmult_minus_distr_l, Rabs_mult, (Rabs_pos_eq b) by lra.
    set (LL := / b * G u2 - / b * G u1) in *. replace (f ^ 4 / 4 * (b * LL)) with (b * (f ^ 4 / 4 * LL)) by ring. apply Rmult_le_compat_l; [lra|].
    apply Rle_trans with (1 := D). pose proof (pow4_le x (205 / 100 * f) ltac:(lra)) as X4. replace ((205 / 100 * f) ^ 4) with ((205 / 100) ^ 4 * f ^ 4) in X4 by ring.
    assert (F4 : 0 <= f ^ 4) by (apply pow_le; lra). assert (0 <= x ^ 4) by (apply pow_le; lra). apply Rmult_le_compat; [lra|lra| |exact Lm].
    assert ((205 / 100) ^ 4 <= 20) by (cbn [pow]; lra). nra.
Qed.
Lemma apart_lat p1 p2 l : apart p1 l p2 l -> / 10 ^ 8 <= Rabs (p2 - p1) /\ 0 < / 10 ^ 8.
Proof.
  assert (0 < / 10 ^ 8) by (apply Rinv_0_lt_compat, pow_lt; lra). intros [A|A]; [auto|]. rewrite Rminus_diag_eq, Rabs_R0 in A by reflexivity. lra.
Qed.
Theorem C62_meridian : forall n f a phi1 phi2 lon len, 0 <= f <= 1 / 100 -> 0 < a -> latitude phi1 -> latitude phi2 -> phi1 < phi2 ->
  apart phi1 lon phi2 lon -> (1 <= n)%nat -> meridian_arc f a (reduced f phi1) (reduced f phi2) len ->
  exists s, vinc_dist n f a phi1 lon phi2 lon = Some (Ok (s, 0, PI)) /\ vinc_dist n f a phi2 lon phi1 lon = Some (Ok (s, PI, 2 * PI)) /\
    Rabs (s - len) <= f ^ 4 / 4 * len.
Proof.
  intros n f a p1 p2 lon len Hf Ha L1 L2 Lt A Hn HM. pose proof PI_RGT_0 as PI0.
  destruct (reduced_lt f p1 p2 ltac:(lra) L1 L2 Lt) as [B1 B2]. set (u1 := reduced f p1) in *. set (u2 := reduced f p2) in *.
  assert (Sp : 0 < sin (u2 - u1)) by (apply sin_gt_0; lra).
  assert (NE : sin u1 <> 0 \/ sin u2 <> 0).
  { destruct (Req_dec p1 0) as [->|N]; [right|left]; apply reduced_sin; auto; lra. }
  destruct (loop_meridian f u1 u2 n Hf) as (t & E & P & V); [rewrite sigma_meridian by lra; lra|exact NE|exact Hn|].
  destruct (meridian_pass f a u1 u2 t len Hf Ha B1 B2 P V HM) as (s & Fi & D).
  assert (N1 : vinc_dist n f a p1 lon p2 lon = Some (Ok (s, 0, PI))).
  { rewrite (far_iff _ _ _ _ _ _ _ A). unfold vinc_far. fold (reduced f p1) (reduced f p2). fold u1 u2. rewrite Rminus_diag_eq by reflexivity. rewrite E. f_equal. exact Fi. }
  exists s. split; [exact N1|]. split; [|exact D].
  destruct (C62_symmetric n f a p1 lon p2 lon s 0 PI Hf) as (z1 & z2 & S2); [rewrite Rminus_diag_eq, Rabs_R0 by reflexivity; lra|exact N1|]. rewrite S2. do 2 f_equal.
  assert (A2 : apart p2 lon p1 lon) by (unfold apart in *; rewrite (Rabs_minus_sym p1 p2); exact A).
  rewrite (far_iff _ _ _ _ _ _ _ A2) in S2. unfold vinc_far in S2. fold (reduced f p1) (reduced f p2) in S2. fold u1 u2 in S2. rewrite Rminus_diag_eq in S2 by reflexivity.
  destruct (loop_meridian f u2 u1 n Hf) as (t' & E' & P' & V'); [rewrite <- (sigma_sym u2 u1 0), Ropp_0, sigma_meridian by lra; lra|tauto|exact Hn|].
  rewrite E' in S2. injection S2 as S2. unfold vinc_finish in S2. destruct (Req_EM_T _ _); [discriminate|]. injection S2 as _ <- <-.
  rewrite V', sin_0, cos_0, !Rmult_0_r, !Rmult_1_r.
  replace (cos u2 * sin u1 - sin u2 * cos u1) with (- sin (u2 - u1)) by (rewrite sin_minus; ring). replace (- sin u2 * cos u1 + cos u2 * sin u1) with (- sin (u2 - u1)) by (rewrite sin_minus; ring).
  assert (T : atan2 0 (- sin (u2 - u1)) = PI).
  { unfold atan2. destruct (Rlt_dec 0 (- sin (u2 - u1))); [lra|]. destruct (Rlt_dec (- sin (u2 - u1)) 0); [|lra]. destruct (Rle_dec 0 0); [|lra]. unfold Rdiv. rewrite Rmult_0_l, atan_0. ring. }
  rewrite T. assert (W0 : wrap PI = PI) by (unfold wrap; destruct (Rlt_dec PI 0); [lra|]; destruct (Rlt_dec (2 * PI) PI); lra).
  assert (W1 : wrap (PI + 2 * PI / 2) = 2 * PI) by (unfold wrap; destruct (Rlt_dec (PI + 2 * PI / 2) 0); [lra|]; destruct (Rlt_dec (2 * PI) (PI + 2 * PI / 2)); lra).
  rewrite W0, W1. reflexivity.
Qed.

(** Distances of points that are apart are positive, and lie between those on the spheres of
    the polar and the equatorial radius, up to the series error. *)
Lemma geodesic_between f a u1 u2 lam sg dlon len : 0 <= f <= 1 / 100 -> 0 < a -> 0 <= sg -> geodesic f a u1 u2 lam sg dlon len ->
  a * (1 - f) * sg <= len <= a * sg.
Proof.
  intros Hf Ha Hs (_ & al & s1 & _ & _ & _ & _ & K). cbv zeta in K. destruct K as ((G & HG & EL) & _). pose proof (ecc2_bound f Hf) as [E0 E1]. set (b := a * (1 - f)) in *. assert (Hb : 0 < b) by (unfold b; nra).
  pose proof (sc al) as T. pose proof (sq_nonneg (sin al)) as Sal. pose proof (sq_nonneg (cos al)) as Cal.
  assert (Rt : forall t, 1 <= sqrt (1 + cos al ^ 2 * ecc2 f * sin t ^ 2) <= / (1 - f)).
  { intros t. pose proof (sin_sq_bound t) as [T0 T1]. rewrite !pow2. assert (C1 : 0 <= cos al * cos al * (sin t * sin t) <= 1) by nra. split.
    - rewrite <- sqrt_1 at 1. apply sqrt_le_1_alt. replace (cos al * cos al * ecc2 f * (sin t * sin t)) with (cos al * cos al * (sin t * sin t) * ecc2 f) by ring. nra.
    - assert (I : 0 < / (1 - f)) by (apply Rinv_0_lt_compat; lra). rewrite <- (sqrt_square (/ (1 - f))) by lra. apply sqrt_le_1_alt.
      replace (/ (1 - f) * / (1 - f)) with (1 + ecc2 f) by (unfold ecc2; field; lra). replace (cos al * cos al * ecc2 f * (sin t * sin t)) with (cos al * cos al * (sin t * sin t) * ecc2 f) by ring. nra. }
  assert (L : s1 <= s1 + sg) by lra. split.
  - pose proof (integral_ge1 (fun t => / b * G t) (fun t => / b * (b * sqrt (1 + cos al ^ 2 * ecc2 f * sin t ^ 2))) s1 (s1 + sg) L) as K.
    assert (K' : s1 + sg - s1 <= / b * G (s1 + sg) - / b * G s1).
    { apply K; [intros t Ht; apply (derivable_pt_lim_scal G (/ b)); apply HG; exact Ht|]. intros t _. rewrite <- Rmult_assoc, Rinv_l, Rmult_1_l by lra. apply Rt. }
    apply Rmult_le_compat_l with (r := b) in K'; [|lra]. replace (b * (/ b * G (s1 + sg) - / b * G s1)) with (G (s1 + sg) - G s1) in K' by (field; lra). rewrite EL. replace (s1 + sg - s1) with sg in K' by ring. exact K'.
  - pose proof (integral_ge1 (fun t => 2 * t + - (/ a) * G t) (fun t => 2 * 1 + - (/ a) * (b * sqrt (1 + cos al ^ 2 * ecc2 f * sin t ^ 2))) s1 (s1 + sg) L) as K.
    assert (K' : s1 + sg - s1 <= 2 * (s1 + sg) + - (/ a) * G (s1 + sg) - (2 * s1 + - (/ a) * G s1)).
    { apply K.
      - intros t Ht. apply (derivable_pt_lim_plus (fun t => 2 * t) (fun t => - (/ a) * G t)); [apply (derivable_pt_lim_scal id 2), derivable_pt_lim_id|apply (derivable_pt_lim_scal G (- (/ a))); apply HG; exact Ht].
      - intros t _. destruct (Rt t) as [_ R2]. assert (BA : b * sqrt (1 + cos al ^ 2 * ecc2 f * sin t ^ 2) <= a).
        { apply Rle_trans with (b * / (1 - f)); [apply Rmult_le_compat_l; [lra|exact R2]|]. right. unfold b. field. lra. }
        apply (Rmult_le_compat_l (/ a)) in BA; [|left; apply Rinv_0_lt_compat; exact Ha]. rewrite Rinv_l in BA by lra. lra. }
    assert (J : / a * (G (s1 + sg) - G s1) <= sg) by lra. apply Rmult_le_compat_l with (r := a) in J; [|lra]. rewrite <- Rmult_assoc, Rinv_r, Rmult_1_l in J by lra. rewrite EL. exact J.
Qed.
Theorem C62_between : forall n f a phi1 lon1 phi2 lon2 s az12 az21, 0 <= f <= 1 / 100 -> 0 < a -> latitude phi1 -> latitude phi2 ->
  Rabs (lon2 - lon1) <= PI -> apart phi1 lon1 phi2 lon2 -> vinc_dist n f a phi1 lon1 phi2 lon2 = Some (Ok (s, az12, az21)) ->
  0 < s /\ exists lam, Rabs (lam - (lon2 - lon1)) <= 406 / 10000 /\ let sg := arc (reduced f phi1) 0 (reduced f phi2) lam in
    a * (1 - f) * (1 - f ^ 4 / 4) * sg <= s <= a * (1 + f ^ 4 / 4) * sg.
Proof.
  intros n f a p1 l1 p2 l2 s z1 z2 Hf Ha L1 L2 Ho A H. destruct (C62_geodesic n f a p1 l1 p2 l2 s z1 z2 Hf Ha L1 L2 Ho A H) as (lam & lam' & sg & dlon & len & G & Sg & D1 & _ & D2 & D3 & _).
  destruct (geodesic_between _ _ _ _ _ _ _ _ Hf Ha (Rlt_le _ _ (proj1 Sg)) G) as [B1 B2]. apply abs_between in D1. assert (F : 0 <= f ^ 4 <= 1).
  { split; [apply pow_le; lra|]. pose proof (pow4_le f 1 ltac:(lra)). rewrite pow1 in H0. exact H0. }
  assert (Hb : 0 < a * (1 - f)) by (apply Rmult_lt_0_compat; lra). assert (0 < a * (1 - f) * sg) by (apply Rmult_lt_0_compat; lra). split; [assert (0 < len * (1 - f ^ 4 / 4)) by (apply Rmult_lt_0_compat; lra); lra|].
  exists lam. split.
  - replace (lam - (l2 - l1)) with ((lam - lam') + (lam' - (l2 - l1))) by ring. apply Rle_trans with (1 := Rabs_triang _ _). pose proof pi_bounds.
    assert (Rabs lam' <= 4). { replace lam' with ((lam' - (l2 - l1)) + (l2 - l1)) by ring. apply Rle_trans with (1 := Rabs_triang _ _). lra. }
    assert (/ 10 ^ 9 * Rabs lam' <= / 10 ^ 9 * 4) by (apply Rmult_le_compat_l; [left; apply Rinv_0_lt_compat, pow_lt; lra|assumption]).
    assert (/ 10 ^ 9 * 4 <= 1 / 10000) by (cbn [pow]; lra). lra.
  - cbv zeta. destruct G as (EG & _). rewrite <- EG. split; [|].
    + apply Rle_trans with (len * (1 - f ^ 4 / 4)); [|lra]. replace (a * (1 - f) * (1 - f ^ 4 / 4) * sg) with (a * (1 - f) * sg * (1 - f ^ 4 / 4)) by ring. apply Rmult_le_compat_r; lra.
    + apply Rle_trans with (len * (1 + f ^ 4 / 4)); [lra|]. replace (a * (1 + f ^ 4 / 4) * sg) with (a * sg * (1 + f ^ 4 / 4)) by ring. apply Rmult_le_compat_r; lra.
Qed.

(** ** The hypotheses are met: WGS84 from (30 S, 10 E) to (35 S, 12 E), in radians roughly. *)
Lemma ex_lat : latitude (- (1 / 2)) /\ latitude (- (6 / 10)).
Proof. unfold latitude. pose proof pi_bounds. lra. Qed.
Lemma ex_apart : apart (- (1 / 2)) (2 / 10) (- (6 / 10)) (3 / 10).
Proof.
  left. replace (- (6 / 10) - - (1 / 2)) with (- (1 / 10)) by lra. rewrite Rabs_Ropp, Rabs_pos_eq by lra.
  apply Rmult_le_reg_l with (10 ^ 8); [apply pow_lt; lra|]. rewrite Rinv_r by (apply pow_nonzero; lra). cbn [pow]; lra.
Qed.
Lemma ex_lon : Rabs (3 / 10 - 2 / 10) <= PI.
Proof. rewrite Rabs_pos_eq by lra. pose proof pi_bounds. lra. Qed.
(** cos(arc) >= 0 as both latitudes have the same sign and the longitudes differ little. *)
Lemma ex_arc f : 0 <= f <= 1 / 100 -> arc (reduced f (- (1 / 2))) (2 / 10) (reduced f (- (6 / 10))) (3 / 10) <= 12 / 5.
Proof.
  intros Hf. rewrite sigma_arc. set (u1 := reduced f (- (1 / 2))). set (u2 := reduced f (- (6 / 10))). destruct (sigma_facts u1 u2 (3 / 10 - 2 / 10)) as (C & _ & _ & R & _). cbv zeta in *.
  destruct ex_lat as [L1 L2]. assert (C1 : 0 < cos u1) by (apply reduced_facts; [lra|exact L1]). assert (C2 : 0 < cos u2) by (apply reduced_facts; [lra|exact L2]).
  assert (Z : reduced f 0 = 0) by (unfold reduced; rewrite tan_0, Rmult_0_r; apply atan_0). pose proof pi_bounds as PB.
  assert (L0 : latitude 0) by (unfold latitude; lra).
  destruct (reduced_lt f (- (1 / 2)) 0 ltac:(lra) L1 L0 ltac:(lra)) as [A1 _]. destruct (reduced_lt f (- (6 / 10)) 0 ltac:(lra) L2 L0 ltac:(lra)) as [A2 _]. rewrite Z in *. fold u1 in A1. fold u2 in A2.
  assert (S1 : sin u1 < 0) by (apply sin_lt_0_var; lra). assert (S2 : sin u2 < 0) by (apply sin_lt_0_var; lra). assert (CL : 0 < cos (3 / 10 - 2 / 10)) by (apply cos_gt_0; lra).
  assert (K : 0 < KK u1 u2 (3 / 10 - 2 / 10)). { unfold KK. assert (0 < cos u1 * cos u2 * cos (3 / 10 - 2 / 10)) by (apply Rmult_lt_0_compat; [apply Rmult_lt_0_compat; assumption|assumption]). nra. }
  rewrite <- C in K. destruct (Rle_dec (sigma_of u1 u2 (3 / 10 - 2 / 10)) (12 / 5)) as [|N]; [assumption|exfalso]. apply Rnot_le_lt in N.
  assert (cos (sigma_of u1 u2 (3 / 10 - 2 / 10)) < cos (PI / 2)) by (apply cos_decreasing_1; lra). rewrite cos_PI2 in *. lra.
Qed.
Example C62_example : exists s az12 az21, vinc_dist 9 (1 / 298) 6378137 (- (1 / 2)) (2 / 10) (- (6 / 10)) (3 / 10) = Some (Ok (s, az12, az21)) /\ 0 < s.
Proof.
  destruct ex_lat as [L1 L2]. assert (F : 0 <= 1 / 298 <= 1 / 100) by lra. assert (A : 0 < 6378137) by lra. assert (N : - (1 / 2) <> 0 \/ - (6 / 10) <> 0) by (left; lra).
  destruct (C62_terminates 9 (1 / 298) 6378137 _ _ _ _ F A L1 L2 N ex_lon ex_apart (ex_arc _ F) (le_n 9)) as (s & z1 & z2 & E).
  exists s, z1, z2. split; [exact E|]. apply (C62_between 9 (1 / 298) 6378137 _ _ _ _ s z1 z2 F A L1 L2 ex_lon ex_apart E).
Qed.
(** Every pair of latitudes has a meridian arc, so that hypothesis can be met too. *)
Example C62_meridian_example : exists len s, meridian_arc (1 / 298) 6378137 (reduced (1 / 298) (- (6 / 10))) (reduced (1 / 298) (- (1 / 2))) len /\
  vinc_dist 1 (1 / 298) 6378137 (- (6 / 10)) 2 (- (1 / 2)) 2 = Some (Ok (s, 0, PI)) /\ Rabs (s - len) <= (1 / 298) ^ 4 / 4 * len.
Proof.
  destruct ex_lat as [L1 L2]. destruct (reduced_lt (1 / 298) (- (6 / 10)) (- (1 / 2)) ltac:(lra) L2 L1 ltac:(lra)) as [B1 B2].
  set (u1 := reduced _ (- (6 / 10))) in *. set (u2 := reduced _ (- (1 / 2))) in *.
  destruct (integral_exists (fun t => sqrt ((6378137 * sin t) ^ 2 + (6378137 * (1 - 1 / 298) * cos t) ^ 2)) u1 u2 ltac:(lra)) as (G & HG).
  { intros t _. apply derivable_continuous_pt. assert (D : derivable_pt (fun t => (6378137 * sin t) ^ 2 + (6378137 * (1 - 1 / 298) * cos t) ^ 2) t) by (reg).
    apply (derivable_pt_comp (fun t => (6378137 * sin t) ^ 2 + (6378137 * (1 - 1 / 298) * cos t) ^ 2) sqrt t D). apply derivable_pt_sqrt.
    pose proof (sc t). pose proof (sq_nonneg (sin t)). pose proof (sq_nonneg (cos t)).
    replace ((6378137 * sin t) ^ 2 + (6378137 * (1 - 1 / 298) * cos t) ^ 2) with (6378137 * 6378137 * (sin t * sin t) + 6378137 * 6378137 * (297 / 298 * (297 / 298)) * (cos t * cos t)) by field. lra. }
  exists (G u2 - G u1). assert (M : meridian_arc (1 / 298) 6378137 u1 u2 (G u2 - G u1)) by (exists G; split; [exact HG|reflexivity]).
  assert (F : 0 <= 1 / 298 <= 1 / 100) by lra. assert (A : 0 < 6378137) by lra. assert (N : - (6 / 10) < - (1 / 2)) by lra.
  destruct (C62_meridian 1 (1 / 298) 6378137 (- (6 / 10)) (- (1 / 2)) 2 (G u2 - G u1) F A L2 L1 N) as (s & E & _ & D); [|lia|exact M|].
  - left. replace (- (1 / 2) - - (6 / 10)) with (1 / 10) by lra. rewrite Rabs_pos_eq by lra. apply Rmult_le_reg_l with (10 ^ 8); [apply pow_lt; lra|]. rewrite Rinv_r by (apply pow_nonzero; lra). cbn [pow]; lra.
  - exists s. auto.
Qed.
Example C62_sphere_example : exists az12 az21, vinc_dist 1 0 6378137 (- (6 / 10)) 2 (- (1 / 2)) 2 = Some (Ok (6378137 * (1 / 10), az12, az21)).
Proof.
  destruct ex_lat as [L1 L2]. pose proof pi_bounds as PB. assert (E : arc (- (6 / 10)) 2 (- (1 / 2)) 2 = 1 / 10) by (rewrite sigma_arc, Rminus_diag_eq by reflexivity; rewrite sigma_meridian; lra).
  destruct (C62_sphere 1 6378137 (- (6 / 10)) 2 (- (1 / 2)) 2) as (z1 & z2 & H & _); [lra|exact L2|exact L1|left; lra|rewrite Rminus_diag_eq, Rabs_R0 by reflexivity; lra| |rewrite E; lra|lia|].
  - left. replace (- (1 / 2) - - (6 / 10)) with (1 / 10) by lra. rewrite Rabs_pos_eq by lra. apply Rmult_le_reg_l with (10 ^ 8); [apply pow_lt; lra|]. rewrite Rinv_r by (apply pow_nonzero; lra). cbn [pow]; lra.
  - rewrite E in H. eauto.
Qed.
Print Assumptions C62_geodesic.
Print Assumptions C62_terminates.
Print Assumptions C62_meridian.
