(** * Proofs about the whole of vinc_dist. *)
From Coq Require Import Reals Lia ZArith.
From Verif Require Import Base Atan2 VincModel VincSpec VincProofs VincSeries.
From Coq Require Import Lra.
Local Open Scope R_scope.

(** ** Bringing azimuths into a turn *)
Lemma cos_turn x : cos (x + 2 * PI) = cos x.
Proof. rewrite cos_plus, cos_2PI, sin_2PI. ring. Qed.
Lemma sin_turn x : sin (x + 2 * PI) = sin x.
Proof. rewrite sin_plus, cos_2PI, sin_2PI. ring. Qed.
Lemma wrap_trig x : cos (wrap x) = cos x /\ sin (wrap x) = sin x.
Proof.
  unfold wrap. destruct (Rlt_dec x 0), (Rlt_dec (2 * PI) _).
  - replace (x + 2 * PI - 2 * PI) with x by ring. split; reflexivity.
  - split; [apply cos_turn|apply sin_turn].
  - split; [rewrite <- (cos_turn (x - 2 * PI))|rewrite <- (sin_turn (x - 2 * PI))]; f_equal; ring.
  - split; reflexivity.
Qed.
Lemma wrap_range x : - (2 * PI) <= x <= 4 * PI -> 0 <= wrap x <= 2 * PI.
Proof. intros H. pose proof PI_RGT_0. unfold wrap. destruct (Rlt_dec x 0), (Rlt_dec (2 * PI) _); lra. Qed.

(** ** The loop *)
Lemma vinc_loop_ok f u1 u2 omega : forall fuel last lembda st s,
  (forall t, st = Some t -> pass f u1 u2 omega last t /\ lembda = v_lembda t) ->
  vinc_loop fuel f u1 u2 omega last lembda st = Some (Ok s) ->
  exists l, pass f u1 u2 omega l s /\ vinc_again l (v_lembda s) = false.
Proof.
  induction fuel as [|n IH]; intros last lembda st s Inv H; cbn [vinc_loop] in H; destruct (vinc_again last lembda) eqn:A.
  - discriminate.
  - destruct st as [t|]; [|discriminate]. injection H as <-. destruct (Inv t eq_refl) as [P ->]. exists last. split; assumption.
  - destruct (vinc_step f u1 u2 omega lembda) as [t|e] eqn:E; [|discriminate]. apply IH in H; [exact H|].
    intros t' Et. injection Et as <-. split; [apply vinc_step_ok; exact E|reflexivity].
  - destruct st as [t|]; [|discriminate]. injection H as <-. destruct (Inv t eq_refl) as [P ->]. exists last. split; assumption.
Qed.
(** Values met on the way: [I] holds of the starting value and is kept by a pass. *)
Lemma vinc_loop_inv (I : R -> Prop) f u1 u2 omega : (forall l s, I l -> pass f u1 u2 omega l s -> I (v_lembda s)) ->
  forall fuel last lembda st s, I lembda ->
  (forall t, st = Some t -> I last /\ pass f u1 u2 omega last t /\ lembda = v_lembda t) ->
  vinc_loop fuel f u1 u2 omega last lembda st = Some (Ok s) ->
  exists l, I l /\ pass f u1 u2 omega l s /\ vinc_again l (v_lembda s) = false.
Proof.
  intros Step. induction fuel as [|n IH]; intros last lembda st s I0 Inv H; cbn [vinc_loop] in H; destruct (vinc_again last lembda) eqn:A.
  - discriminate.
  - destruct st as [t|]; [|discriminate]. injection H as <-. destruct (Inv t eq_refl) as (Il & P & ->). exists last. split; [|split]; assumption.
  - destruct (vinc_step f u1 u2 omega lembda) as [t|e] eqn:E; [|discriminate]. pose proof (vinc_step_ok _ _ _ _ _ _ E) as P. apply IH in H; [exact H| |].
    + apply (Step lembda); assumption.
    + intros t' Et. injection Et as <-. split; [assumption|]. split; [exact P|reflexivity].
  - destruct st as [t|]; [|discriminate]. injection H as <-. destruct (Inv t eq_refl) as (Il & P & ->). exists last. split; [|split]; assumption.
Qed.
Lemma again_start l : vinc_again (-4000000) l = true.
Proof. unfold vinc_again. destruct (Rlt_dec _ _) as [_|N]; [reflexivity|exfalso; apply N; lra]. Qed.
Lemma again_false last l : vinc_again last l = false -> l = 0 \/ Rabs (last - l) <= / 10 ^ 9 * Rabs l.
Proof.
  unfold vinc_again. destruct (Rlt_dec last (-3000000)); [discriminate|]. destruct (Req_EM_T l 0) as [E|N]; [left; exact E|].
  destruct (Rlt_dec _ _) as [|G]; [discriminate|]. intros _. right. apply Rnot_lt_le in G. unfold Rdiv in G. rewrite Rabs_mult, Rabs_inv in G.
  assert (P : 0 < Rabs l) by (apply Rabs_pos_lt; exact N). apply Rmult_le_reg_r with (/ Rabs l); [apply Rinv_0_lt_compat; exact P|].
  rewrite Rmult_assoc, Rinv_r by lra. lra.
Qed.
Lemma again_same l : -3000000 <= l -> vinc_again l l = false.
Proof.
  intros H. unfold vinc_again. destruct (Rlt_dec l (-3000000)); [lra|]. destruct (Req_EM_T l 0) as [E|N]; [reflexivity|].
  replace ((l - l) / l) with 0 by (field; exact N). rewrite Rabs_R0. destruct (Rlt_dec _ _) as [G|]; [|reflexivity].
  exfalso. assert (0 < 1 / 10 ^ 9) by (apply Rdiv_lt_0_compat; [lra|apply pow_lt; lra]). lra.
Qed.

(** ** The angle at which the great circle leaves the equator *)
Section Pass.
Variables (f u1 u2 omega l : R) (s : vinc_state).
Hypothesis P : pass f u1 u2 omega l s.
Local Notation sg := (v_sigma s).
Local Notation al := (v_alpha s).

Lemma pass_sin_pos : 0 < sin sg.
Proof. destruct (p_range _ _ _ _ _ _ P). apply sin_gt_0; assumption. Qed.
Lemma pass_DD : cos al * cos al * (sin sg * sin sg) = DD u1 u2 l.
Proof.
  pose proof (product_sqr u1 u2 l) as H. pose proof (p_alpha _ _ _ _ _ _ P) as A. pose proof (sc al) as S.
  rewrite <- A in H. destruct (sigma_facts u1 u2 l) as (_ & _ & Q & _). rewrite <- (p_sigma _ _ _ _ _ _ P) in Q. rewrite <- Q in H.
  replace (cos al * cos al) with (1 - sin al * sin al) by lra. lra.
Qed.
(** The distance of the first point from the equator along the great circle. *)
Definition s1_of : R := atan2 (sin u1 * sin sg) (sin u2 - sin u1 * cos sg).
Lemma s1_facts : sin u1 = cos al * sin s1_of /\ sin u2 = cos al * sin (s1_of + sg) /\ v_cos2sigma_m s = cos (2 * s1_of + sg).
Proof.
  pose proof pass_sin_pos as SP. pose proof (p_cosa _ _ _ _ _ _ P) as CP.
  assert (N : norm2 (sin u2 - sin u1 * cos sg) (sin u1 * sin sg) = cos al * sin sg).
  { unfold norm2. rewrite <- (sqrt_Rsqr (cos al * sin sg)) by nra. f_equal. unfold Rsqr.
    replace (cos al * sin sg * (cos al * sin sg)) with (cos al * cos al * (sin sg * sin sg)) by ring. rewrite pass_DD. unfold DD.
    replace (KK u1 u2 l) with (cos sg) by (rewrite (p_K _ _ _ _ _ _ P); reflexivity). pose proof (sc sg) as H.
    replace (sin u1 * sin sg * (sin u1 * sin sg)) with (sin u1 * sin u1 * (sin sg * sin sg)) by ring. replace (sin sg * sin sg) with (1 - cos sg * cos sg) by lra. ring. }
  pose proof (atan2_cos (sin u1 * sin sg) (sin u2 - sin u1 * cos sg)) as C. pose proof (atan2_sin (sin u1 * sin sg) (sin u2 - sin u1 * cos sg)) as S.
  fold s1_of in C, S. rewrite N in C, S.
  assert (A : sin u1 = cos al * sin s1_of) by (apply Rmult_eq_reg_r with (sin sg); [lra|lra]).
  assert (B : sin u2 = cos al * sin (s1_of + sg)) by (rewrite sin_plus, Rmult_plus_distr_l, <- Rmult_assoc, <- A; lra).
  split; [exact A|]. split; [exact B|]. pose proof (p_c2 _ _ _ _ _ _ P) as H.
  apply Rmult_eq_reg_r with (cos al ^ 2); [|apply pow_nonzero; lra]. rewrite H, A, B.
  replace (2 * s1_of + sg) with (s1_of + (s1_of + sg)) by ring. rewrite cos_plus.
  replace (cos sg) with (cos ((s1_of + sg) - s1_of)) by (f_equal; ring). rewrite cos_minus. ring.
Qed.
End Pass.

(** ** Directions on the auxiliary sphere *)
Lemma norm_dir u1 u2 l : norm2 (cos u1 * sin u2 - sin u1 * cos u2 * cos l) (cos u2 * sin l) = sin (sigma_of u1 u2 l).
Proof.
  destruct (sigma_facts u1 u2 l) as (_ & -> & _). unfold norm2, SS. f_equal. ring.
Qed.
Lemma KK_sym u1 u2 l : KK u2 u1 (- l) = KK u1 u2 l.
Proof. unfold KK. rewrite cos_neg. ring. Qed.
Lemma KK_neg u1 u2 l : KK u1 u2 (- l) = KK u1 u2 l.
Proof. unfold KK. rewrite cos_neg. ring. Qed.
Lemma sigma_K u1 u2 l : sigma_of u1 u2 l = atan2 (sqrt (1 - KK u1 u2 l * KK u1 u2 l)) (KK u1 u2 l).
Proof. unfold sigma_of. do 2 f_equal. pose proof (SS_KK u1 u2 l). lra. Qed.
Lemma sigma_sym u1 u2 l : sigma_of u2 u1 (- l) = sigma_of u1 u2 l.
Proof. rewrite !sigma_K, KK_sym. reflexivity. Qed.
Lemma sigma_neg u1 u2 l : sigma_of u1 u2 (- l) = sigma_of u1 u2 l.
Proof. rewrite !sigma_K, KK_neg. reflexivity. Qed.

Lemma sigma_arc u1 u2 l1 l2 : arc u1 l1 u2 l2 = sigma_of u1 u2 (l2 - l1).
Proof.
  unfold arc. destruct (sigma_facts u1 u2 (l2 - l1)) as (C & _ & _ & R & _). replace (dot _ _) with (cos (sigma_of u1 u2 (l2 - l1))); [apply acos_cos; exact R|].
  rewrite C. unfold KK, dot, point. rewrite cos_minus. ring.
Qed.

(** Leaving the first point at the computed azimuth leads to the second. *)
Lemma direction u1 l1 u2 l2 az : cos az * sin (sigma_of u1 u2 (l2 - l1)) = cos u1 * sin u2 - sin u1 * cos u2 * cos (l2 - l1) ->
  sin az * sin (sigma_of u1 u2 (l2 - l1)) = cos u2 * sin (l2 - l1) ->
  walk u1 l1 az (sigma_of u1 u2 (l2 - l1)) = point u2 l2.
Proof.
  intros Hc Hs. set (l := l2 - l1) in *. replace l2 with (l1 + l) by (unfold l; ring). destruct (sigma_facts u1 u2 l) as (C & _).
  unfold walk, point, north, east, vadd, vscale. rewrite C. unfold KK.
  pose proof (sc u1) as A. pose proof (sc u2) as B. pose proof (sc l1) as D.
  f_equal; [f_equal|].
  - rewrite cos_plus.
    replace (sin (sigma_of u1 u2 l) * (cos az * (- sin u1 * cos l1) + sin az * - sin l1)) with
      (cos az * sin (sigma_of u1 u2 l) * (- sin u1 * cos l1) + sin az * sin (sigma_of u1 u2 l) * - sin l1) by ring.
    rewrite Hc, Hs. replace (cos u2 * (cos l1 * cos l - sin l1 * sin l)) with ((sin u1 * sin u1 + cos u1 * cos u1) * (cos u2 * (cos l1 * cos l)) - cos u2 * sin l1 * sin l) by (rewrite A; ring). ring.
  - rewrite sin_plus.
    replace (sin (sigma_of u1 u2 l) * (cos az * (- sin u1 * sin l1) + sin az * cos l1)) with
      (cos az * sin (sigma_of u1 u2 l) * (- sin u1 * sin l1) + sin az * sin (sigma_of u1 u2 l) * cos l1) by ring.
    rewrite Hc, Hs. replace (cos u2 * (sin l1 * cos l + cos l1 * sin l)) with ((sin u1 * sin u1 + cos u1 * cos u1) * (cos u2 * (sin l1 * cos l)) + cos u2 * cos l1 * sin l) by (rewrite A; ring). ring.
  - replace (sin (sigma_of u1 u2 l) * (cos az * cos u1 + sin az * 0)) with (cos az * sin (sigma_of u1 u2 l) * cos u1) by ring. rewrite Hc.
    replace (sin u2) with ((sin u1 * sin u1 + cos u1 * cos u1) * sin u2) at 3 by (rewrite A; ring). ring.
Qed.
Lemma azimuth12 u1 l1 u2 l2 : let l := l2 - l1 in
  walk u1 l1 (wrap (atan2 (cos u2 * sin l) (cos u1 * sin u2 - sin u1 * cos u2 * cos l))) (arc u1 l1 u2 l2) = point u2 l2.
Proof.
  cbv zeta. set (l := l2 - l1). rewrite sigma_arc. fold l. set (y := cos u2 * sin l). set (x := cos u1 * sin u2 - sin u1 * cos u2 * cos l).
  destruct (wrap_trig (atan2 y x)) as [C S]. apply direction; fold l; [rewrite C|rewrite S].
  - rewrite <- norm_dir. fold x y. rewrite Rmult_comm. apply atan2_cos.
  - rewrite <- norm_dir. fold x y. rewrite Rmult_comm. apply atan2_sin.
Qed.
Lemma azimuth21 u1 l1 u2 l2 : let l := l2 - l1 in
  walk u2 l2 (wrap (atan2 (cos u1 * sin l) (- sin u1 * cos u2 + cos u1 * sin u2 * cos l) + 2 * PI / 2)) (arc u1 l1 u2 l2) = point u1 l1.
Proof.
  cbv zeta. set (l := l2 - l1). rewrite sigma_arc. fold l. set (y := cos u1 * sin l). set (x := - sin u1 * cos u2 + cos u1 * sin u2 * cos l).
  destruct (wrap_trig (atan2 y x + 2 * PI / 2)) as [C S]. replace (atan2 y x + 2 * PI / 2) with (atan2 y x + PI) in * by field.
  rewrite neg_cos in C. rewrite neg_sin in S. rewrite <- (sigma_sym u1 u2 l). replace (- l) with (l1 - l2) by (unfold l; ring).
  assert (N : norm2 x y = sin (sigma_of u2 u1 (l1 - l2))).
  { rewrite <- norm_dir. unfold norm2. f_equal. replace (l1 - l2) with (- l) by (unfold l; ring). rewrite cos_neg, sin_neg. unfold x, y. ring. }
  apply direction; [rewrite C|rewrite S]; rewrite <- N.
  - replace (l1 - l2) with (- l) by (unfold l; ring). rewrite cos_neg. pose proof (atan2_cos y x) as K. unfold x in *. lra.
  - replace (l1 - l2) with (- l) by (unfold l; ring). rewrite sin_neg. pose proof (atan2_sin y x) as K. unfold y in *. lra.
Qed.
