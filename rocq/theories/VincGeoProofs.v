(** * vinc_dist computes a geodesic of the ellipsoid, up to the error of its series. *)
From Coq Require Import Reals Lia ZArith.
From Verif Require Import Base Atan2 VincModel VincSpec VincProofs VincSeries VincRunProofs.
From Coq Require Import Lra.
Local Open Scope R_scope.

Lemma pow2 x : x ^ 2 = x * x. Proof. ring. Qed.

(** Continuous functions have integrals. *)
Lemma integral_exists g a b : a <= b -> (forall t, a <= t <= b -> continuity_pt g t) ->
  exists G, forall t, a <= t <= b -> derivable_pt_lim G t (g t).
Proof.
  intros L C. destruct (@RiemannInt_P30 g a b L C) as (G & A & _). exists G. intros t Ht. destruct (A t Ht) as (pr & E). rewrite E.
  destruct pr as (v & D). exact D.
Qed.
Lemma cont_rate x t : 0 <= x -> continuity_pt (fun t => sqrt (1 + x * (sin t * sin t))) t.
Proof.
  intros Hx. apply (continuity_pt_comp (fun t => 1 + x * (sin t * sin t)) sqrt).
  - apply continuity_pt_plus; [apply continuity_pt_const; intros ? ?; reflexivity|].
    apply continuity_pt_mult; [apply continuity_pt_const; intros ? ?; reflexivity|].
    apply continuity_pt_mult; apply continuity_sin.
  - apply continuity_pt_sqrt. pose proof (sq_nonneg (sin t)). nra.
Qed.
Lemma lon_true_alt f w t : 0 <= f <= 1 / 100 -> 0 <= w <= 1 ->
  lon_true f w t = (2 - f) / (1 + (1 - f) * sqrt (1 + w * ecc2 f * (sin t * sin t))).
Proof.
  intros Hf Hw. unfold lon_true. do 2 f_equal. 
  transitivity (sqrt (Rsqr (1 - f)) * sqrt (1 + w * ecc2 f * (sin t * sin t))); [|rewrite sqrt_Rsqr by lra; reflexivity]. rewrite <- sqrt_mult_alt by apply Rle_0_sqr.
  f_equal. unfold Rsqr, ecc2. field. lra.
Qed.
Lemma ecc2_bound f : 0 <= f <= 1 / 100 -> 0 <= ecc2 f <= 205 / 100 * f.
Proof.
  intros Hf. unfold ecc2. assert (D : 0 < (1 - f) * (1 - f)) by nra.
  assert (E : / ((1 - f) * (1 - f)) - 1 = (2 * f - f * f) * / ((1 - f) * (1 - f))) by (field; lra). rewrite E.
  assert (I : / ((1 - f) * (1 - f)) <= 10204 / 10000). { apply Rmult_le_reg_l with ((1 - f) * (1 - f)); [exact D|]. rewrite Rinv_r by lra.
    assert (99 / 100 * (99 / 100) <= (1 - f) * (1 - f)) by (apply Rmult_le_compat; lra). lra. }
  pose proof (Rinv_0_lt_compat _ D) as J. assert (G : 0 <= 2 * f - f * f) by nra. split; [apply Rmult_le_pos; lra|].
  apply Rle_trans with ((2 * f - f * f) * (10204 / 10000)); [apply Rmult_le_compat_l; lra|pose proof (sq_nonneg f); lra].
Qed.
Lemma cont_lon f w t : 0 <= f <= 1 / 100 -> 0 <= w <= 1 -> continuity_pt (lon_true f w) t.
Proof.
  intros Hf Hw. pose proof (ecc2_bound f Hf) as [E0 _].
  assert (W : 0 <= w * ecc2 f) by nra.
  assert (C : continuity_pt (fun t => (2 - f) / (1 + (1 - f) * sqrt (1 + w * ecc2 f * (sin t * sin t)))) t).
  { apply continuity_pt_div.
    - apply continuity_pt_const. intros ? ?. reflexivity.
    - apply continuity_pt_plus; [apply continuity_pt_const; intros ? ?; reflexivity|].
      apply continuity_pt_mult; [apply continuity_pt_const; intros ? ?; reflexivity|]. apply cont_rate. exact W.
    - pose proof (sqrt_pos (1 + w * ecc2 f * (sin t * sin t))) as Q. intros Z. nra. }
  intros eps Heps. destruct (C eps Heps) as (d & Hd & K). exists d. split; [exact Hd|]. intros x Hx. specialize (K x Hx).
  rewrite !lon_true_alt by assumption. exact K.
Qed.

(** Size of the longitude correction. *)
Section Pass.
Variables (f u1 u2 omega l : R) (s : vinc_state).
Hypothesis P : pass f u1 u2 omega l s.
Hypothesis Hf : 0 <= f <= 1 / 100.
Local Notation sg := (v_sigma s).
Local Notation al := (v_alpha s).
Local Notation w := (cos (v_alpha s) * cos (v_alpha s)).

Lemma w_bound : 0 < w <= 1.
Proof. pose proof (p_cosa _ _ _ _ _ _ P). pose proof (sc al). pose proof (sq_nonneg (sin al)). split; nra. Qed.
Definition corr : R := (1 - series_C f w) * (sg + series_C f w * sin sg * (v_cos2sigma_m s + series_C f w * cos sg * (-1 + 2 * v_cos2sigma_m s ^ 2))).
Lemma p_new' : v_lembda s = omega + f * sin al * corr.
Proof. rewrite (p_new _ _ _ _ _ _ P). cbv zeta. unfold corr, series_C. rewrite !pow2. ring. Qed.
Lemma corr_bound : Rabs (corr - sg) <= f * (52 / 100) * sg.
Proof.
  destruct (s1_facts _ _ _ _ _ _ P) as (_ & _ & E). unfold corr. rewrite E. rewrite (lon_diff (series_C f w) (s1_of u1 u2 s) sg).
  destruct (p_range _ _ _ _ _ _ P) as [S0 S1]. set (s1 := s1_of u1 u2 s) in *. assert (L : s1 <= s1 + sg) by lra. pose proof w_bound as W.
  assert (W1 : Rabs w <= 1) by (rewrite Rabs_pos_eq; lra).
  pose proof (close_deriv _ (fun t => t) _ (fun _ => 1) (f * (52 / 100)) s1 (s1 + sg) L (fun t _ => lon_prim_deriv (series_C f w) t)
    (fun t _ => derivable_pt_lim_id t) (fun t _ => lon_rate_one f w (cos (2 * t)) Hf W1 (abs_cos _))) as H.
  cbv beta in H. replace (s1 + sg - s1) with sg in H by ring. exact H.
Qed.
Lemma corr_pos : 0 <= corr <= 10052 / 10000 * sg.
Proof. pose proof (abs_between _ _ corr_bound) as B. destruct (p_range _ _ _ _ _ _ P) as [S0 S1]. split; nra. Qed.
Lemma shift_bound : Rabs (v_lembda s - omega) <= f * Rabs (sin al) * (10052 / 10000 * sg).
Proof.
  rewrite p_new'. replace (omega + f * sin al * corr - omega) with (f * sin al * corr) by ring. rewrite !Rabs_mult, (Rabs_pos_eq f) by lra.
  pose proof corr_pos. rewrite (Rabs_pos_eq corr) by lra. apply Rmult_le_compat_l; [|lra]. apply Rmult_le_pos; [lra|apply Rabs_pos].
Qed.
Lemma abs_sin x : Rabs (sin x) <= 1.
Proof. pose proof (SIN_bound x). apply Rabs_le. lra. Qed.
Lemma shift_small : Rabs (v_lembda s - omega) <= 405 / 10000.
Proof.
  apply Rle_trans with (1 := shift_bound). pose proof (abs_sin al). pose proof (Rabs_pos (sin al)). destruct (p_range _ _ _ _ _ _ P) as [S0 S1]. pose proof PI_4.
  apply Rle_trans with (1 / 100 * 1 * (10052 / 10000 * 4)); [|lra].
  apply Rmult_le_compat; [apply Rmult_le_pos; lra|lra| |lra]. apply Rmult_le_compat; lra.
Qed.
(** The sign of the correction is that of sin l. *)
Lemma alpha_sign : 0 < cos u1 -> 0 < cos u2 -> (0 <= sin l -> 0 <= sin al) /\ (sin l <= 0 -> sin al <= 0).
Proof.
  intros C1 C2. pose proof (pass_sin_pos _ _ _ _ _ _ P) as SP. pose proof (p_alpha _ _ _ _ _ _ P) as A. assert (CC : 0 < cos u1 * cos u2) by nra.
  split; intros H; [assert (0 <= cos u1 * cos u2 * sin l) by nra|assert (cos u1 * cos u2 * sin l <= 0) by nra]; nra.
Qed.
End Pass.

Lemma keep_sign f u1 u2 omega e : 0 <= f <= 1 / 100 -> 0 < cos u1 -> 0 < cos u2 -> e = 1 \/ e = -1 -> 0 < e * omega <= PI ->
  forall l s, 0 < e * l <= e * omega + 405 / 10000 -> pass f u1 u2 omega l s -> 0 < e * v_lembda s <= e * omega + 405 / 10000.
Proof.
  intros Hf C1 C2 He Ho l s Hl P. pose proof (abs_between _ _ (shift_small _ _ _ _ _ _ P Hf)) as B.
  assert (EE : e * e = 1) by (destruct He; subst; ring).
  assert (U : - (405 / 10000) <= e * (v_lembda s - omega) <= 405 / 10000) by (destruct He; subst; lra).
  split; [|lra]. pose proof PI2_3_2 as P3.
  destruct (Rle_lt_dec (e * l) PI) as [L|G]; [|lra].
  assert (S : 0 <= sin (e * l)) by (apply sin_ge_0; lra).
  assert (SE : sin (e * l) = e * sin l). { destruct He; subst; [rewrite !Rmult_1_l; reflexivity|]. replace (-1 * l) with (- l) by ring. rewrite sin_neg. ring. }
  rewrite SE in S. destruct (alpha_sign _ _ _ _ _ _ P C1 C2) as [A1 A2]. pose proof (corr_pos _ _ _ _ _ _ P Hf) as [K _]. rewrite (p_new' _ _ _ _ _ _ P).
  assert (0 <= e * sin (v_alpha s)) by (destruct He; subst; [|]; (assert (0 <= sin (v_alpha s)) by (apply A1; lra); lra) || (assert (sin (v_alpha s) <= 0) by (apply A2; lra); lra)).
  assert (0 <= e * (f * sin (v_alpha s) * corr f s)).
  { replace (e * (f * sin (v_alpha s) * corr f s)) with (f * (e * sin (v_alpha s)) * corr f s) by ring. apply Rmult_le_pos; [|exact K]. apply Rmult_le_pos; lra. }
  lra.
Qed.

(** The integrals of the geodesic description exist, the first at least the length of its interval. *)
Lemma integral_ge1 (M : R -> R) (m : R -> R) a b : a <= b -> (forall t, a <= t <= b -> derivable_pt_lim M t (m t)) -> (forall t, a <= t <= b -> 1 <= m t) -> b - a <= M b - M a.
Proof.
  intros L D G. destruct (Rle_lt_or_eq_dec _ _ L) as [L'|E]; [|subst; lra].
  destruct (MVT_cor2 M m a b L' D) as (c & E & Hc). rewrite E. assert (1 <= m c) by (apply G; lra). nra.
Qed.
Lemma pow4_le x y : 0 <= x <= y -> x ^ 4 <= y ^ 4.
Proof. intros H. apply pow_incr. exact H. Qed.

(** What a pass and the finish compute, when the pass is the last. *)
Lemma finish_geodesic f a u1 u2 omega l s : 0 <= f <= 1 / 100 -> 0 < a -> pass f u1 u2 omega l s ->
  exists d len dlon,
    vinc_finish f a u1 u2 s = Ok (d, wrap (atan2 (cos u2 * sin (v_lembda s)) (cos u1 * sin u2 - sin u1 * cos u2 * cos (v_lembda s))),
      wrap (atan2 (cos u1 * sin (v_lembda s)) (- sin u1 * cos u2 + cos u1 * sin u2 * cos (v_lembda s)) + 2 * PI / 2)) /\
    geodesic f a u1 u2 l (v_sigma s) dlon len /\ a * (1 - f) * v_sigma s <= len /\ Rabs (d - len) <= f ^ 4 / 4 * len /\
    Rabs (dlon - omega - (l - v_lembda s)) <= 2 * f ^ 4 * v_sigma s.
Proof.
  intros Hf Ha P. set (sg := v_sigma s). set (al := v_alpha s). set (b := a * (1 - f)). assert (Hb : 0 < b) by (unfold b; nra).
  pose proof (w_bound _ _ _ _ _ _ P) as W. fold al in W. set (w := cos al * cos al) in *. pose proof (ecc2_bound f Hf) as [E0 E1].
  set (x := w * ecc2 f). assert (Hx0 : 0 <= x) by (unfold x; nra). assert (Hx1 : x <= 205 / 100 * f) by (unfold x; nra). assert (Hx : 0 <= x <= 1 / 40) by lra.
  destruct (p_range _ _ _ _ _ _ P) as [S0 S1]. fold sg in S0, S1. destruct (s1_facts _ _ _ _ _ _ P) as (F1 & F2 & F3). fold sg al in F1, F2, F3. set (s1 := s1_of u1 u2 s) in *.
  assert (L : s1 <= s1 + sg) by lra.
  destruct (integral_exists (fun t => sqrt (1 + x * (sin t * sin t))) s1 (s1 + sg) L (fun t _ => cont_rate x t Hx0)) as (M & HM).
  destruct (integral_exists (lon_true f w) s1 (s1 + sg) L (fun t _ => cont_lon f w t Hf ltac:(lra))) as (N & HN).
  set (len := b * (M (s1 + sg) - M s1)). set (dlon := l - f * sin al * (N (s1 + sg) - N s1)).
  assert (Lm : sg <= M (s1 + sg) - M s1).
  { pose proof (integral_ge1 M _ s1 (s1 + sg) L HM) as K. replace (s1 + sg - s1) with sg in K by ring. apply K. intros t _.
    rewrite <- sqrt_1 at 1. apply sqrt_le_1_alt. pose proof (sq_nonneg (sin t)). nra. }
  assert (Usq : (cos al) ^ 2 * (a * a - b * b) / (b * b) = x) by (unfold x, w, ecc2, b; field; lra).
  eexists. exists len, dlon. split; [|split; [|split; [|split]]].
  - unfold vinc_finish. fold al b. destruct (Req_EM_T (b * b) 0) as [Z|_]; [exfalso; apply (Rgt_not_eq _ _ Hb); destruct (Rmult_integral _ _ Z); assumption|]. rewrite Usq. reflexivity.
  - split; [rewrite sigma_arc, Rminus_0_r; exact (p_sigma _ _ _ _ _ _ P)|].
    exists al, s1. split; [left; exact (p_cosa _ _ _ _ _ _ P)|]. split; [exact F1|]. split; [exact F2|]. split; [exact (p_alpha _ _ _ _ _ _ P)|]. cbv zeta.
    replace (cos al ^ 2 * ecc2 f) with x by (unfold x, w; ring). split.
    + exists (fun t => b * M t). split; [|unfold len; ring]. intros t Ht. rewrite pow2. apply (derivable_pt_lim_scal M b). apply HM. exact Ht.
    + exists (N (s1 + sg) - N s1). split; [|reflexivity]. exists N. split; [|reflexivity]. intros t Ht. rewrite pow2. unfold x. rewrite <- lon_true_alt by lra. apply HN. exact Ht.
  - unfold len. apply Rmult_le_compat_l; lra.
  - unfold len. rewrite (p_cos _ _ _ _ _ _ P), (p_sin _ _ _ _ _ _ P), (p_sqr _ _ _ _ _ _ P). fold sg. rewrite F3.
    pose proof (dist_close x s1 sg M Hx ltac:(lra) HM) as D. rewrite Rmult_assoc, <- Rmult_minus_distr_l, Rabs_mult, (Rabs_pos_eq b) by lra.
    replace (f ^ 4 / 4 * (b * (M (s1 + sg) - M s1))) with (b * (f ^ 4 / 4 * (M (s1 + sg) - M s1))) by ring. apply Rmult_le_compat_l; [lra|].
    apply Rle_trans with (1 := D). pose proof (pow4_le x (205 / 100 * f) ltac:(lra)) as X4. replace ((205 / 100 * f) ^ 4) with ((205 / 100) ^ 4 * f ^ 4) in X4 by ring.
    assert (F4 : 0 <= f ^ 4) by (apply pow_le; lra). apply Rmult_le_compat; [|lra| |exact Lm]; [|].
    + assert (0 <= x ^ 4) by (apply pow_le; lra). lra.
    + assert ((205 / 100) ^ 4 <= 20) by (cbn [pow]; lra). nra.
  - unfold dlon. rewrite (p_new' _ _ _ _ _ _ P). fold al. unfold corr. fold al w sg. rewrite F3.
    pose proof (lon_close f w s1 sg N Hf ltac:(lra) ltac:(lra) HN) as D. set (K := (1 - series_C f w) * _) in *.
    replace (l - f * sin al * (N (s1 + sg) - N s1) - omega - (l - (omega + f * sin al * K))) with (f * sin al * (K - (N (s1 + sg) - N s1))) by ring.
    rewrite !Rabs_mult, (Rabs_pos_eq f) by lra. pose proof (abs_sin al) as SA. pose proof (Rabs_pos (sin al)). pose proof (Rabs_pos (K - (N (s1 + sg) - N s1))).
    replace (2 * f ^ 4 * sg) with (f * 1 * (2 * f ^ 3 * sg)) by ring. apply Rmult_le_compat; [apply Rmult_le_pos; lra|lra| |exact D]. apply Rmult_le_compat_l; lra.
Qed.

Lemma reduced_facts f phi : 0 <= f < 1 -> latitude phi -> 0 < cos (atan ((1 - f) * tan phi)).
Proof. intros Hf Hp. apply cos_gt_0; pose proof (atan_bound ((1 - f) * tan phi)); lra. Qed.

Lemma loop_final f u1 u2 omega fuel s : 0 <= f <= 1 / 100 -> 0 < cos u1 -> 0 < cos u2 -> Rabs omega <= PI ->
  vinc_loop fuel f u1 u2 omega (-4000000) omega None = Some (Ok s) ->
  exists l, pass f u1 u2 omega l s /\ Rabs (l - v_lembda s) <= / 10 ^ 9 * Rabs (v_lembda s) /\ Rabs (v_lembda s - omega) <= 405 / 10000 /\
    (omega = 0 -> l = 0 /\ v_lembda s = 0) /\ (omega <> 0 -> 0 < omega * l /\ 0 < omega * v_lembda s).
Proof.
  intros Hf C1 C2 Ho H. pose proof (abs_between _ _ Ho) as Ho'.
  assert (NT : forall t : vinc_state, None = Some t -> False) by (intros; discriminate).
  destruct (Req_dec omega 0) as [->|N].
  - assert (I : forall l s, l = 0 -> pass f u1 u2 0 l s -> v_lembda s = 0).
    { intros l t -> P. rewrite (p_new' _ _ _ _ _ _ P). pose proof (p_alpha _ _ _ _ _ _ P) as A. rewrite sin_0, Rmult_0_r in A. pose proof (pass_sin_pos _ _ _ _ _ _ P).
      apply Rmult_integral in A. destruct A as [A|A]; [rewrite A; ring|lra]. }
    destruct (vinc_loop_inv (fun l => l = 0) f u1 u2 0 I _ _ _ _ _ eq_refl (fun t E => False_ind _ (NT t E)) H) as (l & El & P & _).
    pose proof (I l s El P) as E'. exists l. split; [exact P|]. subst l. rewrite E'. rewrite Rminus_0_r, Rabs_R0. repeat split; try lra; try contradiction.
  - assert (X : exists e, (e = 1 \/ e = -1) /\ 0 < e * omega <= PI). { destruct (Rtotal_order omega 0) as [Q|[Q|Q]]; [exists (-1)|contradiction|exists 1]; split; auto; lra. }
    destruct X as (e & He & Hoe). pose proof (keep_sign f u1 u2 omega e Hf C1 C2 He Hoe) as K.
    assert (I0 : 0 < e * omega <= e * omega + 405 / 10000) by lra.
    destruct (vinc_loop_inv (fun l => 0 < e * l <= e * omega + 405 / 10000) f u1 u2 omega K _ _ _ _ _ I0 (fun t E => False_ind _ (NT t E)) H) as (l & Il & P & A).
    pose proof (K l s Il P) as K'. exists l. split; [exact P|].
    assert (Sg : forall y, 0 < e * y -> 0 < omega * y) by (intros y Hy; destruct He; subst; nra).
    split; [|split; [exact (shift_small _ _ _ _ _ _ P Hf)|split; [contradiction|intros _; split; apply Sg; lra]]].
    destruct (again_false _ _ A) as [Z|B]; [rewrite Z in K'; lra|exact B].
Qed.
