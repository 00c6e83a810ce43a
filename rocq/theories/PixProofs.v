(** * Proofs about geodesics between two points of one parallel *)
From Coq Require Import Reals Lia.
From Verif Require Import Base Atan2 VincModel VincSpec VincProofs VincSeries VincRunProofs VincGeoProofs VincTermProofs PixModel PixSpec.
From Coq Require Import Lra.
Local Open Scope R_scope.

Lemma deriv_mono (F g : R -> R) a b : a <= b -> (forall t, a <= t <= b -> derivable_pt_lim F t (g t)) -> (forall t, a <= t <= b -> 0 <= g t) -> F a <= F b.
Proof.
  intros L D N. pose proof (integral_ge1 (fun t => F t + id t) (fun t => g t + 1) a b L) as K. unfold id in K.
  assert (b - a <= F b + b - (F a + a)); [|lra]. apply K; [|intros t Ht; specialize (N t Ht); lra]. intros t Ht. apply (derivable_pt_lim_plus F id); [apply D; exact Ht|apply derivable_pt_lim_id].
Qed.

(** The longitude along a great circle measured from its vertex. *)
Definition Lam (sa m t : R) : R := atan (/ sa * tan (t - m)).
Lemma d_tan x : cos x <> 0 -> derivable_pt_lim tan x (1 + tan x * tan x).
Proof.
  intros H. unfold tan. replace (1 + sin x / cos x * (sin x / cos x)) with ((cos x * cos x - (- sin x) * sin x) / Rsqr (cos x)).
  - change (derivable_pt_lim (div_fct sin cos) x ((cos x * cos x - - sin x * sin x) / (cos x)²)).
    apply derivable_pt_lim_div; [apply derivable_pt_lim_sin|apply derivable_pt_lim_cos|exact H].
  - unfold Rsqr. field. exact H.
Qed.
Lemma d_Lam sa m t : 0 < sa -> 0 < cos (t - m) -> derivable_pt_lim (Lam sa m) t (sa / (1 - (1 - sa * sa) * (cos (t - m) * cos (t - m)))).
Proof.
  intros Hs Hc. set (v := t - m). pose proof (sc v) as T.
  assert (D1 : derivable_pt_lim (fun t => / sa * tan (t - m)) t (/ sa * (1 + tan v * tan v))).
  { apply (derivable_pt_lim_scal (fun t => tan (t - m)) (/ sa)). replace (1 + tan v * tan v) with ((1 + tan v * tan v) * 1) by ring.
    apply (derivable_pt_lim_comp (fun t => t - m) tan); [|apply d_tan; fold v in Hc; lra].
    replace 1 with (1 - 0) by ring. apply (derivable_pt_lim_minus id (fct_cte m)); [apply derivable_pt_lim_id|apply derivable_pt_lim_const]. }
  assert (D : derivable_pt_lim (fun t => atan (/ sa * tan (t - m))) t (/ (1 + (/ sa * tan v) ^ 2) * (/ sa * (1 + tan v * tan v)))).
  { apply (derivable_pt_lim_comp (fun t => / sa * tan (t - m)) atan); [exact D1|]. fold v. apply derivable_pt_lim_atan. }
  apply (d_eq _ _ _ _ D). fold v in Hc. assert (N : 0 < sa * sa * (cos v * cos v) + sin v * sin v).
  { assert (0 < sa * sa * (cos v * cos v)) by (apply Rmult_lt_0_compat; apply Rmult_lt_0_compat; assumption). pose proof (sq_nonneg (sin v)). lra. }
  replace (1 - (1 - sa * sa) * (cos v * cos v)) with (sa * sa * (cos v * cos v) + sin v * sin v) by (replace (sin v * sin v) with (1 - cos v * cos v) by lra; ring).
  assert (E : 1 + tan v * tan v = / (cos v * cos v)). { unfold tan. replace (1 + sin v / cos v * (sin v / cos v)) with ((sin v * sin v + cos v * cos v) / (cos v * cos v)) by (field; lra). rewrite T. field. lra. }
  rewrite E. assert (E2 : 1 + (/ sa * tan v) ^ 2 = (sa * sa * (cos v * cos v) + sin v * sin v) / (sa * sa * (cos v * cos v))) by (unfold tan; field; lra). rewrite E2. field. lra.
Qed.

(** Two points of one parallel, longitudes [l] apart on the sphere. *)
Section Parallel.
Variables (f a u l sg dlon len : R).
Hypothesis Hf : 0 <= f <= 1 / 100.
Hypothesis Ha : 0 < a.
Hypothesis Cu : 0 < cos u.
Hypothesis Su : sin u <> 0.
Hypothesis Hl : 0 < l < PI.
Hypothesis G : geodesic f a u u l sg dlon len.
Hypothesis Hsg : 0 < sg < PI.

Lemma half_bounds : 0 < l / 2 < PI / 2 /\ 0 < sg / 2 < PI / 2.
Proof. lra. Qed.
Lemma par_cos : cos sg = sin u * sin u + cos u * cos u * cos l.
Proof. destruct G as (E & _). rewrite E, sigma_arc, Rminus_0_r. destruct (sigma_facts u u l) as (C & _). cbv zeta in C. rewrite C. unfold KK. ring. Qed.
Lemma double_cos x : cos x = 1 - 2 * (sin (x / 2) * sin (x / 2)).
Proof. replace x with (2 * (x / 2)) at 1 by field. apply cos_2t. Qed.
Lemma double_sin x : sin x = 2 * sin (x / 2) * cos (x / 2).
Proof. replace x with (2 * (x / 2)) at 1 by field. apply sin_2a. Qed.
Lemma par_half : sin (sg / 2) = cos u * sin (l / 2).
Proof.
  destruct half_bounds as [B1 B2]. assert (S1 : 0 < sin (l / 2)) by (apply sin_gt_0; lra). assert (S2 : 0 < sin (sg / 2)) by (apply sin_gt_0; lra).
  assert (E : sin (sg / 2) * sin (sg / 2) = cos u * sin (l / 2) * (cos u * sin (l / 2))).
  { pose proof par_cos as E. rewrite (double_cos sg), (double_cos l) in E. pose proof (sc u) as T. replace (sin u * sin u) with (1 - cos u * cos u) in E by lra. lra. }
  apply Rsqr_inj; [lra|apply Rmult_le_pos; lra|exact E].
Qed.
Lemma half_le : cos (l / 2) <= cos (sg / 2).
Proof.
  destruct half_bounds as [B1 B2]. assert (S1 : 0 < sin (l / 2)) by (apply sin_gt_0; lra). assert (C1 : 0 < cos (l / 2)) by (apply cos_gt_0; lra). assert (C2 : 0 < cos (sg / 2)) by (apply cos_gt_0; lra).
  apply Rsqr_incr_0; [|lra|lra]. unfold Rsqr. pose proof (sc (l / 2)). pose proof (sc (sg / 2)) as T. rewrite par_half in T. pose proof (sc u). pose proof (sq_nonneg (sin u)). 
  assert (0 <= sin u * sin u * (sin (l / 2) * sin (l / 2))) by (apply Rmult_le_pos; [assumption|apply sq_nonneg]). 
  replace (cos u * sin (l / 2) * (cos u * sin (l / 2))) with ((1 - sin u * sin u) * (sin (l / 2) * sin (l / 2))) in T by (replace (sin u * sin u) with (1 - cos u * cos u) by lra; ring). lra.
Qed.
Lemma sg_le : sg <= l.
Proof.
  destruct half_bounds as [B1 B2]. destruct (Rle_lt_dec sg l) as [|N]; [assumption|exfalso]. assert (cos (sg / 2) < cos (l / 2)) by (apply cos_decreasing_1; lra). pose proof half_le. lra.
Qed.

Lemma par_length : a * cos u * cos (l / 2) * dlon <= len <= a * cos u / cos (l / 2) * dlon /\ (1 - f) * l <= dlon.
Proof.
  destruct half_bounds as [B1 B2]. assert (S1 : 0 < sin (l / 2)) by (apply sin_gt_0; lra). assert (C1 : 0 < cos (l / 2)) by (apply cos_gt_0; lra). assert (S2 : 0 < sin (sg / 2)) by (apply sin_gt_0; lra). assert (C2 : 0 < cos (sg / 2)) by (apply cos_gt_0; lra).
  pose proof par_half as PH. pose proof half_le as HL. pose proof sg_le as SL.
  destruct G as (_ & al & s1 & Ca0 & E1 & E2 & E3 & K). cbv zeta in K. destruct K as ((L & DL & EL) & v & (N & DN & EN) & ED).
  assert (Ca : 0 < cos al) by (destruct (Rle_lt_or_eq_dec _ _ Ca0) as [|Z]; [assumption|exfalso; rewrite <- Z, Rmult_0_l in E1; contradiction]).
  (* sin al *)
  assert (Sal : sin al * cos (sg / 2) = cos u * cos (l / 2)).
  { rewrite (double_sin sg), (double_sin l), PH in E3. apply Rmult_eq_reg_l with (2 * cos u * sin (l / 2)); [|assert (0 < 2 * cos u * sin (l / 2)) by (apply Rmult_lt_0_compat; lra); lra]. lra. }
  assert (Sp : 0 < sin al).
  { apply Rmult_lt_reg_r with (cos (sg / 2)); [exact C2|]. rewrite Rmult_0_l, Sal. apply Rmult_lt_0_compat; assumption. }
  assert (Slow : cos u * cos (l / 2) <= sin al). { rewrite <- Sal. rewrite <- (Rmult_1_r (sin al)) at 2. apply Rmult_le_compat_l; [lra|]. pose proof (abs_between _ _ (abs_cos (sg / 2))). lra. }
  (* the vertex *)
  set (m := s1 + sg / 2).
  assert (Cm : cos m = 0).
  { assert (E : cos al * (sin (s1 + sg) - sin s1) = 0) by lra. apply Rmult_integral in E. destruct E as [E|E]; [lra|].
    replace (s1 + sg) with (m + sg / 2) in E by (unfold m; field). replace s1 with (m - sg / 2) in E by (unfold m; field). rewrite sin_plus, sin_minus in E. assert (E' : cos m * sin (sg / 2) = 0) by lra. apply Rmult_integral in E'. destruct E'; [assumption|lra]. }
  assert (Sm : sin m * sin m = 1) by (pose proof (sc m) as T; rewrite Cm in T; lra).
  assert (St : forall t, sin t * sin t = cos (t - m) * cos (t - m)).
  { intros t. replace t with (m + (t - m)) at 1 2 by ring. rewrite sin_plus, Cm. replace ((sin m * cos (t - m) + 0 * sin (t - m)) * (sin m * cos (t - m) + 0 * sin (t - m))) with (sin m * sin m * (cos (t - m) * cos (t - m))) by ring. rewrite Sm. ring. }
  assert (Cv : forall t, s1 <= t <= s1 + sg -> cos (sg / 2) <= cos (t - m)).
  { intros t Ht. destruct (Rle_lt_dec 0 (t - m)) as [P|P]; [apply cos_decr_1; unfold m in *; lra|]. rewrite <- (cos_neg (t - m)). apply cos_decr_1; unfold m in *; lra. }
  pose proof (sc al) as Tal. pose proof (ecc2_bound f Hf) as [X0 X1]. pose proof (sc u) as Tu.
  assert (Usq : sin u * sin u = cos al * cos al * (cos (sg / 2) * cos (sg / 2))).
  { rewrite E1. replace (cos al * sin s1 * (cos al * sin s1)) with (cos al * cos al * (sin s1 * sin s1)) by ring. rewrite (St s1). replace (s1 - m) with (- (sg / 2)) by (unfold m; ring). rewrite cos_neg. reflexivity. }
  (* the rate of length and of longitude *)
  set (k2 := cos al ^ 2 * ecc2 f) in *. set (mm := fun t => (1 - f) * sqrt (1 + k2 * sin t ^ 2)). set (cc := fun t => 1 - cos al * cos al * (sin t * sin t)).
  assert (K2 : 0 <= k2) by (unfold k2; rewrite pow2; apply Rmult_le_pos; [apply sq_nonneg|exact X0]).
  assert (Hm : forall t, 1 - f <= mm t /\ mm t * mm t = 1 - f * (2 - f) * cc t).
  { intros t. assert (A0 : 0 <= k2 * sin t ^ 2) by (rewrite pow2; apply Rmult_le_pos; [exact K2|apply sq_nonneg]). split.
    - unfold mm. rewrite <- (Rmult_1_r (1 - f)) at 1. apply Rmult_le_compat_l; [lra|]. rewrite <- sqrt_1 at 1. apply sqrt_le_1_alt. lra.
    - unfold mm. replace ((1 - f) * sqrt (1 + k2 * sin t ^ 2) * ((1 - f) * sqrt (1 + k2 * sin t ^ 2))) with ((1 - f) * (1 - f) * (sqrt (1 + k2 * sin t ^ 2) * sqrt (1 + k2 * sin t ^ 2))) by ring.
      rewrite sqrt_sqrt by lra. unfold k2, cc, ecc2. field. lra. }
  assert (Hc : forall t, s1 <= t <= s1 + sg -> sin al * sin al <= cc t <= cos u * cos u).
  { intros t Ht. unfold cc. rewrite (St t). pose proof (Cv t Ht) as V. pose proof (sq_nonneg (cos al)) as Q. assert (V1 : cos (t - m) * cos (t - m) <= 1) by (pose proof (sc (t - m)); pose proof (sq_nonneg (sin (t - m))); lra).
    assert (V2 : cos (sg / 2) * cos (sg / 2) <= cos (t - m) * cos (t - m)) by (apply Rmult_le_compat; lra). split.
    - assert (cos al * cos al * (cos (t - m) * cos (t - m)) <= cos al * cos al * 1) by (apply Rmult_le_compat_l; assumption). lra.
    - assert (cos al * cos al * (cos (sg / 2) * cos (sg / 2)) <= cos al * cos al * (cos (t - m) * cos (t - m))) by (apply Rmult_le_compat_l; assumption). lra. }
  assert (S22 : 0 < sin al * sin al) by (apply Rmult_lt_0_compat; assumption).
  set (D := fun t => Lam (sin al) m t - f * sin al * N t).
  assert (DD : forall t, s1 <= t <= s1 + sg -> derivable_pt_lim D t (sin al * mm t / cc t)).
  { intros t Ht. pose proof (Cv t Ht) as V. destruct (Hc t Ht) as [c1 c2]. destruct (Hm t) as [m1 m2].
    assert (D1 : derivable_pt_lim D t (sin al / (1 - (1 - sin al * sin al) * (cos (t - m) * cos (t - m))) - f * sin al * ((2 - f) / (1 + (1 - f) * sqrt (1 + k2 * sin t ^ 2))))).
    { unfold D. apply (derivable_pt_lim_minus (Lam (sin al) m) (fun t => f * sin al * N t)); [apply d_Lam; lra|]. apply (derivable_pt_lim_scal N (f * sin al)). apply DN. exact Ht. }
    apply (d_eq _ _ _ _ D1). replace (1 - (1 - sin al * sin al) * (cos (t - m) * cos (t - m))) with (cc t) by (unfold cc; rewrite (St t); replace (cos al * cos al) with (1 - sin al * sin al) by lra; reflexivity).
    fold (mm t). replace (f * sin al * ((2 - f) / (1 + mm t))) with (sin al * (f * (2 - f) * cc t) / (cc t * (1 + mm t))) by (field; lra).
    replace (f * (2 - f) * cc t) with (1 - mm t * mm t) by lra. field. lra. }
  assert (Dl : D (s1 + sg) - D s1 = dlon).
  { unfold D. assert (EL2 : Lam (sin al) m (s1 + sg) - Lam (sin al) m s1 = l).
    { unfold Lam. replace (s1 - m) with (- (sg / 2)) by (unfold m; ring). replace (s1 + sg - m) with (sg / 2) by (unfold m; field). rewrite tan_neg. replace (/ sin al * - tan (sg / 2)) with (- (/ sin al * tan (sg / 2))) by ring. rewrite atan_opp.
      replace (/ sin al * tan (sg / 2)) with (tan (l / 2)); [rewrite atan_tan by lra; field|].
      unfold tan. rewrite PH. apply Rmult_eq_reg_r with (sin al * cos (sg / 2) * cos (l / 2)); [|rewrite Sal; assert (0 < cos u * cos (l / 2) * cos (l / 2)) by (repeat apply Rmult_lt_0_compat; assumption); lra].
      replace (sin (l / 2) / cos (l / 2) * (sin al * cos (sg / 2) * cos (l / 2))) with (sin (l / 2) * (sin al * cos (sg / 2))) by (field; lra).
      transitivity (sin (l / 2) * (cos u * cos (l / 2))); [rewrite Sal; reflexivity|]. field. lra. }
    rewrite ED, EN, <- EL2. ring. }
  assert (Le : s1 <= s1 + sg) by lra.
  assert (Rate : forall t, s1 <= t <= s1 + sg -> a * (1 - f) * sqrt (1 + k2 * sin t ^ 2) = a * cc t / sin al * (sin al * mm t / cc t)).
  { intros t Ht. destruct (Hc t Ht). unfold mm. field. lra. }
  assert (Pos : forall t, s1 <= t <= s1 + sg -> 0 < sin al * mm t / cc t).
  { intros t Ht. destruct (Hc t Ht). destruct (Hm t). apply Rdiv_lt_0_compat; [apply Rmult_lt_0_compat; lra|lra]. }
  (* lower bound with factor sin al, upper with cos u ^ 2 / sin al *)
  assert (Lo : a * sin al * dlon <= len).
  { assert (X : L s1 - a * sin al * D s1 <= L (s1 + sg) - a * sin al * D (s1 + sg)); [|rewrite EL, <- Dl; lra].
    apply (deriv_mono (fun t => L t - a * sin al * D t) (fun t => a * (1 - f) * sqrt (1 + k2 * sin t ^ 2) - a * sin al * (sin al * mm t / cc t)) _ _ Le).
    - intros t Ht. apply (derivable_pt_lim_minus L (fun t => a * sin al * D t)); [apply DL; exact Ht|]. apply (derivable_pt_lim_scal D (a * sin al)). apply DD. exact Ht.
    - intros t Ht. rewrite (Rate t Ht). destruct (Hc t Ht) as [c1 c2]. specialize (Pos t Ht). rewrite <- Rmult_minus_distr_r. apply Rmult_le_pos; [|lra].
      replace (a * cc t / sin al - a * sin al) with (a * / sin al * (cc t - sin al * sin al)) by (field; lra). apply Rmult_le_pos; [apply Rmult_le_pos; [lra|left; apply Rinv_0_lt_compat; exact Sp]|lra]. }
  assert (Up : len <= a * (cos u * cos u) / sin al * dlon).
  { set (q := a * (cos u * cos u) / sin al). assert (X : q * D s1 - L s1 <= q * D (s1 + sg) - L (s1 + sg)); [|rewrite EL, <- Dl; lra].
    apply (deriv_mono (fun t => q * D t - L t) (fun t => q * (sin al * mm t / cc t) - a * (1 - f) * sqrt (1 + k2 * sin t ^ 2)) _ _ Le).
    - intros t Ht. apply (derivable_pt_lim_minus (fun t => q * D t) L); [|apply DL; exact Ht]. apply (derivable_pt_lim_scal D q). apply DD. exact Ht.
    - intros t Ht. rewrite (Rate t Ht). destruct (Hc t Ht) as [c1 c2]. specialize (Pos t Ht). rewrite <- Rmult_minus_distr_r. apply Rmult_le_pos; [|lra].
      unfold q. replace (a * (cos u * cos u) / sin al - a * cc t / sin al) with (a * / sin al * (cos u * cos u - cc t)) by (field; lra). apply Rmult_le_pos; [apply Rmult_le_pos; [lra|left; apply Rinv_0_lt_compat; exact Sp]|lra]. }
  assert (Dlo : (1 - f) * l <= dlon).
  { assert (EL2 : Lam (sin al) m (s1 + sg) - Lam (sin al) m s1 = l) by (unfold D in Dl; rewrite ED, EN in Dl; lra).
    assert (X : D s1 - (1 - f) * Lam (sin al) m s1 <= D (s1 + sg) - (1 - f) * Lam (sin al) m (s1 + sg)); [|rewrite <- Dl, <- EL2; lra].
    apply (deriv_mono (fun t => D t - (1 - f) * Lam (sin al) m t) (fun t => sin al * mm t / cc t - (1 - f) * (sin al / cc t)) _ _ Le).
    - intros t Ht. apply (derivable_pt_lim_minus D (fun t => (1 - f) * Lam (sin al) m t)); [apply DD; exact Ht|]. apply (derivable_pt_lim_scal (Lam (sin al) m) (1 - f)).
      replace (sin al / cc t) with (sin al / (1 - (1 - sin al * sin al) * (cos (t - m) * cos (t - m)))) by (unfold cc; rewrite (St t); replace (cos al * cos al) with (1 - sin al * sin al) by lra; reflexivity).
      apply d_Lam; [exact Sp|]. pose proof (Cv t Ht). lra.
    - intros t Ht. destruct (Hc t Ht). destruct (Hm t). replace (sin al * mm t / cc t - (1 - f) * (sin al / cc t)) with (sin al / cc t * (mm t - (1 - f))) by (field; lra). apply Rmult_le_pos; [left; apply Rdiv_lt_0_compat; lra|lra]. }
  assert (Dp : 0 < dlon) by (apply Rlt_le_trans with (2 := Dlo); apply Rmult_lt_0_compat; lra).
  split; [|exact Dlo]. split.
  - apply Rle_trans with (2 := Lo). apply Rmult_le_compat_r; [lra|]. rewrite Rmult_assoc. apply Rmult_le_compat_l; lra.
  - apply Rle_trans with (1 := Up). apply Rmult_le_compat_r; [lra|].
    apply Rmult_le_reg_r with (sin al * cos (l / 2)); [apply Rmult_lt_0_compat; assumption|]. replace (a * (cos u * cos u) / sin al * (sin al * cos (l / 2))) with (a * cos u * (cos u * cos (l / 2))) by (field; lra).
    replace (a * cos u / cos (l / 2) * (sin al * cos (l / 2))) with (a * cos u * sin al) by (field; lra). apply Rmult_le_compat_l; [left; apply Rmult_lt_0_compat; assumption|exact Slow].
Qed.
End Parallel.
