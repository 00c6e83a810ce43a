(** * arctan2 on real numbers, as in C's [atan2] (numexpr and math.atan2), without signed
    zeros: atan2 0 0 = 0. *)
From Coq Require Import Reals Lra Lia ZArith.
Local Open Scope R_scope.

Definition atan2 (y x : R) : R :=
  if Rlt_dec 0 x then atan (y / x)
  else if Rlt_dec x 0 then (if Rle_dec 0 y then atan (y / x) + PI else atan (y / x) - PI)
  else if Rlt_dec 0 y then PI / 2 else if Rlt_dec y 0 then - (PI / 2) else 0.

(** Distance of (x, y) from the origin. *)
Definition norm2 (x y : R) : R := sqrt (x * x + y * y).

Lemma norm2_sqr x y : norm2 x y * norm2 x y = x * x + y * y.
Proof. apply sqrt_sqrt. nra. Qed.
Lemma norm2_nonneg x y : 0 <= norm2 x y. Proof. apply sqrt_pos. Qed.
Lemma norm2_pos x y : x <> 0 \/ y <> 0 -> 0 < norm2 x y.
Proof. intros H. apply sqrt_lt_R0. destruct H as [H|H]; [assert (0 < x * x) by nra|assert (0 < y * y) by nra]; nra. Qed.

Lemma cos_atan_sign x y : x <> 0 -> norm2 x y * cos (atan (y / x)) = Rabs x /\ norm2 x y * sin (atan (y / x)) = y / x * Rabs x.
Proof.
  intros Hx. assert (E : sqrt (1 + (y / x) ^ 2) * Rabs x = norm2 x y).
  { rewrite <- (sqrt_Rsqr_abs x). rewrite <- sqrt_mult; [|nra|apply Rle_0_sqr]. unfold norm2. f_equal. unfold Rsqr. field. exact Hx. }
  assert (P : 0 < sqrt (1 + (y / x) ^ 2)) by (apply sqrt_lt_R0; nra).
  assert (Q : sqrt (1 + (y / x)²) = sqrt (1 + (y / x) ^ 2)) by (f_equal; unfold Rsqr; ring).
  rewrite cos_atan, sin_atan, Q, <- E. split; field; (repeat split; try lra; try exact Hx).
Qed.

Lemma atan2_cos y x : norm2 x y * cos (atan2 y x) = x.
Proof.
  unfold atan2. destruct (Rlt_dec 0 x) as [H|H].
  - destruct (cos_atan_sign x y ltac:(lra)) as [C _]. rewrite C. apply Rabs_pos_eq. lra.
  - destruct (Rlt_dec x 0) as [H'|H'].
    + destruct (cos_atan_sign x y ltac:(lra)) as [C _]. rewrite Rabs_left in C by lra. destruct (Rle_dec 0 y).
      * rewrite neg_cos. nra.
      * replace (atan (y / x) - PI) with (- (PI - atan (y / x))) by ring. rewrite cos_neg. rewrite Rtrigo_facts.cos_pi_minus. nra.
    + assert (x = 0) by lra. subst x. destruct (Rlt_dec 0 y); [rewrite cos_PI2; ring|].
      destruct (Rlt_dec y 0); [rewrite cos_neg, cos_PI2; ring|]. assert (y = 0) by lra. subst y. unfold norm2.
      replace (0 * 0 + 0 * 0) with 0 by ring. rewrite sqrt_0. ring.
Qed.
Lemma atan2_sin y x : norm2 x y * sin (atan2 y x) = y.
Proof.
  unfold atan2. destruct (Rlt_dec 0 x) as [H|H].
  - destruct (cos_atan_sign x y ltac:(lra)) as [_ S]. rewrite S. rewrite Rabs_pos_eq by lra. field. lra.
  - destruct (Rlt_dec x 0) as [H'|H'].
    + destruct (cos_atan_sign x y ltac:(lra)) as [_ S]. rewrite Rabs_left in S by lra.
      assert (S' : norm2 x y * sin (atan (y / x)) = - y) by (rewrite S; field; lra). destruct (Rle_dec 0 y).
      * rewrite neg_sin. nra.
      * replace (atan (y / x) - PI) with (- (PI - atan (y / x))) by ring. rewrite sin_neg. rewrite Rtrigo_facts.sin_pi_minus. nra.
    + assert (x = 0) by lra. subst x. unfold norm2. replace (0 * 0 + y * y) with (Rsqr y) by (unfold Rsqr; ring). rewrite sqrt_Rsqr_abs.
      destruct (Rlt_dec 0 y); [rewrite sin_PI2, Rabs_pos_eq by lra; ring|].
      destruct (Rlt_dec y 0); [rewrite sin_neg, sin_PI2, Rabs_left by lra; ring|]. assert (y = 0) by lra. subst y. rewrite Rabs_R0. ring.
Qed.

Lemma atan2_range y x : - PI < atan2 y x <= PI.
Proof.
  pose proof PI_RGT_0 as P. pose proof (atan_bound (y / x)) as [A B]. unfold atan2.
  destruct (Rlt_dec 0 x); [lra|]. destruct (Rlt_dec x 0).
  - destruct (Rle_dec 0 y).
    + split; [lra|]. assert (y / x <= 0).
      { unfold Rdiv. assert (/ x < 0) by (apply Rinv_lt_0_compat; assumption). nra. }
      destruct (Rle_lt_or_eq_dec _ _ H) as [L|E]; [|rewrite E, atan_0; lra].
      apply atan_increasing in L. rewrite atan_0 in L. lra.
    + split; [|lra]. assert (0 < y / x).
      { unfold Rdiv. assert (/ x < 0) by (apply Rinv_lt_0_compat; assumption). nra. }
      apply atan_increasing in H. rewrite atan_0 in H. lra.
  - destruct (Rlt_dec 0 y); [lra|]. destruct (Rlt_dec y 0); lra.
Qed.

(** Angles with the same sine and cosine differ by whole turns. *)
Lemma same_angle a b : cos a = cos b -> sin a = sin b -> exists k : Z, a = b + 2 * IZR k * PI.
Proof.
  intros Hc Hs. assert (S : sin (a - b) = 0) by (rewrite sin_minus, Hc, Hs; ring).
  assert (C : cos (a - b) = 1). { rewrite cos_minus, Hc, Hs. pose proof (sin2_cos2 b) as K. unfold Rsqr in K. lra. }
  destruct (sin_eq_0_0 _ S) as (n & E). destruct (Z.Even_or_Odd n) as [[m M]|[m M]].
  - exists m. subst n. rewrite mult_IZR in E. lra.
  - exfalso. subst n. rewrite plus_IZR, mult_IZR in E. rewrite E in C.
    replace ((2 * IZR m + 1) * PI) with (PI + 2 * IZR m * PI) in C by ring.
    assert (K : forall (t : R) (m : Z), cos (t + 2 * IZR m * PI) = cos t).
    { intros t z. destruct (Z_le_gt_dec 0 z) as [L|L].
      - rewrite <- (Z2Nat.id z L), <- INR_IZR_INZ. apply cos_period.
      - replace t with ((t + 2 * IZR z * PI) + 2 * INR (Z.to_nat (- z)) * PI) at 2; [symmetry; apply cos_period|].
        rewrite INR_IZR_INZ, Z2Nat.id by lia. rewrite opp_IZR. ring. }
    rewrite K, cos_PI in C. lra.
Qed.
