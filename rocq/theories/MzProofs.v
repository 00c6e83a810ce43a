From Coq Require Import Reals Lra.
From Verif Require Import MzModel.
Open Scope R_scope.

Lemma mz_decreasing a b : mz_defined a -> a < b -> mz_defined b /\ mz b < mz a.
Proof.
  intros [Ha Da] H. assert (L : ln a < ln b) by (apply ln_increasing; assumption).
  assert (Db : mz_defined b) by (split; lra). split; [exact Db|].
  assert (M : ln (0.4554 * ln a + 3.734) < ln (0.4554 * ln b + 3.734)) by (apply ln_increasing; lra).
  unfold mz. lra.
Qed.

Lemma ln_mono_le a b : 0 < a -> a <= b -> ln a <= ln b.
Proof. intros Ha [H| ->]; [left; apply ln_increasing; assumption|right; reflexivity]. Qed.

Section Rounded.
Variable rnd : R -> R.
Hypothesis rnd_mono : forall x y, x <= y -> rnd x <= rnd y.
Hypothesis rnd_pos : 0 <= rnd 0.4554.
Hypothesis rnd_neg : rnd (-0.2827) <= 0.

Lemma mz_rnd_nonincreasing a b : mz_rnd_defined rnd a -> a <= b -> mz_rnd_defined rnd b /\ mz_rnd rnd b <= mz_rnd rnd a.
Proof.
  intros [Ha Da] H.
  assert (I : rnd (rnd (rnd 0.4554 * rnd (ln a)) + rnd 3.734) <= rnd (rnd (rnd 0.4554 * rnd (ln b)) + rnd 3.734)).
  { apply rnd_mono. apply Rplus_le_compat_r. apply rnd_mono. apply Rmult_le_compat_l; [exact rnd_pos|]. apply rnd_mono. apply ln_mono_le; assumption. }
  split; [split; lra|]. unfold mz_rnd. apply rnd_mono. apply Rplus_le_compat_r. apply rnd_mono.
  apply Rmult_le_compat_neg_l; [exact rnd_neg|]. apply rnd_mono. apply ln_mono_le; assumption.
Qed.
End Rounded.

Lemma ln_le_sub1 x : 0 < x -> ln x <= x - 1.
Proof.
  intros H. destruct (Req_dec x 1) as [->|N]; [rewrite ln_1; lra|].
  pose proof (exp_ineq1 (ln x)) as E. rewrite exp_ln in E by exact H.
  assert (ln x <> 0) by (intros Z; apply N; apply ln_inv; [exact H|lra|rewrite ln_1; exact Z]).
  specialize (E H0). lra.
Qed.

Lemma mz_positive z : mz_defined z -> z <= 3 -> 0 < mz z.
Proof.
  intros [Hz D] H. pose proof (ln_le_sub1 z Hz). pose proof (ln_le_sub1 _ D). unfold mz. lra.
Qed.

Lemma exp_7 : 500 < exp 7.
Proof.
  pose proof (exp_ineq1 0.25 ltac:(lra)) as E.
  assert (P : forall n x y, 0 <= x -> x < exp y -> x ^ n <= exp (INR n * y)).
  { induction n as [|n IH]; intros x y Hx K.
    - simpl. rewrite Rmult_0_l, exp_0. lra.
    - rewrite S_INR. replace ((INR n + 1) * y) with (y + INR n * y) by ring. rewrite exp_plus. simpl.
      apply Rmult_le_compat; [exact Hx|apply pow_le; exact Hx|lra|apply IH; assumption]. }
  replace 7 with (INR 28 * 0.25) by (rewrite INR_IZR_INZ; simpl; lra).
  eapply Rlt_le_trans; [|apply P; [|exact E]]; [|lra]. simpl. lra.
Qed.
Lemma mz_defined_from z : 0.002 <= z -> mz_defined z.
Proof.
  intros H. assert (Hz : 0 < z) by lra. split; [exact Hz|].
  assert (L : Ropp 7 < ln z); [|lra]. apply exp_lt_inv. rewrite exp_ln by exact Hz. rewrite exp_Ropp.
  apply Rlt_le_trans with (/ 500); [|lra]. apply Rinv_lt_contravar; [|exact exp_7].
  apply Rmult_lt_0_compat; [lra|apply exp_pos].
Qed.

Lemma mz_defined_above z : mz_defined z <-> exp (- 3.734 / 0.4554) < z.
Proof.
  unfold mz_defined. split.
  - intros [P D]. rewrite <- (exp_ln z P). apply exp_increasing.
    apply (Rmult_lt_reg_l 0.4554); [lra|]. replace (0.4554 * (- 3.734 / 0.4554)) with (- 3.734) by lra. lra.
  - intros H. assert (P : 0 < z) by (eapply Rlt_trans; [apply exp_pos|exact H]). split; [exact P|].
    apply ln_increasing in H; [|apply exp_pos]. rewrite ln_exp in H.
    apply (Rmult_lt_compat_l 0.4554) in H; [|lra]. replace (0.4554 * (- 3.734 / 0.4554)) with (- 3.734) in H by lra. lra.
Qed.
Lemma mz_inverse z m : mz_defined z /\ mz z = m <-> z = exp ((exp ((1.0762 - m) / 0.2827) - 3.734) / 0.4554).
Proof.
  split.
  - intros [[P D] E]. unfold mz in E. set (y := 0.4554 * ln z + 3.734) in *.
    assert (L : (1.0762 - m) / 0.2827 = ln y) by (rewrite <- E; lra). rewrite L, exp_ln by exact D.
    unfold y. replace ((0.4554 * ln z + 3.734 - 3.734) / 0.4554) with (ln z) by lra. symmetry. apply exp_ln, P.
  - intros ->. set (q := exp ((1.0762 - m) / 0.2827)).
    assert (K : 0.4554 * ln (exp ((q - 3.734) / 0.4554)) + 3.734 = q) by (rewrite ln_exp; lra).
    split.
    + split; [apply exp_pos|]. rewrite K. apply exp_pos.
    + unfold mz. rewrite K. unfold q. rewrite ln_exp. lra.
Qed.
