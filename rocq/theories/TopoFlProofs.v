(** * Relative errors along the hill-shape computation (C93). *)
From Coq Require Import Qpower Qfield.
From Verif Require Import Base BaseLemmas Rounding FloatSpec FloatModel FloatRndProofs TopoModel TopoSpec TopoLineProofs TopoMhProofs TopoCalcProofs TopoHillProofs.
Open Scope Q_scope.

(** One rounding changes a value by a factor of at most [g], either way. *)
Definition g : Q := 4503599627370497 # 4503599627370496.
Fixpoint gp (n : nat) : Q := match n with O => 1 | S n => g * gp n end.
Definition Rel (n : nat) (a b : Q) : Prop := 0 <= a /\ 0 <= b /\ a <= b * gp n /\ b <= a * gp n.

Lemma g1 : 1 <= g. Proof. vm_compute. discriminate. Qed.
Lemma gp1 n : 1 <= gp n.
Proof.
  induction n as [|n IH]; cbn [gp]; [lra|]. pose proof g1. apply Qle_trans with (1 * gp n); [lra|]. apply Qmult_le_compat_r; lra.
Qed.
Lemma gp_add m n : gp (m + n) == gp m * gp n.
Proof. induction m as [|m IH]; cbn [gp Nat.add]; [ring|]. rewrite IH. ring. Qed.
Lemma gp_mono m n : (m <= n)%nat -> gp m <= gp n.
Proof.
  intros H. replace n with (m + (n - m))%nat by lia. rewrite gp_add. pose proof (gp1 m). pose proof (gp1 (n - m)).
  apply Qle_trans with (gp m * 1); [lra|]. apply Qmult_le_l; lra.
Qed.
Lemma mul_le a b c d : 0 <= a -> 0 <= c -> a <= b -> c <= d -> a * c <= b * d.
Proof. intros. apply Qmult_le_compat_nonneg; split; assumption. Qed.

Lemma rel_comp n a b a' b' : a == a' -> b == b' -> Rel n a b -> Rel n a' b'.
Proof. intros E1 E2 (A & B & C & D). repeat split; rewrite <- ?E1, <- ?E2; assumption. Qed.
Lemma rel_refl a : 0 <= a -> Rel 0 a a.
Proof. intros H. repeat split; cbn [gp]; lra. Qed.
Lemma rel_weak m n a b : (m <= n)%nat -> Rel m a b -> Rel n a b.
Proof.
  intros H (A & B & C & D). pose proof (gp_mono m n H) as G. repeat split; try assumption.
  - apply Qle_trans with (b * gp m); [exact C|]. rewrite !(Qmult_comm b). apply Qmult_le_compat_r; assumption.
  - apply Qle_trans with (a * gp m); [exact D|]. rewrite !(Qmult_comm a). apply Qmult_le_compat_r; assumption.
Qed.
Lemma rel_trans m n a b c : Rel m a b -> Rel n b c -> Rel (m + n) a c.
Proof.
  intros (A & B & C & D) (A' & B' & C' & D'). pose proof (gp1 m). pose proof (gp1 n). repeat split; try assumption; rewrite gp_add.
  - apply Qle_trans with (b * gp m); [exact C|]. apply Qle_trans with (c * gp n * gp m); [apply Qmult_le_compat_r; [exact C'|lra]|].
    setoid_replace (c * (gp m * gp n)) with (c * gp n * gp m) by ring. lra.
  - apply Qle_trans with (b * gp n); [exact D'|]. apply Qle_trans with (a * gp m * gp n); [apply Qmult_le_compat_r; [exact D|lra]|].
    setoid_replace (a * (gp m * gp n)) with (a * gp m * gp n) by ring. lra.
Qed.
Lemma rel_mul m n a b c d : Rel m a b -> Rel n c d -> Rel (m + n) (a * c) (b * d).
Proof.
  intros (A & B & C & D) (A' & B' & C' & D'). repeat split; try (apply Qmult_le_0_compat; assumption); rewrite gp_add.
  - apply Qle_trans with ((b * gp m) * (d * gp n)); [apply mul_le; assumption|].
    setoid_replace (b * d * (gp m * gp n)) with (b * gp m * (d * gp n)) by ring. lra.
  - apply Qle_trans with ((a * gp m) * (c * gp n)); [apply mul_le; assumption|].
    setoid_replace (a * c * (gp m * gp n)) with (a * gp m * (c * gp n)) by ring. lra.
Qed.
Lemma rel_inv n c d : 0 < c -> 0 < d -> Rel n c d -> Rel n (/ c) (/ d).
Proof.
  intros Hc Hd (A & B & C & D). assert (0 < / c) by (apply Qinv_lt_0_compat; exact Hc). assert (0 < / d) by (apply Qinv_lt_0_compat; exact Hd).
  repeat split; try lra.
  - setoid_replace (/ c) with (d * (/ c * / d)) by (field; lra). setoid_replace (/ d * gp n) with (c * gp n * (/ c * / d)) by (field; lra).
    apply Qmult_le_compat_r; [exact D|]. apply Qmult_le_0_compat; lra.
  - setoid_replace (/ d) with (c * (/ c * / d)) by (field; lra). setoid_replace (/ c * gp n) with (d * gp n * (/ c * / d)) by (field; lra).
    apply Qmult_le_compat_r; [exact C|]. apply Qmult_le_0_compat; lra.
Qed.
Lemma rel_div m n a b c d : 0 < c -> 0 < d -> Rel m a b -> Rel n c d -> Rel (m + n) (a / c) (b / d).
Proof. intros Hc Hd H1 H2. unfold Qdiv. apply rel_mul; [exact H1|]. apply rel_inv; assumption. Qed.
Lemma rel_add n a b c d : Rel n a b -> Rel n c d -> Rel n (a + c) (b + d).
Proof. intros (A & B & C & D) (A' & B' & C' & D'). repeat split; try lra; rewrite Qmult_plus_distr_l; lra. Qed.
Lemma rel_max n a b c d : Rel n a b -> Rel n c d -> Rel n (Qmax a c) (Qmax b d).
Proof.
  intros (A & B & C & D) (A' & B' & C' & D'). pose proof (gp1 n) as G.
  pose proof (Q.le_max_l a c). pose proof (Q.le_max_r a c). pose proof (Q.le_max_l b d). pose proof (Q.le_max_r b d).
  repeat split; try lra; apply Q.max_lub.
  - apply Qle_trans with (b * gp n); [exact C|]. apply Qmult_le_compat_r; lra.
  - apply Qle_trans with (d * gp n); [exact C'|]. apply Qmult_le_compat_r; lra.
  - apply Qle_trans with (a * gp n); [exact D|]. apply Qmult_le_compat_r; lra.
  - apply Qle_trans with (c * gp n); [exact D'|]. apply Qmult_le_compat_r; lra.
Qed.
Lemma rel_pos n a b : Rel n a b -> 0 < b -> 0 < a.
Proof.
  intros (A & B & C & D) H. destruct (Qlt_le_dec 0 a) as [L|L]; [exact L|]. exfalso. assert (E : a == 0) by lra. rewrite E in D. lra.
Qed.

(** The strict comparisons that a rounding cannot flip. *)
Lemma rel_lt n a b c : Rel n a b -> b * gp n < c -> a < c.
Proof. intros (_ & _ & C & _) H. lra. Qed.
Lemma rel_gt n a b c : Rel n a b -> c * gp n < b -> c < a.
Proof.
  intros (A & _ & _ & D) H. destruct (Qlt_le_dec c a) as [L|L]; [exact L|]. exfalso. pose proof (gp1 n).
  assert (a * gp n <= c * gp n) by (apply Qmult_le_compat_r; lra). lra.
Qed.

Section Fl.
Variable fl : Q -> Q.
Hypothesis F : fl_ok fl.
Hypothesis B : double fl.
Hypothesis L : fl_line fl (2 ^ 53).
Let pr := fl_proper _ F.
#[local] Instance fl_Proper : Proper (Qeq ==> Qeq) fl. Proof. intros x y. apply pr. Qed.

Lemma fz : fl 0 == 0. Proof. apply (fl_int _ F 0). cbn. lia. Qed.
Lemma fo : fl 1 == 1. Proof. apply (fl_int _ F 1). cbn. lia. Qed.
Lemma fnn x : 0 <= x -> 0 <= fl x.
Proof. intros H. rewrite <- fz. apply (fl_mono _ F). exact H. Qed.
Lemma fl1 x : x <= 1 -> fl x <= 1.
Proof. intros H. rewrite <- fo. apply (fl_mono _ F). exact H. Qed.
Lemma fnear x b : Qabs x <= b -> Qabs (fl x - x) <= u53 * b.
Proof. intros H. eapply Qle_trans; [apply (fl_rel _ F)|]. apply Qmult_le_l; [reflexivity|exact H]. Qed.

Lemma rel_fl x : 0 <= x -> Rel 1 (fl x) x.
Proof.
  intros H. pose proof (fl_rel _ F x) as R. rewrite (Qabs_pos x H) in R. apply Qabs_Qle_condition in R. unfold u53 in R.
  assert (X : 0 <= x * (1 # 2 ^ 53)) by (apply Qmult_le_0_compat; [exact H|discriminate]).
  repeat split; [apply fnn; exact H|exact H| |]; cbn [gp]; unfold g.
  - setoid_replace (x * ((4503599627370497 # 4503599627370496) * 1)) with (x + 2 * (x * (1 # 2 ^ 53))) by (change (2 ^ 53)%positive with 9007199254740992%positive; field). lra.
  - change (2 ^ 53)%positive with 9007199254740992%positive in *. lra.
Qed.
Lemma rel_rnd n x y : Rel n x y -> Rel (S n) (fl x) y.
Proof. intros H. pose proof H as (A & _). change (S n) with (1 + n)%nat. apply rel_trans with x; [apply rel_fl; exact A|exact H]. Qed.

(** [1 + a (1 - b)], with [b] beyond 1 read as 1. *)
Lemma ramp a' a b' b (i j : nat) : Rel i a' a -> a <= 1 -> Rel j b' b -> b' <= 1 -> gp i <= 2 ->
  Qabs (fl (1 + fl (a' * fl (1 - b'))) - (1 + a * Qmax 0 (1 - b))) <= (gp i - 1) + (gp j - 1) + 8 * u53.
Proof.
  intros (A1 & A2 & A3 & A4) Ha (B1 & B2 & B3 & B4) Hb Gi. pose proof (gp1 i) as GI. pose proof (gp1 j) as GJ.
  set (c := Qmax 0 (1 - b)). assert (C0 : 0 <= c <= 1) by (split; [apply Q.le_max_l|apply Q.max_lub; lra]).
  set (c' := fl (1 - b')). assert (C1 : 0 <= c' <= 1) by (split; [apply fnn; lra|apply fl1; lra]).
  assert (U : 0 < u53) by reflexivity.
  assert (CD : Qabs (c' - c) <= (gp j - 1) + u53).
  { assert (N : Qabs (c' - (1 - b')) <= u53) by (eapply Qle_trans; [apply (fnear (1 - b') 1); rewrite Qabs_pos; lra|lra]).
    apply Qabs_Qle_condition in N. apply Qabs_Qle_condition.
    assert (K1 : b' * gp j <= b' + (gp j - 1)).
    { assert (b' * (gp j - 1) <= 1 * (gp j - 1)) by (apply Qmult_le_compat_r; lra). lra. }
    unfold c. destruct (Qlt_le_dec b 1) as [Lb|Lb].
    - rewrite Q.max_r by lra. assert (K2 : b * (gp j - 1) <= 1 * (gp j - 1)) by (apply Qmult_le_compat_r; lra). lra.
    - rewrite Q.max_l by lra. lra. }
  apply Qabs_Qle_condition in CD.
  assert (AD : - (gp i - 1) <= a' - a <= gp i - 1).
  { assert (K1 : a * (gp i - 1) <= 1 * (gp i - 1)) by (apply Qmult_le_compat_r; lra). split; [|lra].
    destruct (Qlt_le_dec a' a) as [La|La]; [|lra]. assert (K2 : a' * (gp i - 1) <= 1 * (gp i - 1)) by (apply Qmult_le_compat_r; lra). lra. }
  assert (A'2 : a' <= 2) by (assert (K1 : a * (gp i - 1) <= 1 * (gp i - 1)) by (apply Qmult_le_compat_r; lra); lra).
  assert (P : - ((gp i - 1) + (gp j - 1 + u53)) <= a' * c' - a * c <= (gp i - 1) + (gp j - 1 + u53)).
  { setoid_replace (a' * c' - a * c) with ((a' - a) * c' + a * (c' - c)) by ring.
    assert (E1 : - (gp i - 1) <= (a' - a) * c' <= gp i - 1).
    { apply Qabs_Qle_condition. rewrite Qabs_Qmult. apply Qle_trans with ((gp i - 1) * 1); [|lra]. apply mul_le; try apply Qabs_nonneg.
      - apply Qabs_Qle_condition. exact AD.
      - rewrite Qabs_pos; lra. }
    assert (E2 : - (gp j - 1 + u53) <= a * (c' - c) <= gp j - 1 + u53).
    { apply Qabs_Qle_condition. rewrite Qabs_Qmult. apply Qle_trans with (1 * (gp j - 1 + u53)); [|lra]. apply mul_le; try apply Qabs_nonneg.
      - rewrite Qabs_pos; lra.
      - apply Qabs_Qle_condition. exact CD. }
    lra. }
  assert (P0 : 0 <= a' * c' <= 2).
  { split; [apply Qmult_le_0_compat; lra|]. apply Qle_trans with (2 * 1); [apply mul_le; lra|lra]. }
  assert (T : - (u53 * 2) <= fl (a' * c') - a' * c' <= u53 * 2) by (apply Qabs_Qle_condition; apply fnear; rewrite Qabs_pos; lra).
  set (t := fl (a' * c')) in *. assert (T0 : 0 <= t) by (apply fnn; lra).
  assert (U1 : u53 <= 1#8) by (vm_compute; discriminate).
  assert (V : - (u53 * 4) <= fl (1 + t) - (1 + t) <= u53 * 4) by (apply Qabs_Qle_condition; apply fnear; rewrite Qabs_pos; lra).
  apply Qabs_Qle_condition. lra.
Qed.
End Fl.
