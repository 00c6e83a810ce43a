(** * The point behind a ridge at which the fall is measured, in double precision (C93). *)
From Coq Require Import Qpower Qfield.
From Verif Require Import Base BaseLemmas Rounding FloatSpec FloatModel FloatRndProofs.
Open Scope Q_scope.

Lemma rnd53_rnd x : rnd53 x = rnd 53 x.
Proof. reflexivity. Qed.
Lemma rnd53_double : double rnd53.
Proof. assert (R : double (rnd 53)) by (apply rnd_binary; lia). exact R. Qed.

Lemma double_half fl x : double fl -> fl (fl x / 2) == fl x / 2 /\ fl (2 * (fl x / 2)) == fl x.
Proof.
  intros B. destruct (bin_format _ _ B x) as (k & e & K & E).
  assert (H : fl x / 2 == inject_Z k * Qpower 2 (e - 1)).
  { rewrite E. replace (e - 1)%Z with (e + -1)%Z by lia. rewrite Qpower_plus by discriminate. change (Qpower 2 (-1)) with (1#2). generalize (Qpower 2 e). intros w. field. }
  split.
  - rewrite (bin_proper _ _ B _ _ H). rewrite (bin_exact _ _ B k (e - 1) K). symmetry. exact H.
  - rewrite (bin_proper _ _ B (2 * (fl x / 2)) (inject_Z k * Qpower 2 e)) by (rewrite E; generalize (Qpower 2 e); intros w; field). rewrite (bin_exact _ _ B k e K). symmetry. exact E.
Qed.

Lemma around_up K d : Z.even K = true -> 0 < d -> d <= 1#2 -> (K <= np_around (inject_Z K - d))%Z.
Proof.
  intros E D0 D1. assert (H : np_around (inject_Z K - (1#2)) = K).
  { unfold np_around. assert (Fl : Qfloor (inject_Z K - (1#2)) = (K - 1)%Z).
    { destruct (Qfloor_spec (inject_Z K - (1#2))) as [A C]. 
      assert (X : inject_Z (Qfloor (inject_Z K - (1#2))) < inject_Z K) by lra.
      assert (Y : inject_Z (K - 1) < inject_Z (Qfloor (inject_Z K - (1#2)) + 1)) by (rewrite inject_Z_minus, inject_Z_plus; change (inject_Z 1) with 1; lra).
      apply inject_Z_lt_inv in X, Y. lia. }
    rewrite Fl. assert (X : inject_Z K - (1#2) - inject_Z (K - 1) == 1#2) by (rewrite inject_Z_minus; change (inject_Z 1) with 1; ring).
    rewrite (Qltb_comp _ _ _ _ X (Qeq_refl (1#2))), (Qltb_comp _ _ _ _ (Qeq_refl (1#2)) X). cbn.
    replace (K - 1)%Z with (Z.pred K) by lia. rewrite Z.even_pred, <- Z.negb_even, E. cbn. lia. }
  rewrite <- H at 1. apply np_around_mono. lra.
Qed.

(** A whole number lowered by no more than half a unit in the last place rounds up again. *)
Lemma round_up K d q : (0 <= K)%Z -> 0 < d -> p2 q <= inject_Z K - d -> d <= p2 (q - 53) -> inject_Z K < p2 52 -> inject_Z K <= rnd53 (inject_Z K - d).
Proof.
  intros K0 D0 Hq Hd Hk. pose proof (p2_pos q) as Q0. assert (X : 0 < inject_Z K - d) by lra.
  rewrite rnd53_of_pos by exact X. destruct (qexp_spec _ X) as [A C]. set (e := qexp (inject_Z K - d)) in *.
  rewrite (rnd53_pos_spec _ e) by assumption.
  assert (Eq : (q <= e)%Z). { assert (p2 q < p2 (e + 1)) by lra. apply p2_lt_inv in H. lia. }
  assert (E52 : (e < 52)%Z) by (apply p2_lt_inv; lra).
  set (s := p2 (e - 52)). assert (S0 : 0 < s) by apply p2_pos.
  set (Ki := (K * 2 ^ (52 - e))%Z).
  assert (EK : inject_Z Ki * s == inject_Z K).
  { unfold Ki, s. rewrite inject_Z_mult, <- p2_Z by lia. rewrite <- Qmult_assoc, <- p2_add. replace (52 - e + (e - 52))%Z with 0%Z by lia. change (p2 0) with 1. ring. }
  assert (Ev : Z.even Ki = true).
  { unfold Ki. rewrite Z.even_mul. rewrite Z.even_pow by lia. rewrite orb_true_r. reflexivity. }
  assert (ED : (inject_Z K - d) / s == inject_Z Ki - d / s) by (rewrite <- EK; field; lra).
  rewrite (np_around_proper _ _ ED). apply Qle_trans with (inject_Z Ki * s); [lra|]. apply Qmult_le_compat_r; [|lra]. apply inject_Z_le. apply around_up.
  - exact Ev.
  - apply Qlt_shift_div_l; lra.
  - apply Qle_shift_div_r; [exact S0|]. assert (E2 : (1#2) * s == p2 (e - 53)).
    { unfold s. replace (e - 53)%Z with (-1 + (e - 52))%Z by lia. rewrite p2_add. reflexivity. }
    rewrite E2. apply Qle_trans with (p2 (q - 53)); [exact Hd|]. apply p2_mono. lia.
Qed.

Lemma end_index n r ds : (1 <= n <= r)%Z -> (r <= 2 ^ 50)%Z -> 0 < ds ->
  Qfloor (rnd53 (inject_Z r + rnd53 (rnd53 (2 * rnd53 (rnd53 (inject_Z n * ds) / 2)) / ds))) = (r + n)%Z.
Proof.
  intros Hn Hr Hd. pose proof rnd53_double as B. pose proof rnd53_fl_ok as F.
  destruct (double_half rnd53 (inject_Z n * ds) B) as [E1 E2]. set (N := rnd53 (inject_Z n * ds)) in *.
  assert (EN : rnd53 (2 * rnd53 (N / 2)) == N) by (rewrite <- E2 at 2; apply (fl_proper _ F); rewrite E1; reflexivity).
  set (W := rnd53 (rnd53 (2 * rnd53 (N / 2)) / ds)). assert (EW : W == rnd53 (N / ds)) by (apply (fl_proper _ F); rewrite EN; reflexivity).
  assert (n0 : 1 <= inject_Z n) by (change 1 with (inject_Z 1); apply inject_Z_le; lia).
  assert (n1 : inject_Z n <= inject_Z r) by (apply inject_Z_le; lia).
  assert (r1 : inject_Z r <= inject_Z (2 ^ 50)) by (apply inject_Z_le; lia).
  assert (ND : - (u53 * (inject_Z n * ds)) <= N - inject_Z n * ds <= u53 * (inject_Z n * ds)).
  { apply Qabs_Qle_condition. eapply Qle_trans; [apply (fl_rel _ F)|]. rewrite Qabs_pos by (apply Qmult_le_0_compat; lra). lra. }
  assert (NQ : inject_Z n - u53 * inject_Z n <= N / ds <= inject_Z n + u53 * inject_Z n).
  { split; [apply Qle_shift_div_l|apply Qle_shift_div_r]; lra. }
  assert (U0 : 0 < u53) by reflexivity.
  assert (U1 : u53 * inject_Z (2 ^ 50) == 1#8) by reflexivity.
  assert (Un : 0 <= u53 * inject_Z n <= 1#8).
  { split; [apply Qmult_le_0_compat; lra|]. rewrite <- U1. apply Qmult_le_l; [reflexivity|lra]. }
  assert (WN : - (u53 * (inject_Z n + 1)) <= W - N / ds <= u53 * (inject_Z n + 1)).
  { apply Qabs_Qle_condition. rewrite EW. eapply Qle_trans; [apply (fl_rel _ F)|]. rewrite Qabs_pos by lra. apply Qmult_le_l; [reflexivity|lra]. }
  assert (US : u53 <= 1#100) by (vm_compute; discriminate).
  (* upper *)
  assert (UP : rnd53 (inject_Z r + W) < inject_Z (r + n) + 1).
  { rewrite inject_Z_plus. assert (R : Qabs (rnd53 (inject_Z r + W) - (inject_Z r + W)) <= u53 * (2 * inject_Z (2 ^ 50) + 1)).
    { eapply Qle_trans; [apply (fl_rel _ F)|]. apply Qmult_le_l; [reflexivity|]. rewrite Qabs_pos by lra. lra. }
    apply Qabs_Qle_condition in R. lra. }
  (* lower *)
  set (m := Z.log2 n). destruct (Z.log2_spec n ltac:(lia)) as [M1 M2]. fold m in M1, M2. assert (M0 : (0 <= m)%Z) by apply Z.log2_nonneg.
  assert (M50 : (m <= 50)%Z). { apply Z.log2_le_mono with (b := (2 ^ 50)%Z) in Hr. unfold m. apply Z.le_trans with (Z.log2 r); [apply Z.log2_le_mono; lia|]. rewrite Z.log2_pow2 in Hr by lia. exact Hr. }
  assert (LO : inject_Z (r + n) <= rnd53 (inject_Z r + W)).
  { assert (big : inject_Z (r + n) < p2 52).
    { rewrite p2_Z by lia. apply inject_Z_lt. apply Z.le_lt_trans with (2 ^ 50 + 2 ^ 50)%Z; [lia|reflexivity]. }
    assert (p2m : p2 m <= inject_Z n) by (rewrite p2_Z by exact M0; apply inject_Z_le; lia).
    assert (pm : 0 < p2 m) by apply p2_pos.
    assert (Epm : p2 (m + 1) == 2 * p2 m) by (rewrite p2_add; change (p2 1) with 2; ring).
    assert (E53 : p2 (m - 53) == u53 * p2 m) by (unfold Z.sub; rewrite p2_add, Qmult_comm; reflexivity).
    assert (E52 : p2 (m - 52) == 2 * (u53 * p2 m)).
    { replace (m - 52)%Z with (m - 53 + 1)%Z by lia. rewrite p2_add, E53. change (p2 1) with 2. ring. }
    assert (Low : forall d t, N / ds >= inject_Z n - d -> d == p2 t -> (0 <= - t)%Z -> (n * 2 ^ (- t) <= 2 ^ 53)%Z -> inject_Z n - d <= W).
    { intros d t H Et T0 T1. rewrite EW. apply Qle_trans with (rnd53 (inject_Z n - d)); [|apply (fl_mono _ F); exact H].
      assert (EE : inject_Z n - d == inject_Z (n * 2 ^ (- t) - 1) * p2 t).
      { rewrite Et, inject_Z_minus, inject_Z_mult, <- p2_Z by exact T0. change (inject_Z 1) with 1.
        assert (Y : p2 (- t) * p2 t == 1) by (rewrite <- p2_add; replace (- t + t)%Z with 0%Z by lia; reflexivity).
        setoid_replace ((inject_Z n * p2 (- t) - 1) * p2 t) with (inject_Z n * (p2 (- t) * p2 t) - p2 t) by ring. rewrite Y. ring. }
      rewrite (fl_proper _ F _ _ EE). unfold p2 in *. rewrite (bin_exact _ _ B).
      - rewrite EE. apply Qle_refl.
      - assert (0 < 2 ^ (- t))%Z by (apply Z.pow_pos_nonneg; lia). assert (0 < n * 2 ^ (- t))%Z by (apply Z.mul_pos_pos; lia). lia. }
    assert (Fin : forall d q, inject_Z n - d <= W -> 0 < d -> p2 q <= inject_Z (r + n) - d -> d <= p2 (q - 53) -> inject_Z (r + n) <= rnd53 (inject_Z r + W)).
    { intros d q H D0 Hq Hdq. apply Qle_trans with (rnd53 (inject_Z (r + n) - d)); [apply (round_up _ d q); try assumption; lia|].
      apply (fl_mono _ F). rewrite inject_Z_plus. lra. }
    assert (Um : 0 < u53 * p2 m <= u53 * inject_Z n) by (split; [apply Qmult_lt_0_compat; assumption|apply Qmult_le_l; [reflexivity|exact p2m]]).
    destruct (Z.eq_dec n (2 ^ m)) as [Ep|Np].
    - assert (En : inject_Z n == p2 m) by (rewrite p2_Z by exact M0; rewrite Ep at 1; reflexivity).
      assert (W1 : inject_Z n - u53 * p2 m <= W).
      { apply (Low _ (m - 53)%Z); [rewrite En in NQ; rewrite En; lra|symmetry; exact E53|lia|].
        rewrite Ep. rewrite <- Z.pow_add_r by lia. replace (m + - (m - 53))%Z with 53%Z by lia. lia. }
      apply (Fin (u53 * p2 m) m); [exact W1|apply Um|rewrite inject_Z_plus; lra|rewrite E53; lra].
    - assert (n2 : p2 m + 1 <= inject_Z n).
      { rewrite p2_Z by exact M0. change 1 with (inject_Z 1). rewrite <- inject_Z_plus. apply inject_Z_le. lia. }
      assert (nU : inject_Z n <= 2 * p2 m).
      { rewrite <- Epm, p2_Z by lia. apply inject_Z_le. replace (m + 1)%Z with (Z.succ m) by lia. lia. }
      assert (Un2 : u53 * inject_Z n <= 2 * (u53 * p2 m)).
      { setoid_replace (2 * (u53 * p2 m)) with (u53 * (2 * p2 m)) by ring. apply Qmult_le_l; [reflexivity|exact nU]. }
      assert (W1 : inject_Z n - 2 * (u53 * p2 m) <= W).
      { apply (Low _ (m - 52)%Z); [lra|symmetry; exact E52|lia|].
        apply Z.le_trans with (2 ^ (m + 1) * 2 ^ (- (m - 52)))%Z.
        - apply Z.mul_le_mono_nonneg_r; [apply Z.pow_nonneg; lia|]. replace (m + 1)%Z with (Z.succ m) by lia. lia.
        - rewrite <- Z.pow_add_r by lia. replace (m + 1 + - (m - 52))%Z with 53%Z by lia. lia. }
      apply (Fin (2 * (u53 * p2 m)) (m + 1)%Z); [exact W1|lra|rewrite inject_Z_plus, Epm; lra|].
      replace (m + 1 - 53)%Z with (m - 52)%Z by lia. rewrite E52. lra. }
  destruct (Qfloor_spec (rnd53 (inject_Z r + W))) as [A C].
  assert (X : inject_Z (Qfloor (rnd53 (inject_Z r + W))) < inject_Z (r + n + 1)) by (rewrite (inject_Z_plus (r + n)); change (inject_Z 1) with 1; lra).
  assert (Y : inject_Z (r + n) < inject_Z (Qfloor (rnd53 (inject_Z r + W)) + 1)) by (rewrite (inject_Z_plus (Qfloor _)); change (inject_Z 1) with 1; lra).
  apply inject_Z_lt_inv in X, Y. lia.
Qed.
