From Coq Require Import Ascii String Qround Qabs Qpower Lia Lqa.
From Verif Require Import Base BaseLemmas PyStr Rounding UtilModel TxtModel TxtSpec TerrSpec.
Open Scope Z_scope.

(** ** Digits *)
Definition all_digits (s : str) : Prop := forall c, In c s -> is_digit c = true.
Lemma digit_ok n : 0 <= n < 10 -> is_digit (digit_chr n) = true /\ Z.of_nat (nat_of_ascii (digit_chr n)) - 48 = n.
Proof.
  intros H. unfold digit_chr, is_digit. rewrite nat_ascii_embedding by lia. rewrite Z2Nat.id by lia. split; [|lia]. apply andb_true_intro. split; apply Z.leb_le; lia.
Qed.
Lemma digits_length k : forall n, length (digits k n) = k.
Proof. induction k as [|k IH]; intros n; cbn [digits]; [reflexivity|]. rewrite app_length, IH. cbn. lia. Qed.
Lemma digits_all k : forall n, all_digits (digits k n).
Proof.
  induction k as [|k IH]; intros n c; cbn [digits]; [intros []|]. intros I. apply in_app_or in I as [I|[<-|[]]]; [exact (IH _ _ I)|].
  apply digit_ok. apply Z.mod_pos_bound. lia.
Qed.
Lemma value_acc s : forall a, fold_left (fun a c => 10 * a + (Z.of_nat (nat_of_ascii c) - 48)) s a = a * 10 ^ zlen s + value s.
Proof.
  unfold value. induction s as [|c s IH]; intros a; cbn [fold_left]; [unfold zlen; cbn; lia|]. rewrite IH. rewrite (IH (10 * 0 + _)). unfold zlen. cbn [length].
  rewrite Nat2Z.inj_succ, Z.pow_succ_r by lia. ring.
Qed.
Lemma value_app a b : value (a ++ b) = value a * 10 ^ zlen b + value b.
Proof. unfold value at 1. rewrite fold_left_app. rewrite value_acc. reflexivity. Qed.
Lemma value_digits k : forall n, 0 <= n -> value (digits k n) = n mod 10 ^ Z.of_nat k.
Proof.
  induction k as [|k IH]; intros n H; cbn [digits]; [change (Z.of_nat 0) with 0; rewrite Z.mod_1_r; reflexivity|].
  rewrite value_app, IH by (apply Z.div_pos; lia). unfold value, zlen. cbn [fold_left length]. change (Z.of_nat 1) with 1.
  destruct (digit_ok (n mod 10)) as [_ E]; [apply Z.mod_pos_bound; lia|]. rewrite E. rewrite Nat2Z.inj_succ, Z.pow_succ_r by lia.
  assert (P : 0 < 10 ^ Z.of_nat k) by (apply Z.pow_pos_nonneg; lia). rewrite Z.rem_mul_r by lia. ring.
Qed.
Lemma span_digits a rest : all_digits a -> (forall c s, rest = c :: s -> is_digit c = false) -> span (a ++ rest) = (a, rest).
Proof.
  intros A R. induction a as [|c a IH]; cbn [app].
  - destruct rest as [|c s]; [reflexivity|]. cbn [span]. rewrite (R c s eq_refl). reflexivity.
  - cbn [span]. rewrite (A c (or_introl eq_refl)). rewrite IH by (intros x I; apply A; right; exact I). reflexivity.
Qed.
Lemma span_digits_end a : all_digits a -> span a = (a, []).
Proof. intros A. rewrite <- (app_nil_r a) at 1. apply span_digits; [exact A|discriminate]. Qed.
Lemma signed_digit c s : is_digit c = true -> signed (c :: s) = (false, c :: s).
Proof. destruct c as [[] [] [] [] [] [] [] []]; cbn; intros H; try reflexivity; discriminate. Qed.

(** ** Powers of ten *)
Open Scope Q_scope.
Lemma p10_pos e : 0 < p10 e.
Proof. apply Qpower_0_lt. reflexivity. Qed.
Lemma p10_add a b : p10 (a + b) == p10 a * p10 b.
Proof. apply Qpower_plus. discriminate. Qed.
Lemma p10_Z n : (0 <= n)%Z -> p10 n == inject_Z (10 ^ n).
Proof. intros. unfold p10. symmetry. apply Zpower_Qpower. assumption. Qed.
Lemma p10_inv a : p10 a * p10 (- a) == 1.
Proof. rewrite <- p10_add. rewrite Z.add_opp_diag_r. reflexivity. Qed.
Lemma ilog_spec f : forall n, (0 < n < 10 ^ Z.of_nat (S f) -> 0 <= ilog f n /\ 10 ^ ilog f n <= n < 10 ^ (ilog f n + 1))%Z.
Proof.
  induction f as [|f IH]; intros n H; cbn [ilog].
  - change (10 ^ Z.of_nat 1)%Z with 10%Z in H. cbn. lia.
  - destruct (Z.ltb_spec n 10) as [L|L]; [cbn; lia|]. destruct (IH (n / 10)%Z) as (A & B & C).
    { split; [apply Z.div_str_pos; lia|]. apply Z.div_lt_upper_bound; [lia|]. rewrite Nat2Z.inj_succ, Z.pow_succ_r in H by lia. lia. }
    split; [lia|]. replace (1 + ilog f (n / 10) + 1)%Z with (Z.succ (ilog f (n / 10) + 1)) by lia. replace (1 + ilog f (n / 10))%Z with (Z.succ (ilog f (n / 10))) by lia.
    rewrite !Z.pow_succ_r by lia. pose proof (Z.div_mod n 10 ltac:(lia)) as D. pose proof (Z.mod_pos_bound n 10 ltac:(lia)). split; [lia|].
    assert (n / 10 + 1 <= 10 ^ (ilog f (n / 10) + 1))%Z by lia. lia.
Qed.
Lemma log10_spec n : (0 < n -> 0 <= log10 n /\ 10 ^ log10 n <= n < 10 ^ (log10 n + 1))%Z.
Proof.
  intros H. apply ilog_spec. split; [exact H|]. destruct (Z.log2_spec n H) as [_ L]. pose proof (Z.log2_nonneg n). rewrite Nat2Z.inj_succ, Z2Nat.id by lia.
  apply Z.lt_le_trans with (1 := L). apply Z.pow_le_mono_l. lia.
Qed.
Lemma log10_nonneg n : (0 <= log10 n)%Z.
Proof. unfold log10. generalize (Z.to_nat (Z.log2 n)). intros f. revert n. induction f as [|f IH]; intros n; cbn [ilog]; [lia|]. destruct (n <? 10)%Z; [lia|]. specialize (IH (n / 10)%Z). lia. Qed.
Lemma dexp_spec x : 0 < x -> p10 (dexp x) <= x /\ x < p10 (dexp x + 1).
Proof.
  intros Hx. unfold dexp. set (a := log10 (Qnum x)). set (b := log10 (Zpos (Qden x))).
  assert (Hn : (0 < Qnum x)%Z) by (unfold Qlt in Hx; simpl in Hx; lia). destruct (log10_spec _ Hn) as (A0 & A1 & A2). destruct (log10_spec (Zpos (Qden x)) eq_refl) as (B0 & B1 & B2). fold a in A0, A1, A2. fold b in B0, B1, B2.
  assert (E : x * inject_Z (Zpos (Qden x)) == inject_Z (Qnum x)) by (unfold Qeq; cbn; lia).
  apply inject_Z_le in A1, B1. apply inject_Z_lt in A2, B2. rewrite <- E in A1, A2. rewrite <- p10_Z in A1, A2, B1, B2 by lia. set (d := inject_Z (Zpos (Qden x))) in *.
  assert (U : x < p10 (a - b + 1)).
  { replace (a + 1)%Z with (a - b + 1 + b)%Z in A2 by lia. rewrite p10_add in A2. pose proof (p10_pos b) as Pb. apply Qmult_lt_r with (z := p10 b); [exact Pb|].
    apply Qle_lt_trans with (2 := A2). apply Qmult_le_l; [exact Hx|exact B1]. }
  assert (L : p10 (a - b - 1) <= x).
  { replace a with (a - b - 1 + (b + 1))%Z in A1 by lia. rewrite p10_add in A1. pose proof (p10_pos (b + 1)) as Pb. apply Qmult_le_r with (z := p10 (b + 1)); [exact Pb|].
    apply Qle_trans with (1 := A1). apply Qmult_le_l; [exact Hx|]. apply Qlt_le_weak. exact B2. }
  unfold Qleb. destruct (Qle_bool (p10 (a - b)) x) eqn:D.
  - apply Qle_bool_iff in D. split; [exact D|exact U].
  - replace (a - b - 1 + 1)%Z with (a - b)%Z by lia. split; [exact L|]. apply Qnot_le_lt. intros X. apply Qle_bool_iff in X. congruence.
Qed.

(** ** The digits of a number *)
Lemma sci_spec p x n k : 0 < x -> sci p x = (n, k) -> (0 <= n < 10 ^ Z.of_nat (S p))%Z /\ 2 * Qabs (inject_Z n * p10 (k - Z.of_nat p) - x) * p10 (Z.of_nat p) <= x.
Proof.
  intros Hx. unfold sci. destruct (dexp_spec x Hx) as [L U]. set (k0 := dexp x) in *. set (y := x * p10 (Z.of_nat p - k0)). set (n0 := np_around y). pose proof (np_around_half y) as H. fold n0 in H.
  pose proof (p10_pos (k0 - Z.of_nat p)) as P1. assert (E : y * p10 (k0 - Z.of_nat p) == x).
  { unfold y. rewrite <- Qmult_assoc, <- p10_add. replace (Z.of_nat p - k0 + (k0 - Z.of_nat p))%Z with 0%Z by lia. change (p10 0) with 1. ring. }
  assert (B : 2 * Qabs (inject_Z n0 * p10 (k0 - Z.of_nat p) - x) * p10 (Z.of_nat p) <= x).
  { apply Qle_trans with (2 := L). assert (Ek : p10 k0 == p10 (k0 - Z.of_nat p) * p10 (Z.of_nat p)) by (rewrite <- p10_add; replace (k0 - Z.of_nat p + Z.of_nat p)%Z with k0 by lia; reflexivity).
    rewrite Ek. apply Qmult_le_r; [apply p10_pos|]. rewrite <- E.
    assert (F : inject_Z n0 * p10 (k0 - Z.of_nat p) - y * p10 (k0 - Z.of_nat p) == (inject_Z n0 - y) * p10 (k0 - Z.of_nat p)) by ring. rewrite F, Qabs_Qmult. rewrite (Qabs_pos (p10 _)) by lra.
    assert (T : Qabs (inject_Z n0 - y) * p10 (k0 - Z.of_nat p) <= (1 # 2) * p10 (k0 - Z.of_nat p)) by (apply Qmult_le_r; [exact P1|exact H]). lra. }
  assert (Yp : 0 <= y) by (apply Qmult_le_0_compat; [lra|apply Qlt_le_weak, p10_pos]).
  assert (N0 : (0 <= n0)%Z) by (unfold n0; rewrite <- (np_around_int 0 0) by reflexivity; apply np_around_mono; exact Yp).
  assert (Yu : y <= inject_Z (10 ^ Z.of_nat (S p))).
  { rewrite <- p10_Z by lia. assert (Eu : p10 (Z.of_nat (S p)) == p10 (k0 + 1) * p10 (Z.of_nat p - k0)) by (rewrite <- p10_add; replace (k0 + 1 + (Z.of_nat p - k0))%Z with (Z.of_nat (S p)) by lia; reflexivity).
    rewrite Eu. apply Qmult_le_r; [apply p10_pos|]. apply Qlt_le_weak. exact U. }
  assert (N1 : (n0 <= 10 ^ Z.of_nat (S p))%Z) by (rewrite <- (np_around_int (inject_Z (10 ^ Z.of_nat (S p))) (10 ^ Z.of_nat (S p))) by reflexivity; apply np_around_mono; exact Yu).
  destruct (Z.ltb_spec n0 (10 ^ Z.of_nat (S p))) as [C|C]; intros X; injection X as <- <-.
  - split; [lia|]. exact B.
  - assert (En : n0 = (10 ^ Z.of_nat (S p))%Z) by lia. split. { split; [apply Z.pow_nonneg; lia|]. apply Z.pow_lt_mono_r; lia. }
    assert (Ev : inject_Z (10 ^ Z.of_nat p) * p10 (k0 + 1 - Z.of_nat p) == inject_Z n0 * p10 (k0 - Z.of_nat p)).
    { rewrite En. rewrite <- !p10_Z by lia. rewrite <- !p10_add. replace (Z.of_nat p + (k0 + 1 - Z.of_nat p))%Z with (Z.of_nat (S p) + (k0 - Z.of_nat p))%Z by lia. reflexivity. }
    rewrite Ev. exact B.
Qed.

(** ** Reading what was written *)
Lemma digits_head k n : (0 < k)%nat -> exists c s, digits k n = c :: s /\ is_digit c = true.
Proof. intros H. pose proof (digits_length k n) as L. pose proof (digits_all k n) as A. destruct (digits k n) as [|c s]; cbn in L; [lia|]. exists c, s. split; [reflexivity|]. apply A. left. reflexivity. Qed.
Lemma exponent_shown k w : (0 < w)%nat -> (Z.abs k < 10 ^ Z.of_nat w)%Z ->
  exponent (lit "e" ++ (if (k <? 0)%Z then lit "-" else lit "+") ++ digits w (Z.abs k)) = Some k.
Proof.
  intros W H. assert (V : value (digits w (Z.abs k)) = Z.abs k) by (rewrite value_digits by lia; apply Z.mod_small; lia). pose proof (span_digits_end _ (digits_all w (Z.abs k))) as S. destruct (digits_head w (Z.abs k) W) as (c & s & E & _). rewrite E in *.
  destruct (Z.ltb_spec k 0) as [L|L]; cbn [lit list_ascii_of_string app exponent signed]; rewrite S; f_equal; rewrite V; lia.
Qed.
Lemma read_shown p n k : (0 <= n < 10 ^ Z.of_nat (S p))%Z -> forall neg : bool,
  read_float ((if neg then lit "-" else []) ++ show_sci p n k) =
  Num (to_double (if neg then - (inject_Z n * p10 (k - Z.of_nat p)) else inject_Z n * p10 (k - Z.of_nat p))).
Proof.
  intros H neg. unfold show_sci. set (h := (n / 10 ^ Z.of_nat p)%Z). set (w := Z.to_nat (Z.max 2 (log10 (Z.abs k) + 1))).
  assert (P : (0 < 10 ^ Z.of_nat p)%Z) by (apply Z.pow_pos_nonneg; lia).
  assert (Hh : (0 <= h < 10)%Z). { split; [apply Z.div_pos; lia|]. apply Z.div_lt_upper_bound; [lia|]. rewrite Nat2Z.inj_succ, Z.pow_succ_r in H by lia. lia. }
  assert (W : (Z.abs k < 10 ^ Z.of_nat w)%Z).
  { unfold w. rewrite Z2Nat.id by (pose proof (log10_nonneg (Z.abs k)); lia). destruct (Z.eq_dec k 0) as [->|Nk]; [cbn; lia|]. destruct (log10_spec (Z.abs k) ltac:(lia)) as (_ & _ & U). apply Z.lt_le_trans with (1 := U). apply Z.pow_le_mono_r; lia. }
  assert (W0 : (0 < w)%nat) by (unfold w; lia).
  set (tail := lit "e" ++ (if (k <? 0)%Z then lit "-" else lit "+") ++ digits w (Z.abs k)).
  assert (Sg : signed ((if neg then lit "-" else []) ++ digits 1 h ++ lit "." ++ digits p n ++ tail) = (neg, digits 1 h ++ lit "." ++ digits p n ++ tail)).
  { destruct neg; [reflexivity|]. cbn [app]. destruct (digits_head 1 h ltac:(lia)) as (c & s & E & D). rewrite E. cbn [app]. apply signed_digit. exact D. }
  unfold read_float. fold tail. rewrite Sg.
  rewrite (span_digits (digits 1 h)); [|apply digits_all|intros c s X; cbn in X; injection X as <- _; reflexivity]. cbn [lit list_ascii_of_string app].
  rewrite (span_digits (digits p n) tail); [|apply digits_all|intros c s X; unfold tail in X; cbn in X; injection X as <- _; reflexivity].
  unfold tail. rewrite exponent_shown by assumption.
  assert (V : value (digits 1 h ++ digits p n) = n).
  { rewrite value_app, !value_digits by lia. unfold zlen. rewrite digits_length. change (Z.of_nat 1) with 1%Z. change (10 ^ 1)%Z with 10%Z. rewrite (Z.mod_small h 10) by lia. unfold h. pose proof (Z.div_mod n (10 ^ Z.of_nat p) ltac:(lia)). lia. }
  destruct (digits_head 1 h ltac:(lia)) as (c & s & E & D). rewrite E in *. cbn [app] in *. rewrite V. unfold zlen. rewrite digits_length. reflexivity.
Qed.

(** ** Doubles *)
Lemma Qabs_Z z : Qabs (inject_Z z) = inject_Z (Z.abs z).
Proof. reflexivity. Qed.
Lemma scaled_abs m e : Qabs (inject_Z m * p2 e) == inject_Z (Z.abs m) * p2 e.
Proof. rewrite Qabs_Qmult, (Qabs_pos (p2 e)) by (apply Qlt_le_weak, p2_pos). rewrite Qabs_Z. reflexivity. Qed.
Lemma double_bound x : double x -> Qabs x <= inject_Z (2 ^ 53 - 1) * p2 971.
Proof.
  intros (m & e & M & E & X). rewrite X. fold (p2 e). rewrite scaled_abs. apply Qle_trans with (inject_Z (2 ^ 53 - 1) * p2 e).
  - apply Qmult_le_r; [apply p2_pos|]. apply inject_Z_le. lia.
  - apply Qmult_le_l; [reflexivity|]. apply p2_mono. lia.
Qed.
Lemma around_nearest y z : Qabs (inject_Z (np_around y) - y) <= Qabs (inject_Z z - y).
Proof.
  pose proof (np_around_half y) as H. destruct (Z.eq_dec z (np_around y)) as [->|N]; [lra|]. set (n := np_around y) in *. apply Qle_trans with (1 := H).
  assert (A : 1 <= Qabs (inject_Z z - inject_Z n)).
  { assert (F : inject_Z z - inject_Z n == inject_Z (z - n)) by (unfold Zminus; rewrite inject_Z_plus, inject_Z_opp; ring). rewrite F, Qabs_Z. change 1 with (inject_Z 1). apply inject_Z_le. lia. }
  assert (T : Qabs (inject_Z z - inject_Z n) <= Qabs (inject_Z z - y) + Qabs (y - inject_Z n)).
  { assert (F : inject_Z z - inject_Z n == (inject_Z z - y) + (y - inject_Z n)) by ring. rewrite F. apply Qabs_triangle. }
  rewrite (Qabs_Qminus y) in T. lra.
Qed.
Lemma to_double_spec y : Qabs y < inject_Z (2 ^ 54 - 1) * p2 970 ->
  double (to_double y) /\ forall z, double z -> Qabs (to_double y - y) <= Qabs (z - y).
Proof.
  intros B. unfold to_double. destruct (Qeq_bool y 0) eqn:Z0.
  { apply Qeq_bool_eq in Z0. split; [exists 0%Z, 0%Z; split; [reflexivity|]; split; [lia|reflexivity]|]. intros z _. rewrite Z0. change (Qabs (0 - 0)) with 0. apply Qabs_nonneg. }
  apply Qeq_bool_neq in Z0. assert (Yp : 0 < Qabs y). { destruct (Qlt_le_dec 0 y) as [P|P]; [rewrite Qabs_pos; lra|]. rewrite Qabs_neg by exact P. assert (~ y == 0) by exact Z0. destruct (Qle_lt_or_eq _ _ P); [lra|contradiction]. }
  destruct (qexp_spec _ Yp) as [L U]. set (q := qexp (Qabs y)) in *. set (e := Z.max (q - 52) (-1074)). set (s := p2 e). assert (Sp : 0 < s) by apply p2_pos. set (n := np_around (y / s)).
  assert (Ey : y == y / s * s) by (field; lra).
  assert (Q1 : (q < 1024)%Z). { apply p2_lt_inv. apply Qle_lt_trans with (1 := L). apply Qlt_le_trans with (1 := B). replace 1024%Z with (54 + 970)%Z by lia. rewrite p2_add. apply Qmult_le_r; [apply p2_pos|]. vm_compute. discriminate. }
  assert (Eu : (e <= 971)%Z) by lia.
  assert (Ay : Qabs (y / s) * s == Qabs y). { rewrite Ey at 2. rewrite Qabs_Qmult, (Qabs_pos s) by lra. reflexivity. }
  assert (Nb : Qabs (y / s) <= inject_Z (2 ^ 53)).
  { apply Qmult_le_r with (z := s); [exact Sp|]. rewrite Ay. rewrite <- p2_Z by lia. unfold s. rewrite <- p2_add. apply Qlt_le_weak. apply Qlt_le_trans with (1 := U). apply p2_mono. lia. }
  assert (N : (Z.abs n <= 2 ^ 53)%Z).
  { apply Qabs_Qle_condition in Nb as [N1 N2]. rewrite <- inject_Z_opp in N1. apply np_around_mono in N1, N2. rewrite (np_around_int _ _ (Qeq_refl (inject_Z (- 2 ^ 53)))) in N1. rewrite (np_around_int _ _ (Qeq_refl (inject_Z (2 ^ 53)))) in N2. fold n in N1, N2. lia. }
  assert (Dist : forall m, Qabs (inject_Z n * s - y) <= Qabs (inject_Z m * s - y)).
  { intros m. pose proof (around_nearest (y / s) m) as A. fold n in A. assert (F : forall k, inject_Z k * s - y == (inject_Z k - y / s) * s) by (intros k; rewrite Ey at 1; ring). rewrite (F n), (F m), !Qabs_Qmult.
    apply Qmult_le_compat_r; [exact A|apply Qabs_nonneg]. }
  split.
  - destruct (Z.eq_dec (Z.abs n) (2 ^ 53)) as [En|En].
    + assert (e <> 971)%Z.
      { intros E9. assert (X : Qabs (y / s) < inject_Z (2 ^ 53) - (1 # 2)).
        { apply Qmult_lt_r with (z := s); [exact Sp|]. rewrite Ay. apply Qlt_le_trans with (1 := B). unfold s. rewrite E9. replace 971%Z with (1 + 970)%Z by lia. rewrite p2_add. rewrite Qmult_assoc. apply Qmult_le_r; [apply p2_pos|]. vm_compute. discriminate. }
        pose proof (np_around_half (y / s)) as H. fold n in H. assert (T : Qabs (inject_Z n) <= Qabs (inject_Z n - y / s) + Qabs (y / s)) by (assert (F : inject_Z n == (inject_Z n - y / s) + y / s) by ring; rewrite F at 1; apply Qabs_triangle).
        rewrite Qabs_Z, En in T. lra. }
      exists (Z.sgn n * 2 ^ 52)%Z, (e + 1)%Z. split; [destruct n; cbn in *; lia|]. split; [lia|]. fold (p2 (e + 1)). rewrite p2_add. fold s. change (p2 1) with 2.
      assert (F : n = (Z.sgn n * 2 ^ 53)%Z) by (rewrite <- En; symmetry; rewrite Z.mul_comm; apply Z.abs_sgn). rewrite F at 1. change (2 ^ 53)%Z with (2 ^ 52 * 2)%Z. rewrite !inject_Z_mult. change (inject_Z 2) with 2. ring.
    + exists n, e. split; [lia|]. split; [lia|]. reflexivity.
  - intros z (m & e' & M & E' & X). rewrite X. fold (p2 e'). destruct (Z_le_gt_dec e e') as [Le|Gt].
    + assert (F : inject_Z m * p2 e' == inject_Z (m * 2 ^ (e' - e)) * s). { rewrite inject_Z_mult, <- p2_Z by lia. unfold s. rewrite <- Qmult_assoc, <- p2_add. replace (e' - e + e)%Z with e' by lia. reflexivity. }
      rewrite F. apply Dist.
    + assert (Eq : e = (q - 52)%Z) by lia. assert (Zt : Qabs (inject_Z m * p2 e') <= p2 q).
      { rewrite scaled_abs. apply Qle_trans with (inject_Z (2 ^ 53) * p2 e'); [apply Qmult_le_r; [apply p2_pos|apply inject_Z_le; lia]|]. rewrite <- p2_Z by lia. rewrite <- p2_add. apply p2_mono. lia. }
      assert (Es : p2 q == inject_Z (2 ^ 52) * s) by (rewrite <- p2_Z by lia; unfold s; rewrite <- p2_add; rewrite Eq; replace (52 + (q - 52))%Z with q by lia; reflexivity).
      set (zz := inject_Z m * p2 e') in *. assert (T : Qabs y <= Qabs zz + Qabs (zz - y)).
      { assert (F : y == zz + (y - zz)) by ring. rewrite F at 1. rewrite (Qabs_Qminus zz y). apply Qabs_triangle. }
      destruct (Qlt_le_dec 0 y) as [P|P].
      * rewrite (Qabs_pos y) in * by lra. specialize (Dist (2 ^ 52)%Z). rewrite <- Es in Dist. rewrite (Qabs_Qminus (p2 q)), (Qabs_pos (y - p2 q)) in Dist by lra. lra.
      * rewrite (Qabs_neg y) in * by lra. specialize (Dist (- 2 ^ 52)%Z). rewrite inject_Z_opp in Dist. assert (F : - inject_Z (2 ^ 52) * s == - p2 q) by (rewrite Es; ring). rewrite F in Dist. rewrite (Qabs_pos (- p2 q - y)) in Dist by lra. lra.
Qed.

Lemma doubles_apart x d : double x -> double d -> ~ d == x -> Qabs x <= inject_Z (2 ^ 53 + 1) * Qabs (d - x).
Proof.
  intros (m & e & M & _ & X) (m' & e' & M' & _ & D) N. fold (p2 e) in X. fold (p2 e') in D.
  assert (G : p2 (Z.min e e') <= Qabs (d - x)).
  { set (f := Z.min e e'). assert (F : d - x == inject_Z (m' * 2 ^ (e' - f) - m * 2 ^ (e - f)) * p2 f).
    { unfold Zminus at 1. rewrite inject_Z_plus, inject_Z_opp, !inject_Z_mult, <- !p2_Z by lia. rewrite X, D. rewrite Qmult_plus_distr_l. rewrite <- Qmult_assoc, <- p2_add.
      setoid_replace (- (inject_Z m * p2 (e - f)) * p2 f) with (- (inject_Z m * (p2 (e - f) * p2 f))) by ring. rewrite <- p2_add. replace (e' - f + f)%Z with e' by lia. replace (e - f + f)%Z with e by lia. ring. }
    rewrite F, scaled_abs. set (k := (m' * 2 ^ (e' - f) - m * 2 ^ (e - f))%Z) in *. assert (k <> 0%Z).
    { intros K. apply N. rewrite K in F. assert (d - x == 0) by (rewrite F; ring). lra. }
    rewrite <- (Qmult_1_l (p2 f)) at 1. apply Qmult_le_r; [apply p2_pos|]. change 1 with (inject_Z 1). apply inject_Z_le. lia. }
  assert (Dn : 0 <= Qabs (d - x)) by apply Qabs_nonneg. assert (C : inject_Z (2 ^ 53 + 1) == inject_Z (2 ^ 53) + 1) by reflexivity. rewrite C.
  destruct (Z_le_gt_dec e e') as [L|L].
  - rewrite Z.min_l in G by lia. assert (Qabs x <= inject_Z (2 ^ 53) * p2 e) by (rewrite X, scaled_abs; apply Qmult_le_r; [apply p2_pos|apply inject_Z_le; lia]).
    assert (inject_Z (2 ^ 53) * p2 e <= inject_Z (2 ^ 53) * Qabs (d - x)) by (apply Qmult_le_l; [reflexivity|exact G]). lra.
  - rewrite Z.min_r in G by lia. assert (Qabs d <= inject_Z (2 ^ 53) * p2 e') by (rewrite D, scaled_abs; apply Qmult_le_r; [apply p2_pos|apply inject_Z_le; lia]).
    assert (inject_Z (2 ^ 53) * p2 e' <= inject_Z (2 ^ 53) * Qabs (d - x)) by (apply Qmult_le_l; [reflexivity|exact G]).
    assert (Qabs x <= Qabs d + Qabs (d - x)) by (assert (F : x == d + (x - d)) by ring; rewrite F at 1; rewrite (Qabs_Qminus d x); apply Qabs_triangle). lra.
Qed.
Lemma close_read x y p : double x -> (16 <= p)%nat -> 2 * Qabs (y - x) * p10 (Z.of_nat p) <= Qabs x -> to_double y == x.
Proof.
  intros Dx Hp H. assert (P : inject_Z (10 ^ 16) <= p10 (Z.of_nat p)). { rewrite p10_Z by lia. apply inject_Z_le. apply Z.pow_le_mono_r; lia. }
  set (t := Qabs (y - x)) in *. assert (T0 : 0 <= t) by apply Qabs_nonneg.
  assert (H1 : 2 * t * inject_Z (10 ^ 16) <= Qabs x). { apply Qle_trans with (2 := H). rewrite (Qmult_comm (2 * t)), (Qmult_comm (2 * t)). apply Qmult_le_compat_r; [exact P|lra]. }
  change (inject_Z (10 ^ 16)) with 10000000000000000 in H1.
  assert (B : Qabs y < inject_Z (2 ^ 54 - 1) * p2 970).
  { pose proof (double_bound x Dx) as Bx. replace 971%Z with (1 + 970)%Z in Bx by lia. rewrite p2_add in Bx. change (p2 1) with 2 in Bx. change (inject_Z (2 ^ 53 - 1)) with 9007199254740991 in Bx. change (inject_Z (2 ^ 54 - 1)) with 18014398509481983.
    pose proof (p2_pos 970) as P9. set (u := p2 970) in *. assert (Qabs y <= Qabs x + t) by (assert (F : y == x + (y - x)) by ring; rewrite F at 1; apply Qabs_triangle). lra. }
  destruct (to_double_spec y B) as [Dd Ne]. set (d := to_double y) in *. destruct (Qeq_dec d x) as [E|N]; [exact E|]. exfalso.
  pose proof (doubles_apart x d Dx Dd N) as A. specialize (Ne x Dx). rewrite (Qabs_Qminus x y) in Ne. fold t in Ne. change (inject_Z (2 ^ 53 + 1)) with 9007199254740993 in A.
  assert (Tr : Qabs (d - x) <= Qabs (d - y) + t) by (assert (F : d - x == (d - y) + (y - x)) by ring; rewrite F at 1; apply Qabs_triangle).
  assert (Qabs (d - x) <= 0) by lra. assert (Z0 : Qabs (d - x) == 0) by (pose proof (Qabs_nonneg (d - x)); lra). apply N.
  destruct (Qlt_le_dec (d - x) 0) as [C|C]; [rewrite Qabs_neg in Z0 by lra|rewrite Qabs_pos in Z0 by lra]; lra.
Qed.
Lemma read_show_e p x : double x -> (16 <= p)%nat -> exists y, read_float (show_e p x) = Num y /\ y == x.
Proof.
  intros D P. unfold show_e. assert (P10 : (0 < 10 ^ Z.of_nat (S p))%Z) by (apply Z.pow_pos_nonneg; lia). destruct (Qeq_bool x 0) eqn:Z0.
  - apply Qeq_bool_eq in Z0. pose proof (read_shown p 0 0 ltac:(lia) false) as R. cbn [app] in R. rewrite R. eexists. split; [reflexivity|]. apply (close_read x _ p D P). rewrite Z0.
    assert (F : inject_Z 0 * p10 (0 - Z.of_nat p) - 0 == 0) by (change (inject_Z 0) with 0; ring). rewrite F. change (Qabs 0) with 0. rewrite Qmult_0_r, Qmult_0_l. apply Qle_refl.
  - apply Qeq_bool_neq in Z0. unfold Qltb. destruct (Qle_bool 0 x) eqn:S; cbn [negb].
    + apply Qle_bool_iff in S. assert (Xp : 0 < x) by (destruct (Qle_lt_or_eq _ _ S) as [?|E]; [assumption|elim Z0; symmetry; exact E]). destruct (sci p x) as [n k] eqn:Es. destruct (sci_spec p x n k Xp Es) as [R B]. cbn [fst snd].
      pose proof (read_shown p n k R false) as Rd. cbn [app] in Rd. rewrite Rd. eexists. split; [reflexivity|]. apply (close_read x _ p D P). rewrite (Qabs_pos x) by lra. exact B.
    + assert (Xn : 0 < - x) by (assert (~ 0 <= x) by (intros C; apply Qle_bool_iff in C; congruence); lra). destruct (sci p (- x)) as [n k] eqn:Es. destruct (sci_spec p (- x) n k Xn Es) as [R B]. cbn [fst snd].
      rewrite (read_shown p n k R true). eexists. split; [reflexivity|]. apply (close_read x _ p D P). rewrite (Qabs_neg x) by lra.
      assert (F : - (inject_Z n * p10 (k - Z.of_nat p)) - x == - (inject_Z n * p10 (k - Z.of_nat p) - - x)) by ring. rewrite F, Qabs_opp. exact B.
Qed.

(** With any number of digits. *)
Lemma near_read x y p : double x -> Qabs x <= p2 1023 -> 2 * Qabs (y - x) * p10 (Z.of_nat p) <= Qabs x ->
  double (to_double y) /\ Qabs (to_double y - x) * p10 (Z.of_nat p) <= Qabs x.
Proof.
  intros D B H. assert (P1 : 1 <= p10 (Z.of_nat p)). { rewrite p10_Z by lia. change 1 with (inject_Z 1). apply inject_Z_le. pose proof (Z.pow_pos_nonneg 10 (Z.of_nat p)). lia. }
  pose proof (Qabs_nonneg (y - x)) as T0. set (t := Qabs (y - x)) in *.
  assert (H1 : 2 * t <= Qabs x). { apply Qle_trans with (2 := H). rewrite <- (Qmult_1_r (2 * t)) at 1. rewrite (Qmult_comm (2 * t) 1), (Qmult_comm (2 * t) (p10 _)). apply Qmult_le_compat_r; [exact P1|lra]. }
  assert (Y : Qabs y <= Qabs x + t). { assert (F : y == x + (y - x)) by ring. rewrite F at 1. apply Qabs_triangle. }
  assert (C : Qabs y < inject_Z (2 ^ 54 - 1) * p2 970).
  { apply Qle_lt_trans with ((3 # 2) * p2 1023); [lra|]. change 1023%Z with (53 + 970)%Z. rewrite p2_add. rewrite Qmult_assoc. apply Qmult_lt_r; [apply p2_pos|]. reflexivity. }
  destruct (to_double_spec y C) as [Dd N]. split; [exact Dd|]. specialize (N x D). assert (S : Qabs (x - y) == t). { unfold t. rewrite <- Qabs_opp. assert (F : - (x - y) == y - x) by ring. rewrite F. reflexivity. } rewrite S in N.
  assert (T : Qabs (to_double y - x) <= 2 * t). { assert (F : to_double y - x == (to_double y - y) + (y - x)) by ring. rewrite F. apply Qle_trans with (1 := Qabs_triangle _ _). fold t. lra. }
  apply Qle_trans with (2 := H). apply Qmult_le_compat_r; [exact T|lra].
Qed.
Lemma read_show_near p x : double x -> Qabs x <= p2 1023 -> exists y, read_float (show_e p x) = Num y /\ double y /\ Qabs (y - x) * p10 (Z.of_nat p) <= Qabs x.
Proof.
  intros D B. unfold show_e. assert (P10 : (0 < 10 ^ Z.of_nat (S p))%Z) by (apply Z.pow_pos_nonneg; lia). destruct (Qeq_bool x 0) eqn:Z0.
  - apply Qeq_bool_eq in Z0. pose proof (read_shown p 0 0 ltac:(lia) false) as R. cbn [app] in R. rewrite R. eexists. split; [reflexivity|]. apply (near_read x _ p D B). rewrite Z0.
    assert (F : inject_Z 0 * p10 (0 - Z.of_nat p) - 0 == 0) by (change (inject_Z 0) with 0; ring). rewrite F. change (Qabs 0) with 0. rewrite Qmult_0_r, Qmult_0_l. apply Qle_refl.
  - apply Qeq_bool_neq in Z0. unfold Qltb. destruct (Qle_bool 0 x) eqn:S; cbn [negb].
    + apply Qle_bool_iff in S. assert (Xp : 0 < x) by (destruct (Qle_lt_or_eq _ _ S) as [?|E]; [assumption|elim Z0; symmetry; exact E]). destruct (sci p x) as [n k] eqn:Es. destruct (sci_spec p x n k Xp Es) as [R Bd]. cbn [fst snd].
      pose proof (read_shown p n k R false) as Rd. cbn [app] in Rd. rewrite Rd. eexists. split; [reflexivity|]. apply (near_read x _ p D B). rewrite (Qabs_pos x) by lra. exact Bd.
    + assert (Xn : 0 < - x) by (assert (~ 0 <= x) by (intros C; apply Qle_bool_iff in C; congruence); lra). destruct (sci p (- x)) as [n k] eqn:Es. destruct (sci_spec p (- x) n k Xn Es) as [R Bd]. cbn [fst snd].
      rewrite (read_shown p n k R true). eexists. split; [reflexivity|]. apply (near_read x _ p D B). rewrite (Qabs_neg x) by lra.
      assert (F : - (inject_Z n * p10 (k - Z.of_nat p)) - x == - (inject_Z n * p10 (k - Z.of_nat p) - - x)) by ring. rewrite F, Qabs_opp. exact Bd.
Qed.
