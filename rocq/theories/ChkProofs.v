From Coq Require Import Qround.
From Verif Require Import Base BaseLemmas ReprModel ConvModel StageModel ChkSpec ChkModel.
Open Scope Z_scope.

Lemma sum_ext n f g : (forall k, 0 <= k < Z.of_nat n -> f k = g k) -> sum_below n f = sum_below n g.
Proof. induction n as [|n IH]; intros H; [reflexivity|]. cbn [sum_below]. rewrite IH, (H (Z.of_nat n)) by (intros; try apply H; lia). reflexivity. Qed.
Lemma sum_zero n f : (forall k, 0 <= k < Z.of_nat n -> f k = 0) -> sum_below n f = 0.
Proof. induction n as [|n IH]; intros H; [reflexivity|]. cbn [sum_below]. rewrite IH, (H (Z.of_nat n)) by (intros; try apply H; lia). reflexivity. Qed.
Lemma sum_const n x : sum_below n (fun _ => x) = Z.of_nat n * x.
Proof. induction n as [|n IH]; [reflexivity|]. cbn [sum_below]. rewrite IH. lia. Qed.
Lemma sum_bounds n f b : (forall k, 0 <= k < Z.of_nat n -> 0 <= f k <= b) -> 0 <= sum_below n f <= Z.of_nat n * b.
Proof. induction n as [|n IH]; intros H; [cbn; lia|]. cbn [sum_below]. specialize (IH (fun k K => H k ltac:(lia))). pose proof (H (Z.of_nat n) ltac:(lia)). lia. Qed.
Lemma sum_nonneg n f : (forall k, 0 <= k < Z.of_nat n -> 0 <= f k) -> 0 <= sum_below n f.
Proof. induction n as [|n IH]; intros H; [cbn; lia|]. cbn [sum_below]. specialize (IH (fun k K => H k ltac:(lia))). pose proof (H (Z.of_nat n) ltac:(lia)). lia. Qed.
Lemma sum_null n f : (forall k, 0 <= k < Z.of_nat n -> 0 <= f k) -> sum_below n f = 0 -> forall k, 0 <= k < Z.of_nat n -> f k = 0.
Proof.
  induction n as [|n IH]; intros H E k K; [lia|]. cbn [sum_below] in E.
  assert (P : 0 <= sum_below n f) by (apply sum_nonneg; intros; apply H; lia).
  pose proof (H (Z.of_nat n) ltac:(lia)). destruct (Z.eq_dec k (Z.of_nat n)) as [->|D]; [lia|]. apply IH; [intros; apply H; lia|lia|lia].
Qed.
Lemma sum_one n f g k0 : 0 <= k0 < Z.of_nat n -> (forall k, 0 <= k < Z.of_nat n -> k <> k0 -> f k = g k) -> sum_below n f - sum_below n g = f k0 - g k0.
Proof.
  induction n as [|n IH]; intros L H; [lia|]. cbn [sum_below]. destruct (Z.eq_dec k0 (Z.of_nat n)) as [->|D].
  - rewrite (sum_ext n f g) by (intros; apply H; lia). lia.
  - rewrite (H (Z.of_nat n)) by lia. specialize (IH ltac:(lia) (fun k K => H k ltac:(lia))). lia.
Qed.

Lemma prime_bounds k : 7 <= prime_at k <= 43.
Proof.
  unfold prime_at. pose proof (Z.mod_pos_bound k 11 ltac:(lia)) as B. rewrite <- (Z2Nat.id (k mod 11)) in B by lia. set (i := Z.to_nat (k mod 11)) in *. clearbody i.
  do 11 (destruct i as [|i]; [cbn; lia|]). lia.
Qed.

Lemma land_mod x : Z.land x 65535 = x mod 65536.
Proof. change 65535 with (Z.ones 16). rewrite Z.land_ones by lia. reflexivity. Qed.

(** ** The loop *)
Definition state (k s : Z) (st : Z * nat) : Prop := fst st = s mod 65536 /\ snd st = Z.to_nat (k mod 11).
Lemma add_state k s st v : 0 <= k -> state k s st -> state (k + 1) (s + Z.rem v (prime_at k)) (add_sample st v).
Proof.
  intros K [E1 E2]. destruct st as [c i]. cbn [fst snd] in E1, E2. subst c i. unfold add_sample, state. cbn [fst snd]. fold (prime_at k). split.
  - change (nth (Z.to_nat (k mod 11)) primes 7) with (prime_at k). rewrite land_mod. rewrite Zplus_mod_idemp_l. reflexivity.
  - pose proof (Z.mod_pos_bound k 11 ltac:(lia)) as B. destruct (Nat.ltb_spec 10 (S (Z.to_nat (k mod 11)))) as [L|L].
    + assert (E : k mod 11 = 10) by lia. rewrite <- Zplus_mod_idemp_l, E. reflexivity.
    + rewrite <- Zplus_mod_idemp_l, (Z.mod_small (k mod 11 + 1)) by lia. lia.
Qed.
Lemma row_state n (f : Z -> Z) k s st : 0 <= k -> state k s st ->
  state (k + Z.of_nat n) (s + sum_below n (fun c => Z.rem (f c) (prime_at (k + c)))) (fold_left add_sample (map f (zrange (Z.of_nat n))) st).
Proof.
  intros K S. induction n as [|n IH]; [cbn; rewrite !Z.add_0_r; exact S|].
  assert (E : zrange (Z.of_nat (Datatypes.S n)) = zrange (Z.of_nat n) ++ [Z.of_nat n]).
  { unfold zrange. rewrite !Nat2Z.id, seq_S, map_app. reflexivity. }
  rewrite E, map_app, fold_left_app. cbn [map fold_left sum_below]. rewrite Nat2Z.inj_succ, <- Z.add_1_r, !Z.add_assoc. apply add_state; [lia|exact IH].
Qed.
Lemma rows_state m n (f : Z -> Z -> Z) :
  state (Z.of_nat m * Z.of_nat n) (sum_below m (fun r => sum_below n (fun c => Z.rem (f r c) (prime_at (r * Z.of_nat n + c)))))
    (fold_left add_sample (flat_map (fun r => map (f r) (zrange (Z.of_nat n))) (zrange (Z.of_nat m))) (0, 0%nat)).
Proof.
  induction m as [|m IH]; [split; reflexivity|].
  assert (E : zrange (Z.of_nat (S m)) = zrange (Z.of_nat m) ++ [Z.of_nat m]).
  { unfold zrange. rewrite !Nat2Z.id, seq_S, map_app. reflexivity. }
  rewrite E, flat_map_app, fold_left_app. cbn [flat_map sum_below]. rewrite app_nil_r.
  replace (Z.of_nat (S m) * Z.of_nat n) with (Z.of_nat m * Z.of_nat n + Z.of_nat n) by lia. apply row_state; [lia|exact IH].
Qed.

Lemma floor_about q n : (inject_Z n - (1 # 2) <= q)%Q -> (q < inject_Z n + (1 # 2))%Q -> Qfloor (q + (1 # 2)) = n.
Proof.
  intros L U. assert (A : (inject_Z n <= q + (1 # 2))%Q) by lra. assert (C : (q + (1 # 2) < inject_Z (n + 1))%Q) by (rewrite inject_Z_plus; change (inject_Z 1) with 1%Q; lra).
  pose proof (Qfloor_resp_le _ _ A) as A'. rewrite Qfloor_Z in A'. pose proof (Qfloor_le (q + (1 # 2))) as D. assert (X : (inject_Z (Qfloor (q + (1 # 2))) < inject_Z (n + 1))%Q) by (eapply Qle_lt_trans; eassumption).
  rewrite <- Zlt_Qlt in X. lia.
Qed.
Lemma sample_about t q n : is_float t = true -> (inject_Z n - (1 # 2) <= q)%Q -> (q < inject_Z n + (1 # 2))%Q -> sample t (Num q) = Z.max (- (2 ^ 31 - 1)) (Z.min (2 ^ 31 - 1) n).
Proof.
  intros T L U. pose proof (floor_about q n L U) as F. unfold sample. rewrite T, F. pose proof (Qfloor_le (q + (1 # 2))) as D. pose proof (Qlt_floor (q + (1 # 2))) as D'. rewrite F in D, D'. change (2 ^ 31 - 1) with 2147483647.
  change (-2147483647)%Q with (inject_Z (-2147483647)). change 2147483647%Q with (inject_Z 2147483647).
  destruct (Qltb (q + (1 # 2)) (inject_Z (-2147483647))) eqn:X1.
  - apply negb_true_iff in X1. assert (Y : ~ (inject_Z (-2147483647) <= q + (1 # 2))%Q) by (intros Y; apply Qle_bool_iff in Y; congruence). apply Qnot_le_lt in Y. assert (Z0 : (inject_Z n < inject_Z (-2147483647))%Q) by (eapply Qle_lt_trans; eassumption). rewrite <- Zlt_Qlt in Z0. lia.
  - apply negb_false_iff, Qle_bool_iff in X1. assert (Z0 : (inject_Z (-2147483647) < inject_Z (n + 1))%Q) by (eapply Qle_lt_trans; eassumption). rewrite <- Zlt_Qlt in Z0.
    destruct (Qltb (inject_Z 2147483647) (q + (1 # 2))) eqn:X2.
    + apply negb_true_iff in X2. assert (Y : ~ (q + (1 # 2) <= inject_Z 2147483647)%Q) by (intros Y; apply Qle_bool_iff in Y; congruence). apply Qnot_le_lt in Y. assert (Z1 : (inject_Z 2147483647 < inject_Z (n + 1))%Q) by (eapply Qlt_trans; eassumption). rewrite <- Zlt_Qlt in Z1. lia.
    + apply negb_false_iff, Qle_bool_iff in X2. assert (Z1 : (inject_Z n <= inject_Z 2147483647)%Q) by (eapply Qle_trans; eassumption). rewrite <- Zle_Qle in Z1. lia.
Qed.
Lemma sample_whole t v h : whole t v h -> sample t v = h.
Proof.
  intros W. destruct v as [|q]; [symmetry; exact W|]. destruct t; try (cbn in W; subst q; unfold sample; cbn [is_float]; apply Qfloor_Z);
  destruct W as (n & L & U & ->); apply sample_about; auto.
Qed.
Lemma flat_map_map {A B C} (f : B -> C) (g : A -> list B) l : map f (flat_map g l) = flat_map (fun x => map f (g x)) l.
Proof. induction l as [|x l IH]; [reflexivity|]. cbn [flat_map]. rewrite map_app, IH. reflexivity. Qed.

Lemma checksum_value v rows cols h : heights_are v rows cols h ->
  band_checksum (m_type (r_geo v)) (band1 v) = remainders rows cols h mod 65536.
Proof.
  intros (R & C & b & bs & Eb & Er & Ec & A). unfold band1. rewrite Eb. unfold band_checksum. rewrite flat_map_map, Er, Ec.
  assert (E : flat_map (fun r => map (sample (m_type (r_geo v))) (map (g_at (b_data b) r) (zrange cols))) (zrange rows) = flat_map (fun r => map (h r) (zrange cols)) (zrange rows)).
  { rewrite !flat_map_concat_map. f_equal. apply map_ext_in. intros r Ir. apply in_zrange in Ir. rewrite map_map. apply map_ext_in. intros c Ic. apply in_zrange in Ic.
    apply sample_whole, A; assumption. }
  rewrite E. pose proof (rows_state (Z.to_nat rows) (Z.to_nat cols) h) as [S _]. rewrite !Z2Nat.id in S by assumption. exact S.
Qed.
Lemma data_value v rows cols h : heights_are v rows cols h -> (has_data_of v = true <-> remainders rows cols h mod 65536 <> 0).
Proof.
  intros H. unfold has_data_of. rewrite (checksum_value _ _ _ _ H). pose proof (Z.mod_pos_bound (remainders rows cols h) 65536 ltac:(lia)). rewrite Z.ltb_lt. lia.
Qed.

Lemma rem_bounds h k : 0 <= h -> 0 <= Z.rem h (prime_at k) <= 42.
Proof. intros H. pose proof (prime_bounds k). pose proof (Z.rem_bound_pos h (prime_at k) H ltac:(lia)). lia. Qed.
Lemma remainders_bounds rows cols h : 0 <= rows -> 0 <= cols -> (forall r c, 0 <= r < rows -> 0 <= c < cols -> 0 <= h r c) ->
  0 <= remainders rows cols h <= rows * cols * 42.
Proof.
  intros R C H. unfold remainders. pose proof (sum_bounds (Z.to_nat rows) (fun r => sum_below (Z.to_nat cols) (fun c => Z.rem (h r c) (prime_at (r * cols + c)))) (cols * 42)) as B.
  rewrite Z2Nat.id in B by exact R. rewrite <- Z.mul_assoc. apply B. intros r Ir. pose proof (sum_bounds (Z.to_nat cols) (fun c => Z.rem (h r c) (prime_at (r * cols + c))) 42) as B'.
  rewrite Z2Nat.id in B' by exact C. apply B'. intros c Ic. apply rem_bounds. apply H; assumption.
Qed.
Lemma remainders_null rows cols h : 0 <= rows -> 0 <= cols -> (forall r c, 0 <= r < rows -> 0 <= c < cols -> 0 <= h r c) ->
  (remainders rows cols h = 0 <-> forall r c, 0 <= r < rows -> 0 <= c < cols -> (prime_at (r * cols + c) | h r c)).
Proof.
  intros R C H. assert (P : forall r c, 0 <= r < rows -> 0 <= c < cols -> 0 <= Z.rem (h r c) (prime_at (r * cols + c))) by (intros; apply rem_bounds; auto).
  assert (D : forall r c, 0 <= r < rows -> 0 <= c < cols -> (Z.rem (h r c) (prime_at (r * cols + c)) = 0 <-> (prime_at (r * cols + c) | h r c))).
  { intros r c Ir Ic. pose proof (prime_bounds (r * cols + c)). apply Z.rem_divide. lia. }
  assert (S : forall r, 0 <= r < rows -> 0 <= sum_below (Z.to_nat cols) (fun c => Z.rem (h r c) (prime_at (r * cols + c)))).
  { intros r Ir. pose proof (sum_bounds (Z.to_nat cols) (fun c => Z.rem (h r c) (prime_at (r * cols + c))) 42) as B. rewrite Z2Nat.id in B by exact C. apply B. intros c Ic. apply rem_bounds. auto. }
  unfold remainders. split.
  - intros E r c Ir Ic. apply D; [assumption..|].
    assert (E' : sum_below (Z.to_nat cols) (fun c => Z.rem (h r c) (prime_at (r * cols + c))) = 0).
    { apply (sum_null (Z.to_nat rows) (fun r => sum_below (Z.to_nat cols) (fun c => Z.rem (h r c) (prime_at (r * cols + c))))); [|exact E|rewrite Z2Nat.id by exact R; exact Ir].
      intros k K. rewrite Z2Nat.id in K by exact R. apply S. exact K. }
    cbv beta in E'. apply (sum_null (Z.to_nat cols) (fun c => Z.rem (h r c) (prime_at (r * cols + c)))); [|exact E'|rewrite Z2Nat.id by exact C; exact Ic].
    intros k K. rewrite Z2Nat.id in K by exact C. apply P; assumption.
  - intros E. apply sum_zero. intros r Ir. rewrite Z2Nat.id in Ir by exact R. apply sum_zero. intros c Ic. rewrite Z2Nat.id in Ic by exact C. apply D; auto.
Qed.
Lemma sum_opp n f : sum_below n (fun k => - f k) = - sum_below n f.
Proof. induction n as [|n IH]; [reflexivity|]. cbn [sum_below]. rewrite IH. lia. Qed.
Lemma remainders_opp rows cols h : remainders rows cols (fun r c => - h r c) = - remainders rows cols h.
Proof.
  unfold remainders. rewrite <- sum_opp. apply sum_ext. intros r _. rewrite <- sum_opp. apply sum_ext. intros c _. pose proof (prime_bounds (r * cols + c)). apply Z.rem_opp_l. lia.
Qed.
Lemma remainders_const rows cols x : 0 <= rows -> 0 <= cols -> 0 <= x < 7 -> remainders rows cols (fun _ _ => x) = rows * cols * x.
Proof.
  intros R C X. unfold remainders. rewrite (sum_ext _ _ (fun _ => cols * x)).
  - rewrite sum_const, Z2Nat.id by exact R. lia.
  - intros r Ir. rewrite (sum_ext _ _ (fun _ => x)); [rewrite sum_const, Z2Nat.id by exact C; reflexivity|].
    intros c Ic. pose proof (prime_bounds (r * cols + c)). apply Z.rem_small. lia.
Qed.
Lemma remainders_one rows cols h h' r0 c0 : 0 <= r0 < rows -> 0 <= c0 < cols ->
  (forall r c, 0 <= r < rows -> 0 <= c < cols -> r <> r0 \/ c <> c0 -> h r c = h' r c) ->
  remainders rows cols h - remainders rows cols h' = Z.rem (h r0 c0) (prime_at (r0 * cols + c0)) - Z.rem (h' r0 c0) (prime_at (r0 * cols + c0)).
Proof.
  intros R C H. unfold remainders. rewrite (sum_one _ _ (fun r => sum_below (Z.to_nat cols) (fun c => Z.rem (h' r c) (prime_at (r * cols + c)))) r0).
  2: rewrite Z2Nat.id by lia; lia.
  2: intros r Ir D; rewrite Z2Nat.id in Ir by lia; apply sum_ext; intros c Ic; rewrite Z2Nat.id in Ic by lia; rewrite H by lia; reflexivity.
  rewrite (sum_one _ _ (fun c => Z.rem (h' r0 c) (prime_at (r0 * cols + c))) c0); [reflexivity|rewrite Z2Nat.id by lia; lia|]. intros c Ic D. rewrite Z2Nat.id in Ic by lia. rewrite H by lia. reflexivity.
Qed.
