(** * Lemmas about the shared vocabulary. *)
From Verif Require Import Base.
From Coq Require Import ZifyBool ZifyNat FinFun.

Lemma Qltb_lt x y : Qltb x y = true <-> (x < y)%Q.
Proof.
  unfold Qltb. rewrite negb_true_iff. split; intros H.
  - apply Qnot_le_lt. intros C. apply Qle_bool_iff in C. congruence.
  - destruct (Qle_bool y x) eqn:E; [|reflexivity].
    apply Qle_bool_iff in E. lra.
Qed.

Lemma Qltb_ge x y : Qltb x y = false <-> (y <= x)%Q.
Proof.
  unfold Qltb. rewrite negb_false_iff. apply Qle_bool_iff.
Qed.

Lemma Qleb_le x y : Qleb x y = true <-> (x <= y)%Q.
Proof. apply Qle_bool_iff. Qed.

Lemma Qle_bool_gt x y : Qle_bool x y = false <-> (y < x)%Q.
Proof.
  split; intros H.
  - apply Qnot_le_lt. intros C. apply Qle_bool_iff in C. congruence.
  - destruct (Qle_bool x y) eqn:E; [|reflexivity]. apply Qle_bool_iff in E. lra.
Qed.

Lemma Qleb_gt x y : Qleb x y = false <-> (y < x)%Q.
Proof. apply Qle_bool_gt. Qed.

Lemma Qltb_comp x x' y y' : (x == x')%Q -> (y == y')%Q -> Qltb x y = Qltb x' y'.
Proof.
  intros Hx Hy. destruct (Qltb x y) eqn:E; destruct (Qltb x' y') eqn:E'; try reflexivity.
  - apply Qltb_lt in E; apply Qltb_ge in E'; lra.
  - apply Qltb_ge in E; apply Qltb_lt in E'; lra.
Qed.

Lemma zrange_length n : length (zrange n) = Z.to_nat n.
Proof. unfold zrange. rewrite map_length, seq_length. reflexivity. Qed.

Lemma zlen_zrange n : 0 <= n -> zlen (zrange n) = n.
Proof. intros. unfold zlen. rewrite zrange_length. lia. Qed.

Lemma in_zrange n x : In x (zrange n) <-> 0 <= x < n.
Proof.
  unfold zrange. rewrite in_map_iff. split.
  - intros (k & <- & Hk). apply in_seq in Hk. lia.
  - intros H. exists (Z.to_nat x). split; [lia|]. apply in_seq. lia.
Qed.

Lemma zrange_nth n k d : 0 <= k < n -> nth (Z.to_nat k) (zrange n) d = k.
Proof.
  intros H. unfold zrange.
  rewrite nth_indep with (d' := Z.of_nat 0) by (rewrite map_length, seq_length; lia).
  rewrite map_nth. rewrite seq_nth by lia. lia.
Qed.

Lemma zrange_nth_error n k : 0 <= k < n -> nth_error (zrange n) (Z.to_nat k) = Some k.
Proof.
  intros H.
  erewrite nth_error_nth' with (d := 0) by (rewrite zrange_length; lia).
  rewrite zrange_nth; auto.
Qed.

Lemma zrange_NoDup n : NoDup (zrange n).
Proof.
  unfold zrange. apply FinFun.Injective_map_NoDup; [|apply seq_NoDup].
  intros a b H. lia.
Qed.

Lemma zrange_nil n : n <= 0 -> zrange n = [].
Proof. intros. unfold zrange. replace (Z.to_nat n) with O by lia. reflexivity. Qed.

Lemma zrange_S n : 0 <= n -> zrange (n + 1) = zrange n ++ [n].
Proof.
  intros. unfold zrange. replace (Z.to_nat (n+1)) with (S (Z.to_nat n)) by lia.
  rewrite seq_S, map_app. simpl. f_equal. f_equal. lia.
Qed.

Lemma zrange_cons n : 0 < n -> zrange n = 0 :: map (fun i => i + 1) (zrange (n - 1)).
Proof.
  intros. unfold zrange. replace (Z.to_nat n) with (S (Z.to_nat (n-1))) by lia.
  simpl. f_equal. rewrite <- seq_shift, !map_map. apply map_ext. intros; lia.
Qed.

Lemma zrange_app a b : 0 <= a -> 0 <= b -> zrange (a + b) = zrange a ++ map (fun i => a + i) (zrange b).
Proof.
  intros. unfold zrange. replace (Z.to_nat (a + b)) with (Z.to_nat a + Z.to_nat b)%nat by lia.
  rewrite seq_app, map_app. f_equal. simpl.
  rewrite map_map. replace (seq (Z.to_nat a) (Z.to_nat b)) with (seq (Z.to_nat a + 0) (Z.to_nat b)) by (f_equal; lia).
  set (m := Z.to_nat b). generalize (0%nat) at 1 2. intros s.
  revert s. induction m as [|m IH]; intros s; simpl; [reflexivity|].
  f_equal; [lia|]. rewrite <- IH. f_equal. f_equal. lia.
Qed.

Lemma in_range2 a b x : In x (range2 a b) <-> a <= x < b.
Proof.
  unfold range2. rewrite in_map_iff. split.
  - intros (i & <- & Hi). apply in_zrange in Hi. lia.
  - intros H. exists (x - a). split; [lia|]. apply in_zrange. lia.
Qed.

Lemma range2_length a b : length (range2 a b) = Z.to_nat (b - a).
Proof. unfold range2. rewrite map_length, zrange_length. reflexivity. Qed.

Lemma norm_index_some n k : 0 <= k < n -> norm_index n k = Some k.
Proof.
  intros H. unfold norm_index. replace (k <? 0) with false by lia.
  replace ((0 <=? k) && (k <? n)) with true by lia. reflexivity.
Qed.

Lemma norm_index_inv n k i : norm_index n k = Some i ->
  0 <= i < n /\ (i = k \/ (k < 0 /\ i = k + n)).
Proof.
  unfold norm_index. destruct (k <? 0) eqn:E.
  - destruct ((0 <=? k + n) && (k + n <? n)) eqn:F; intros H; inversion H; lia.
  - destruct ((0 <=? k) && (k <? n)) eqn:F; intros H; inversion H; lia.
Qed.

Lemma pyget_nth {A} (l : list A) k a :
  0 <= k < zlen l -> nth_error l (Z.to_nat k) = Some a -> pyget l k = Ok a.
Proof. intros H E. unfold pyget. rewrite norm_index_some, E by assumption. reflexivity. Qed.

Lemma pyget_ok {A} (l : list A) k : 0 <= k < zlen l ->
  exists a, pyget l k = Ok a /\ nth_error l (Z.to_nat k) = Some a.
Proof.
  intros H. unfold pyget. rewrite norm_index_some by assumption.
  destruct (nth_error l (Z.to_nat k)) eqn:E.
  - eauto.
  - apply nth_error_None in E. unfold zlen in H. lia.
Qed.

(** ** int(), ceil, around *)

Lemma Qfloor_spec x : (inject_Z (Qfloor x) <= x /\ x < inject_Z (Qfloor x) + 1)%Q.
Proof.
  split; [apply Qfloor_le|].
  pose proof (Qlt_floor x) as H. rewrite inject_Z_plus in H. exact H.
Qed.

Lemma Qfloor_unique x n : (inject_Z n <= x)%Q -> (x < inject_Z n + 1)%Q -> Qfloor x = n.
Proof.
  intros H1 H2. destruct (Qfloor_spec x) as [H3 H4].
  assert (inject_Z n < inject_Z (Qfloor x) + 1)%Q by lra.
  assert (inject_Z (Qfloor x) < inject_Z n + 1)%Q by lra.
  change 1%Q with (inject_Z 1) in *. rewrite <- inject_Z_plus, <- Zlt_Qlt in *. lia.
Qed.

Lemma Qceiling_spec x : (inject_Z (Qceiling x) - 1 < x /\ x <= inject_Z (Qceiling x))%Q.
Proof.
  split; [|apply Qle_ceiling].
  pose proof (Qceiling_lt x) as H. unfold Z.sub in H.
  rewrite inject_Z_plus in H. exact H.
Qed.

Lemma Qceiling_unique x n : (inject_Z n - 1 < x)%Q -> (x <= inject_Z n)%Q -> Qceiling x = n.
Proof.
  intros H1 H2. destruct (Qceiling_spec x) as [H3 H4].
  assert (inject_Z n < inject_Z (Qceiling x) + 1)%Q by lra.
  assert (inject_Z (Qceiling x) < inject_Z n + 1)%Q by lra.
  change 1%Q with (inject_Z 1) in *. rewrite <- inject_Z_plus, <- Zlt_Qlt in *. lia.
Qed.

Lemma np_around_near x n :
  (inject_Z n - (1#2) < x)%Q -> (x < inject_Z n + (1#2))%Q -> np_around x = n.
Proof.
  intros H1 H2. unfold np_around.
  destruct (Qfloor_spec x) as [F1 F2].
  destruct (Qltb (x - inject_Z (Qfloor x)) (1#2)) eqn:E.
  - apply Qltb_lt in E.
    assert (inject_Z n < inject_Z (Qfloor x) + 1)%Q by lra.
    assert (inject_Z (Qfloor x) < inject_Z n + 1)%Q by lra.
    change 1%Q with (inject_Z 1) in *. rewrite <- inject_Z_plus, <- Zlt_Qlt in *. lia.
  - apply Qltb_ge in E.
    assert (Hn : Qfloor x + 1 = n).
    { assert (inject_Z n < inject_Z (Qfloor x) + 2)%Q by lra.
      assert (inject_Z (Qfloor x) < inject_Z n)%Q by lra.
      change 2%Q with (inject_Z 2) in *. rewrite <- inject_Z_plus, <- Zlt_Qlt in *. lia. }
    destruct (Qltb (1#2) (x - inject_Z (Qfloor x))) eqn:E2; [exact Hn|].
    apply Qltb_ge in E2. exfalso.
    rewrite <- Hn, inject_Z_plus in H1. change (inject_Z 1) with 1%Q in H1. lra.
Qed.

Lemma np_around_int x n : (x == inject_Z n)%Q -> np_around x = n.
Proof. intros H. apply np_around_near; lra. Qed.

Lemma np_around_half x : (Qabs (inject_Z (np_around x) - x) <= 1#2)%Q.
Proof.
  unfold np_around. destruct (Qfloor_spec x) as [F1 F2].
  apply Qabs_Qle_condition.
  destruct (Qltb (x - inject_Z (Qfloor x)) (1#2)) eqn:E.
  - apply Qltb_lt in E. lra.
  - apply Qltb_ge in E.
    destruct (Qltb (1#2) (x - inject_Z (Qfloor x))) eqn:E2.
    + apply Qltb_lt in E2. rewrite inject_Z_plus. change (inject_Z 1) with 1%Q. lra.
    + apply Qltb_ge in E2. destruct (Z.even (Qfloor x)); try rewrite inject_Z_plus;
      change (inject_Z 1) with 1%Q; lra.
Qed.

Lemma py_int_nonneg x : (0 <= x)%Q -> py_int x = Qfloor x.
Proof. intros H. unfold py_int. apply Qle_bool_iff in H. rewrite H. reflexivity. Qed.

Lemma Qfloor_nonneg x : (0 <= x)%Q -> 0 <= Qfloor x.
Proof.
  intros H. destruct (Qfloor_spec x) as [_ F].
  assert (inject_Z 0 < inject_Z (Qfloor x) + inject_Z 1)%Q by (change (inject_Z 0) with 0%Q; change (inject_Z 1) with 1%Q; lra).
  rewrite <- inject_Z_plus, <- Zlt_Qlt in H0. lia.
Qed.

Lemma inject_Z_le a b : a <= b -> (inject_Z a <= inject_Z b)%Q.
Proof. rewrite <- Zle_Qle. auto. Qed.
Lemma inject_Z_lt a b : a < b -> (inject_Z a < inject_Z b)%Q.
Proof. rewrite <- Zlt_Qlt. auto. Qed.
Lemma inject_Z_le_inv a b : (inject_Z a <= inject_Z b)%Q -> a <= b.
Proof. rewrite <- Zle_Qle. auto. Qed.
Lemma inject_Z_lt_inv a b : (inject_Z a < inject_Z b)%Q -> a < b.
Proof. rewrite <- Zlt_Qlt. auto. Qed.

Lemma inject_Z_minus a b : (inject_Z (a - b) == inject_Z a - inject_Z b)%Q.
Proof. unfold Z.sub, Qminus. rewrite inject_Z_plus, inject_Z_opp. reflexivity. Qed.

(** ** Rounding *)

Lemma fl_ok_id : fl_ok (fun x => x).
Proof.
  constructor; intros; try assumption; try reflexivity.
  setoid_replace (x - x)%Q with 0%Q by ring. simpl.
  apply Qmult_le_0_compat; [unfold u53; discriminate | apply Qabs_nonneg].
Qed.

Section Fl.
  Context (fl : Q -> Q) (H : fl_ok fl).

  Lemma fl_0 : (fl 0 == 0)%Q.
  Proof. apply (fl_int fl H 0). lia. Qed.

  Lemma fl_nonneg x : (0 <= x -> 0 <= fl x)%Q.
  Proof. intros Hx. rewrite <- fl_0. apply (fl_mono fl H). exact Hx. Qed.

  Lemma fl_bounds x b : (Qabs x <= b)%Q -> (x - u53 * b <= fl x /\ fl x <= x + u53 * b)%Q.
  Proof.
    intros Hb. pose proof (fl_rel fl H x) as R. apply Qabs_Qle_condition in R.
    assert (u53 * Qabs x <= u53 * b)%Q.
    { apply Qmult_le_l; [reflexivity | exact Hb]. }
    lra.
  Qed.

  Lemma fl_pos x : (0 < x -> 0 < fl x)%Q.
  Proof.
    intros Hx. assert (E : (Qabs x <= x)%Q) by (rewrite Qabs_pos; lra).
    destruct (fl_bounds x x E) as [B _].
    assert (u53 * x < x)%Q.
    { setoid_replace x with (1 * x)%Q at 2 by ring. apply Qmult_lt_r; [exact Hx|reflexivity]. }
    lra.
  Qed.
End Fl.
