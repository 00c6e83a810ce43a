From Coq Require Import Permutation.
From Verif Require Import Base BaseLemmas PyStr NameModel DistModel.
Open Scope Z_scope.

Lemma in_range3 a b s x : 0 < s -> In x (range3 a b s) <-> a <= x < b /\ (x - a) mod s = 0.
Proof.
  intros Hs. unfold range3. rewrite in_map_iff. split.
  - intros (i & <- & Hi). apply in_zrange in Hi. assert (i + 1 <= (b - a + s - 1) / s) by lia.
    pose proof (Z.mul_div_le (b - a + s - 1) s Hs). replace (a + i * s - a) with (i * s) by lia. rewrite Z.mod_mul by lia.
    assert (s * (i + 1) <= s * ((b - a + s - 1) / s)) by (apply Z.mul_le_mono_nonneg_l; lia). nia.
  - intros [[H1 H2] H3]. exists ((x - a) / s). pose proof (Z.div_mod (x - a) s ltac:(lia)). split; [lia|].
    apply in_zrange. split; [apply Z.div_pos; lia|]. apply Z.div_lt_upper_bound; [lia|].
    pose proof (Z.div_mod (b - a + s - 1) s ltac:(lia)). pose proof (Z.mod_pos_bound (b - a + s - 1) s Hs). lia.
Qed.

Lemma range3_NoDup a b s : 0 < s -> NoDup (range3 a b s).
Proof.
  intros Hs. unfold range3. apply FinFun.Injective_map_NoDup; [|apply zrange_NoDup].
  intros x y E. assert ((x - y) * s = 0) by lia. nia.
Qed.

Lemma range3_length a b s : 0 < s -> zlen (range3 a b s) = Z.max 0 ((b - a + s - 1) / s).
Proof. intros Hs. unfold range3, zlen. rewrite map_length, zrange_length. lia. Qed.

Lemma flat_map_ext_in {A B} (f g : A -> list B) l : (forall x, In x l -> f x = g x) -> flat_map f l = flat_map g l.
Proof.
  induction l as [|x l IH]; intros H; [reflexivity|]. cbn [flat_map]. rewrite (H x (or_introl eq_refl)), IH; [reflexivity|].
  intros; apply H; right; assumption.
Qed.

Definition pick {A} (l : list A) (k : Z) : list A := match nth_error l (Z.to_nat k) with Some a => [a] | None => [] end.

Lemma pick_all {A} (l : list A) : flat_map (pick l) (zrange (zlen l)) = l.
Proof.
  induction l as [|x l IH] using rev_ind; [reflexivity|].
  assert (E : zlen (l ++ [x]) = zlen l + 1) by (unfold zlen; rewrite app_length; cbn; lia).
  rewrite E, zrange_S by (unfold zlen; lia). rewrite flat_map_app. cbn [flat_map]. rewrite app_nil_r. f_equal.
  - transitivity (flat_map (pick l) (zrange (zlen l))); [|exact IH]. apply flat_map_ext_in. intros k Hk. apply in_zrange in Hk.
    unfold pick. rewrite nth_error_app1 by (unfold zlen in Hk; lia). reflexivity.
  - unfold pick. rewrite nth_error_app2 by (unfold zlen; lia).
    replace (Z.to_nat (zlen l) - length l)%nat with 0%nat by (unfold zlen; lia). reflexivity.
Qed.

Lemma NoDup_flat {A B} (f : A -> list B) : forall l, NoDup l -> (forall x, In x l -> NoDup (f x)) ->
  (forall x y z, In x l -> In y l -> In z (f x) -> In z (f y) -> x = y) -> NoDup (flat_map f l).
Proof.
  induction l as [|x l IH]; intros N H1 H2; [constructor|]. cbn [flat_map]. inversion N as [|? ? Nx Nl]; subst.
  assert (IH' : NoDup (flat_map f l)).
  { apply IH; [assumption|intros; apply H1; right; assumption|intros a b z Ha Hb; apply H2; right; assumption]. }
  assert (D : forall z, In z (f x) -> ~ In z (flat_map f l)).
  { intros z Hz C. apply in_flat_map in C. destruct C as (y & Hy & C).
    assert (x = y) by (apply (H2 x y z); [left; reflexivity|right; assumption|assumption|assumption]). subst. contradiction. }
  specialize (H1 x (or_introl eq_refl)). clear - H1 D IH'. induction (f x) as [|z l' IHl]; [exact IH'|].
  inversion H1; subst. cbn [app]. constructor.
  - rewrite in_app_iff. intros [C|C]; [contradiction|]. apply (D z); [left; reflexivity|exact C].
  - apply IHl; [assumption|]. intros w Hw. apply D. right. exact Hw.
Qed.

Lemma flat_map_concat_map {A B} (f : A -> list B) l : flat_map f l = concat (map f l).
Proof. induction l; cbn; congruence. Qed.
Lemma flat_map_flat_map {A B C} (f : A -> list B) (g : B -> list C) l : flat_map g (flat_map f l) = flat_map (fun x => flat_map g (f x)) l.
Proof. induction l as [|x l IH]; [reflexivity|]. cbn [flat_map]. rewrite flat_map_app, IH. reflexivity. Qed.

Lemma split_perm {A} n (l : list A) : 1 <= n -> Permutation (concat (split_tiles n l)) l.
Proof.
  intros Hn. unfold split_tiles. rewrite <- flat_map_concat_map. unfold stride. fold (@pick A).
  change (Permutation (flat_map (fun i => flat_map (pick l) (range3 i (zlen l) n)) (zrange n)) l).
  rewrite <- flat_map_flat_map.
  apply Permutation_trans with (flat_map (pick l) (zrange (zlen l))); [|rewrite pick_all; apply Permutation_refl].
  apply Permutation_flat_map. apply NoDup_Permutation.
  - apply NoDup_flat.
    + apply zrange_NoDup.
    + intros. apply range3_NoDup. lia.
    + intros x y z Hx Hy Hz Hz'. apply in_zrange in Hx, Hy. apply in_range3 in Hz, Hz'; try lia.
      destruct Hz as [_ Hz], Hz' as [_ Hz']. apply Z.mod_divide in Hz, Hz'; try lia. destruct Hz as (a & Ha), Hz' as (b & Hb).
      assert (E : x - y = (b - a) * n) by lia. destruct (Z.lt_trichotomy (b - a) 0) as [C|[C|C]]; [|rewrite C in E; lia|].
      * assert ((b - a) * n <= -1 * n) by (apply Z.mul_le_mono_nonneg_r; lia). lia.
      * assert (1 * n <= (b - a) * n) by (apply Z.mul_le_mono_nonneg_r; lia). lia.
  - apply zrange_NoDup.
  - intros x. rewrite in_flat_map, in_zrange. split.
    + intros (i & Hi & Hx). apply in_zrange in Hi. apply in_range3 in Hx; lia.
    + intros Hx. exists (x mod n). pose proof (Z.mod_pos_bound x n ltac:(lia)). split; [apply in_zrange; lia|].
      apply in_range3; [lia|]. split; [pose proof (Z.mod_le x n ltac:(lia) ltac:(lia)); lia|].
      pose proof (Z.div_mod x n ltac:(lia)). replace (x - x mod n) with (x / n * n) by lia. apply Z.mod_mul. lia.
Qed.

Lemma stride_eq {A} i n (l : list A) : 0 <= i -> 1 <= n ->
  stride i n l = flat_map (pick l) (range3 i (zlen l) n).
Proof. reflexivity. Qed.

Lemma flat_pick_length {A} (l : list A) ks : (forall k, In k ks -> 0 <= k < zlen l) -> length (flat_map (pick l) ks) = length ks.
Proof.
  induction ks as [|k ks IH]; intros H; [reflexivity|]. cbn [flat_map]. rewrite app_length, IH by (intros; apply H; right; assumption).
  unfold pick. destruct (nth_error l (Z.to_nat k)) eqn:E; [reflexivity|]. apply nth_error_None in E.
  specialize (H k (or_introl eq_refl)). unfold zlen in H. lia.
Qed.
Lemma flat_pick_nth {A} (l : list A) : forall ks, (forall k, In k ks -> 0 <= k < zlen l) -> forall j k, nth_error ks j = Some k ->
  nth_error (flat_map (pick l) ks) j = nth_error l (Z.to_nat k).
Proof.
  induction ks as [|k0 ks IH]; intros H j k E; [destruct j; discriminate|]. cbn [flat_map].
  unfold pick at 1. destruct (nth_error l (Z.to_nat k0)) as [a|] eqn:E0.
  - destruct j as [|j]; cbn [nth_error app] in *; [injection E as <-; symmetry; exact E0|].
    apply IH; [intros; apply H; right; assumption|exact E].
  - apply nth_error_None in E0. specialize (H k0 (or_introl eq_refl)). unfold zlen in H. lia.
Qed.

Lemma stride_length {A} i n (l : list A) : 0 <= i -> 1 <= n ->
  zlen (stride i n l) = Z.max 0 ((zlen l - i + n - 1) / n).
Proof.
  intros Hi Hn. rewrite stride_eq by assumption. unfold zlen at 1. rewrite flat_pick_length.
  - fold (zlen (range3 i (zlen l) n)). apply range3_length. lia.
  - intros k Hk. apply in_range3 in Hk; lia.
Qed.

Lemma stride_nth {A} i n (l : list A) j : 0 <= i -> 1 <= n -> 0 <= j -> i + j * n < zlen l ->
  nth_error (stride i n l) (Z.to_nat j) = nth_error l (Z.to_nat (i + j * n)).
Proof.
  intros Hi Hn Hj Hl. rewrite stride_eq by assumption. apply flat_pick_nth.
  - intros k Hk. apply in_range3 in Hk; lia.
  - unfold range3. apply (map_nth_error (fun x => i + x * n)). apply zrange_nth_error. split; [lia|].
    apply Z.lt_le_trans with ((j * n + 1 + n - 1) / n).
    + replace (j * n + 1 + n - 1) with ((j + 1) * n) by lia. rewrite Z.div_mul; lia.
    + apply Z.div_le_mono; lia.
Qed.

Lemma split_length {A} n (l : list A) : 0 <= n -> zlen (split_tiles n l) = n.
Proof. intros H. unfold split_tiles, zlen. rewrite map_length, zrange_length. lia. Qed.

Lemma split_nth {A} n (l : list A) r : 0 <= r < n -> pyget (split_tiles n l) r = Ok (stride r n l).
Proof.
  intros H. unfold pyget. rewrite split_length by lia. rewrite norm_index_some by lia.
  unfold split_tiles. rewrite (map_nth_error _ _ _ (zrange_nth_error n r H)). reflexivity.
Qed.

Lemma scatter_ok {A} n (l : list A) r : 0 <= r < n -> mpi_scatter n (split_tiles n l) r = Ok (stride r n l).
Proof. intros H. unfold mpi_scatter. rewrite split_length, Z.eqb_refl by lia. apply split_nth. exact H. Qed.

Lemma mapM_map {A B} (f : A -> res B) (g : A -> B) l : (forall x, In x l -> f x = Ok (g x)) -> mapM f l = Ok (map g l).
Proof.
  induction l as [|x l IH]; intros H; [reflexivity|]. cbn [mapM map]. rewrite (H x (or_introl eq_refl)), IH; [reflexivity|].
  intros; apply H; right; assumption.
Qed.

Lemma fold_fst {A B} (l : list (list A * B)) acc : fold_left (fun total e => total ++ fst e) l acc = acc ++ concat (map fst l).
Proof.
  revert acc. induction l as [|x l IH]; intros acc; cbn; [rewrite app_nil_r; reflexivity|]. rewrite IH, <- app_assoc. reflexivity.
Qed.
Lemma fold_snd {A B} (l : list (B * list A)) acc : fold_left (fun total e => total ++ snd e) l acc = acc ++ concat (map snd l).
Proof.
  revert acc. induction l as [|x l IH]; intros acc; cbn; [rewrite app_nil_r; reflexivity|]. rewrite IH, <- app_assoc. reflexivity.
Qed.

Lemma convert_lists_eq {A B} n (tiles : list A) (conv : Z -> list A -> list B * list B) : 0 <= n ->
  convert_lists n tiles conv =
  Ok (concat (map (fun r => fst (conv r (stride r n tiles))) (zrange n)),
      concat (map (fun r => snd (conv r (stride r n tiles))) (zrange n))).
Proof.
  intros Hn. unfold convert_lists. cbv zeta.
  rewrite (mapM_map _ (fun r => conv r (stride r n tiles))).
  2:{ intros r Hr. apply in_zrange in Hr. rewrite scatter_ok by exact Hr. reflexivity. }
  cbn [bind].
  assert (E : mpi_gather n (fun r => nth (Z.to_nat r) (map (fun r => conv r (stride r n tiles)) (zrange n)) ([], [])) =
    map (fun r => conv r (stride r n tiles)) (zrange n)).
  { unfold mpi_gather. apply map_ext_in. intros r Hr. apply in_zrange in Hr.
    rewrite (nth_indep _ _ (conv 0 (stride 0 n tiles))) by (rewrite map_length, zrange_length; lia).
    rewrite (map_nth (fun r => conv r (stride r n tiles))), zrange_nth by lia. reflexivity. }
  rewrite E. unfold concat_fst, concat_snd. rewrite fold_fst, fold_snd, !map_map. reflexivity.
Qed.

Lemma convert_lists_perm {A B} n (tiles : list A) (g h : A -> B) : 1 <= n ->
  exists a b, convert_lists n tiles (fun _ ts => (map g ts, map h ts)) = Ok (a, b) /\
    Permutation a (map g tiles) /\ Permutation b (map h tiles).
Proof.
  intros Hn. rewrite convert_lists_eq by lia. eexists; eexists. split; [reflexivity|]. cbn [fst snd].
  assert (K : forall k : A -> B, Permutation (concat (map (fun r => map k (stride r n tiles)) (zrange n))) (map k tiles)).
  { intros k. rewrite <- (map_map (fun r => stride r n tiles) (map k)), <- concat_map. apply Permutation_map. apply split_perm. exact Hn. }
  split; apply K.
Qed.
