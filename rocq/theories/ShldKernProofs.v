From Coq Require Import Permutation.
From Verif Require Import Base BaseLemmas NameModel DistProofs TerrModel TerrSpec TerrProofs ShldModel ShldSpec ShldProofs.
Open Scope Z_scope.

(** ** Raw kernels *)
Definition in_rect (a0 a1 b0 b1 a b : Z) : bool := (a0 <=? a) && (a <? a1) && (b0 <=? b) && (b <? b1).
Lemma in_rect_iff a0 a1 b0 b1 a b : in_rect a0 a1 b0 b1 a b = true <-> a0 <= a < a1 /\ b0 <= b < b1.
Proof. unfold in_rect. rewrite !andb_true_iff, !Z.leb_le, !Z.ltb_lt. lia. Qed.

Lemma fold_slices {A} (v : A) (A0 A1 B0 B1 : Z -> Z) l : forall g a b,
  g_at (fold_left (fun k i => set_slice (A0 i) (A1 i) (B0 i) (B1 i) v k) l g) a b =
  if existsb (fun i => in_rect (A0 i) (A1 i) (B0 i) (B1 i) a b) l then v else g_at g a b.
Proof.
  induction l as [|i l IH]; intros g a b; [reflexivity|]. cbn [fold_left existsb]. rewrite IH.
  destruct (existsb _ l); [rewrite orb_true_r; reflexivity|]. rewrite orb_false_r. reflexivity.
Qed.
Lemma fold_slices_shape {A} (v : A) (A0 A1 B0 B1 : Z -> Z) l : forall g,
  g_rows (fold_left (fun k i => set_slice (A0 i) (A1 i) (B0 i) (B1 i) v k) l g) = g_rows g /\
  g_cols (fold_left (fun k i => set_slice (A0 i) (A1 i) (B0 i) (B1 i) v k) l g) = g_cols g.
Proof. induction l as [|i l IH]; intros g; [split; reflexivity|]. cbn [fold_left]. destruct (IH (set_slice (A0 i) (A1 i) (B0 i) (B1 i) v g)) as [-> ->]. split; reflexivity. Qed.

Definition raw_diag (size : Z) : grid Q :=
  fold_left (fun k i => set_slice (i - 1) size (size + i) (size + i + 1) 1%Q k) (range2 1 (size + 1)) (zeros (2 * size + 1)).
Definition raw_card (size : Z) : grid Q :=
  fold_left (fun k i => set_slice (size + i) (2 * size + 1) (size - 1) (size + 2) 1%Q k) (range2 2 (size + 1))
   (fold_left (fun k i => set_slice (i + size) (i + size + 1) size (size + 1) 1%Q k) (range2 1 (size + 1)) (zeros (2 * size + 1))).

Definition in_diag (s a b : Z) : bool := (s + 1 <=? b) && (b <=? 2 * s) && (b - s - 1 <=? a) && (a <? s).
Definition in_card (s a b : Z) : bool :=
  ((b =? s) && (s + 1 <=? a) && (a <=? 2 * s)) || ((s + 2 <=? a) && (a <=? 2 * s) && (s - 1 <=? b) && (b <=? s + 1)).

Lemma raw_diag_at s a b : g_at (raw_diag s) a b = if in_diag s a b then 1%Q else 0%Q.
Proof.
  unfold raw_diag. rewrite (fold_slices 1%Q (fun i => i - 1) (fun _ => s) (fun i => s + i) (fun i => s + i + 1)). cbn [zeros g_at].
  replace (existsb _ _) with (in_diag s a b); [reflexivity|]. apply eq_true_iff_eq. rewrite existsb_exists. unfold in_diag.
  rewrite !andb_true_iff, !Z.leb_le, Z.ltb_lt. split.
  - intros H. exists (b - s). split; [apply in_range2; lia|]. apply in_rect_iff. lia.
  - intros (i & Hi & H). apply in_range2 in Hi. apply in_rect_iff in H. lia.
Qed.
Lemma raw_card_at s a b : 1 <= s -> g_at (raw_card s) a b = if in_card s a b then 1%Q else 0%Q.
Proof.
  intros Hs. unfold raw_card. rewrite (fold_slices 1%Q (fun i => s + i) (fun _ => 2 * s + 1) (fun _ => s - 1) (fun _ => s + 2)).
  rewrite (fold_slices 1%Q (fun i => i + s) (fun i => i + s + 1) (fun _ => s) (fun _ => s + 1)). cbn [zeros g_at].
  set (e1 := existsb _ (range2 2 (s + 1))). set (e2 := existsb _ (range2 1 (s + 1))).
  assert (E1 : e1 = true <-> s + 2 <= a <= 2 * s /\ s - 1 <= b <= s + 1).
  { unfold e1. rewrite existsb_exists. split.
    - intros (i & Hi & H). apply in_range2 in Hi. apply in_rect_iff in H. lia.
    - intros H. exists 2. split; [apply in_range2; lia|]. apply in_rect_iff. lia. }
  assert (E2 : e2 = true <-> s + 1 <= a <= 2 * s /\ b = s).
  { unfold e2. rewrite existsb_exists. split.
    - intros (i & Hi & H). apply in_range2 in Hi. apply in_rect_iff in H. lia.
    - intros H. exists (a - s). split; [apply in_range2; lia|]. apply in_rect_iff. lia. }
  assert (C : in_card s a b = true <-> e1 = true \/ e2 = true).
  { rewrite E1, E2. unfold in_card. rewrite orb_true_iff, !andb_true_iff, !Z.leb_le, Z.eqb_eq. lia. }
  destruct e1, e2, (in_card s a b); try reflexivity; exfalso; destruct C as [C1 C2];
    first [destruct (C1 eq_refl); discriminate | specialize (C2 (or_introl eq_refl)); discriminate | specialize (C2 (or_intror eq_refl)); discriminate].
Qed.
Lemma raw_diag_shape s : g_rows (raw_diag s) = 2 * s + 1 /\ g_cols (raw_diag s) = 2 * s + 1.
Proof. unfold raw_diag. destruct (fold_slices_shape 1%Q (fun i => i - 1) (fun _ => s) (fun i => s + i) (fun i => s + i + 1) (range2 1 (s + 1)) (zeros (2 * s + 1))) as [-> ->]. split; reflexivity. Qed.
Lemma raw_card_shape s : g_rows (raw_card s) = 2 * s + 1 /\ g_cols (raw_card s) = 2 * s + 1.
Proof.
  unfold raw_card. match goal with |- context [fold_left _ (range2 2 _) ?g] =>
    destruct (fold_slices_shape 1%Q (fun i => s + i) (fun _ => 2 * s + 1) (fun _ => s - 1) (fun _ => s + 2) (range2 2 (s + 1)) g) as [-> ->] end.
  destruct (fold_slices_shape 1%Q (fun i => i + s) (fun i => i + s + 1) (fun _ => s) (fun _ => s + 1) (range2 1 (s + 1)) (zeros (2 * s + 1))) as [-> ->].
  split; reflexivity.
Qed.

(** ** Sums of 0/1 grids are counts *)
Definition pairs (n m : Z) : list (Z * Z) := flat_map (fun a => map (fun b => (a, b)) (zrange m)) (zrange n).
Lemma in_pairs n m p : In p (pairs n m) <-> 0 <= fst p < n /\ 0 <= snd p < m.
Proof.
  unfold pairs. rewrite in_flat_map. split.
  - intros (a & Ha & H). apply in_map_iff in H. destruct H as (b & <- & Hb). apply in_zrange in Ha, Hb. auto.
  - intros [H1 H2]. exists (fst p). split; [apply in_zrange; exact H1|]. apply in_map_iff. exists (snd p). split; [destruct p; reflexivity|apply in_zrange; exact H2].
Qed.
Lemma cells_pairs {A} (g : grid A) : grid_cells g = map (fun p => g_at g (fst p) (snd p)) (pairs (g_rows g) (g_cols g)).
Proof.
  unfold grid_cells, pairs. generalize (zrange (g_rows g)). induction l as [|a l IH]; [reflexivity|].
  cbn [flat_map]. rewrite map_app, map_map, IH. reflexivity.
Qed.
Lemma indicator_sum {A} (p : A -> bool) (f : A -> Q) l : (forall x, In x l -> f x = if p x then 1%Q else 0%Q) ->
  (fold_right Qplus 0 (map f l) == inject_Z (zlen (filter p l)))%Q.
Proof.
  induction l as [|x l IH]; intros H; [reflexivity|]. cbn [map fold_right filter]. rewrite (H x (or_introl eq_refl)).
  rewrite IH by (intros; apply H; right; assumption). destruct (p x); [|apply Qplus_0_l].
  unfold zlen. cbn [length]. rewrite Nat2Z.inj_succ. unfold Z.succ. rewrite inject_Z_plus. apply Qplus_comm.
Qed.

(** ** The cells that contribute *)
Definition P_ (d : dir) (s a b : Z) : bool :=
  match d with
  | N_ => in_card s a b
  | W_ => in_card s b (2 * s - a)
  | S_ => in_card s (2 * s - a) (2 * s - b)
  | E_ => in_card s (2 * s - b) a
  | SW => in_diag s a b
  | NW => in_diag s (2 * s - a) b
  | SE => in_diag s a (2 * s - b)
  | NE => in_diag s (2 * s - a) (2 * s - b)
  end.

Definition raw (d : dir) (s : Z) : grid Q := if is_diagonal d then raw_diag s else raw_card s.
Definition ksum (d : dir) (s : Z) : Q := grid_sum (raw d s).

Lemma kern_shape d s : g_rows (kern d s) = 2 * s + 1 /\ g_cols (kern d s) = 2 * s + 1.
Proof.
  pose proof (raw_diag_shape s) as [D1 D2]. pose proof (raw_card_shape s) as [C1 C2].
  destruct d; cbn [kern]; unfold init_kern, init_kern_diag, rot90, flipud, fliplr, normalise, gmap; cbn [g_rows g_cols];
    first [fold (raw_diag s) | fold (raw_card s)]; cbv zeta; cbn [g_rows g_cols]; try fold (raw_card s); auto.
Qed.

Lemma kern_at d s a b : 1 <= s -> g_at (kern d s) a b = ((if P_ d s a b then 1 else 0) / ksum d s)%Q.
Proof.
  intros Hs. pose proof (raw_diag_shape s) as [D1 D2]. pose proof (raw_card_shape s) as [C1 C2].
  assert (NC : forall x y, g_at (init_kern s) x y = ((if in_card s x y then 1 else 0) / grid_sum (raw_card s))%Q).
  { intros x y. change (g_at (init_kern s) x y) with (g_at (raw_card s) x y / grid_sum (raw_card s))%Q. rewrite raw_card_at by exact Hs. reflexivity. }
  assert (ND : forall x y, g_at (init_kern_diag s) x y = ((if in_diag s x y then 1 else 0) / grid_sum (raw_diag s))%Q).
  { intros x y. change (g_at (init_kern_diag s) x y) with (g_at (raw_diag s) x y / grid_sum (raw_diag s))%Q. rewrite raw_diag_at. reflexivity. }
  assert (SC : g_rows (init_kern s) = 2 * s + 1 /\ g_cols (init_kern s) = 2 * s + 1) by exact (conj C1 C2).
  assert (SD : g_rows (init_kern_diag s) = 2 * s + 1 /\ g_cols (init_kern_diag s) = 2 * s + 1) by exact (conj D1 D2).
  destruct SC as [S1 S2]. destruct SD as [S3 S4].
  destruct d; cbn [kern]; unfold rot90, flipud, fliplr; cbn [g_rows g_cols g_at]; rewrite ?S1, ?S2, ?S3, ?S4, ?NC, ?ND; unfold ksum, raw; cbn [is_diagonal P_];
    replace (2 * s + 1 - 1 - (2 * s + 1 - 1 - a)) with a by lia; replace (2 * s + 1 - 1 - a) with (2 * s - a) by lia;
    replace (2 * s + 1 - 1 - b) with (2 * s - b) by lia; reflexivity.
Qed.

Lemma in_shield d s p : In p (shield_cells d s) <-> P_ d s (s - fst p) (s - snd p) = true.
Proof.
  destruct p as [x y]. cbn [fst snd].
  assert (Card : forall ur uc, In (x, y) (flat_map (fun k => map (fun t => (k * ur + t * uc, k * uc + t * ur)) (if k =? 1 then [0] else [-1; 0; 1])) (range2 1 (s + 1))) <->
     exists k t, 1 <= k <= s /\ (t = 0 \/ (2 <= k /\ -1 <= t <= 1)) /\ x = k * ur + t * uc /\ y = k * uc + t * ur).
  { intros ur uc. rewrite in_flat_map. split.
    - intros (k & Hk & H). apply in_range2 in Hk. apply in_map_iff in H. destruct H as (t & Et & Ht). injection Et as <- <-. exists k, t.
      split; [lia|]. split; [|auto]. destruct (Z.eqb_spec k 1); cbn [In] in Ht; lia.
    - intros (k & t & Hk & Ht & -> & ->). exists k. split; [apply in_range2; lia|]. apply in_map_iff. exists t. split; [reflexivity|].
      destruct (Z.eqb_spec k 1); cbn [In]; lia. }
  assert (Diag : forall ur uc, In (x, y) (flat_map (fun x => map (fun y => (y * ur, x * uc)) (range2 1 (s + 2 - x))) (range2 1 (s + 1))) <->
     exists k t, 1 <= k /\ 1 <= t /\ k + t <= s + 1 /\ x = t * ur /\ y = k * uc).
  { intros ur uc. rewrite in_flat_map. split.
    - intros (k & Hk & H). apply in_range2 in Hk. apply in_map_iff in H. destruct H as (t & Et & Ht). apply in_range2 in Ht. injection Et as <- <-. exists k, t. lia.
    - intros (k & t & Hk & Ht & Hs & -> & ->). exists k. split; [apply in_range2; lia|]. apply in_map_iff. exists t. split; [reflexivity|]. apply in_range2. lia. }
  unfold shield_cells. destruct d; cbn [upwind is_diagonal P_]; rewrite ?Card, ?Diag; unfold in_card, in_diag;
    rewrite ?orb_true_iff, !andb_true_iff, !Z.leb_le, ?Z.ltb_lt, ?Z.eqb_eq.
  all: split.
  all: try (intros (k & t & H); lia).
  - intros H. exists (- x), (- y). lia.
  - intros H. exists x, y. lia.
  - intros H. exists y, x. lia.
  - intros H. exists (- y), (- x). lia.
  - intros H. exists y, (- x). lia.
  - intros H. exists (- y), (- x). lia.
  - intros H. exists y, x. lia.
  - intros H. exists (- y), x. lia.
Qed.

Lemma P_bounds d s a b : 1 <= s -> P_ d s a b = true -> 0 <= a < 2 * s + 1 /\ 0 <= b < 2 * s + 1.
Proof.
  intros Hs. destruct d; cbn [P_]; unfold in_card, in_diag; rewrite ?orb_true_iff, !andb_true_iff, !Z.leb_le, ?Z.ltb_lt, ?Z.eqb_eq; lia.
Qed.

Lemma shield_NoDup d s : NoDup (shield_cells d s).
Proof.
  assert (R : forall a b, NoDup (range2 a b)).
  { intros a b. unfold range2. apply FinFun.Injective_map_NoDup; [intros x y; lia|apply zrange_NoDup]. }
  assert (T : forall k : Z, NoDup (if k =? 1 then [0] else [-1; 0; 1])).
  { intros k. destruct (k =? 1); repeat constructor; cbn; lia. }
  unfold shield_cells. destruct d; cbn [upwind is_diagonal].
  all: apply NoDup_flat; [apply R|intros k Hk; apply FinFun.Injective_map_NoDup; [intros x y E; injection E; lia|first [apply T|apply R]]|].
  all: intros x y z _ _ H1 H2; apply in_map_iff in H1, H2; destruct H1 as (t & <- & _), H2 as (u & E & _); injection E; lia.
Qed.

Lemma range2_one a : range2 a (a + 1) = [a].
Proof. unfold range2. replace (a + 1 - a) with 1 by lia. change (zrange 1) with [0]. cbn [map]. rewrite Z.add_0_r. reflexivity. Qed.

Lemma shield_length d s : 1 <= s ->
  zlen (shield_cells d s) = if is_diagonal d then s * (s + 1) / 2 else 3 * s - 2.
Proof.
  intros Hs.
  assert (C : forall (f : Z -> Z -> Z * Z) n, 1 <= n ->
     zlen (flat_map (fun k => map (f k) (if k =? 1 then [0] else [-1; 0; 1])) (range2 1 (n + 1))) = 3 * n - 2).
  { intros f. apply (Z.right_induction (fun n => zlen _ = 3 * n - 2)); [intros x y ->; reflexivity|reflexivity|].
    intros n Hn IH. rewrite (range2_app 1 (n + 1) (Z.succ n + 1)) by lia. rewrite flat_map_app. unfold zlen in *. rewrite app_length, Nat2Z.inj_add, IH.
    replace (Z.succ n + 1) with (n + 1 + 1) by lia.
    rewrite range2_one.
    cbn [flat_map]. rewrite app_nil_r, map_length. destruct (Z.eqb_spec (n + 1) 1); [lia|]. change (Z.of_nat (length [-1; 0; 1])) with 3. lia. }
  assert (D : forall (f : Z -> Z -> Z * Z) m n, 1 <= n <= m ->
     2 * zlen (flat_map (fun x => map (f x) (range2 1 (m + 2 - x))) (range2 1 (n + 1))) = n * (2 * m + 1 - n)).
  { intros f m n [Hn Hm]. revert n Hn Hm. apply (Z.right_induction (fun n => n <= m -> 2 * zlen _ = n * (2 * m + 1 - n))); [intros x y ->; reflexivity| |].
    - intros Hm. change (range2 1 (1 + 1)) with [1]. cbn [flat_map]. rewrite app_nil_r, zlen_map. unfold zlen. rewrite range2_length. lia.
    - intros n Hn IH Hm. rewrite (range2_app 1 (n + 1) (Z.succ n + 1)) by lia. rewrite flat_map_app.
      replace (Z.succ n + 1) with (n + 1 + 1) by lia.
      rewrite range2_one.
      cbn [flat_map]. rewrite app_nil_r. specialize (IH ltac:(lia)). unfold zlen in *. rewrite app_length, Nat2Z.inj_add, map_length, range2_length.
      rewrite Z2Nat.id by lia. rewrite Z.mul_add_distr_l, IH. ring_simplify. nia. }
  unfold shield_cells. destruct d; cbn [upwind is_diagonal]; try (apply (C (fun k t => _)); exact Hs).
  all: apply (Z.div_unique_exact _ 2); [lia|]; rewrite D by lia; ring.
Qed.

Lemma pairs_NoDup n m : NoDup (pairs n m).
Proof.
  unfold pairs. apply NoDup_flat; [apply zrange_NoDup| |].
  - intros a _. apply FinFun.Injective_map_NoDup; [intros x y E; injection E; auto|apply zrange_NoDup].
  - intros x y z _ _ H1 H2. apply in_map_iff in H1, H2. destruct H1 as (t & <- & _), H2 as (u & E & _). injection E; auto.
Qed.

(** The kernel's cells, as pixel offsets. *)
Definition offset (s : Z) (p : Z * Z) : Z * Z := (s - fst p, s - snd p).
Lemma offset_inj s p q : offset s p = offset s q -> p = q.
Proof. destruct p, q. unfold offset. cbn [fst snd]. intros E. injection E. intros. f_equal; lia. Qed.

Lemma P_permutation d s : 1 <= s ->
  Permutation (map (offset s) (filter (fun p => P_ d s (fst p) (snd p)) (pairs (2 * s + 1) (2 * s + 1)))) (shield_cells d s).
Proof.
  intros Hs. apply NoDup_Permutation.
  - apply FinFun.Injective_map_NoDup; [intros p q; apply offset_inj|]. apply NoDup_filter. apply pairs_NoDup.
  - apply shield_NoDup.
  - intros p. rewrite in_shield, in_map_iff. split.
    + intros (q & <- & H). apply filter_In in H. destruct H as [_ H]. unfold offset. cbn [fst snd].
      replace (s - (s - fst q)) with (fst q) by lia. replace (s - (s - snd q)) with (snd q) by lia. exact H.
    + intros H. exists (offset s p). split; [unfold offset; destruct p; cbn [fst snd]; f_equal; lia|]. apply filter_In. split; [|exact H].
      apply in_pairs. apply (P_bounds d s); assumption.
Qed.

Lemma ksum_eq d s : 1 <= s -> (ksum d s == inject_Z (zlen (shield_cells d s)))%Q.
Proof.
  intros Hs. unfold ksum, grid_sum. rewrite cells_pairs.
  assert (R : g_rows (raw d s) = 2 * s + 1 /\ g_cols (raw d s) = 2 * s + 1) by (unfold raw; destruct (is_diagonal d); [apply raw_diag_shape|apply raw_card_shape]).
  destruct R as [-> ->].
  assert (L : forall d', is_diagonal d' = is_diagonal d -> zlen (shield_cells d' s) = zlen (shield_cells d s)).
  { intros d' E. rewrite !shield_length by exact Hs. rewrite E. reflexivity. }
  set (d0 := if is_diagonal d then SW else N_).
  assert (E0 : is_diagonal d0 = is_diagonal d) by (unfold d0; destruct (is_diagonal d); reflexivity).
  rewrite (indicator_sum (fun p => P_ d0 s (fst p) (snd p))).
  - rewrite <- (L d0 E0). unfold zlen. rewrite <- (Permutation_length (P_permutation d0 s Hs)), map_length. reflexivity.
  - intros p _. unfold raw, d0. destruct (is_diagonal d); cbn [P_]; [apply raw_diag_at|apply raw_card_at; exact Hs].
Qed.
Lemma shield_pos d s : 1 <= s -> 1 <= zlen (shield_cells d s).
Proof.
  intros Hs. rewrite shield_length by exact Hs. destruct (is_diagonal d); [|lia]. apply Z.div_le_lower_bound; [lia|]. nia.
Qed.
Lemma ksum_pos d s : 1 <= s -> (0 < ksum d s)%Q.
Proof. intros Hs. rewrite ksum_eq by exact Hs. pose proof (shield_pos d s Hs). change 0%Q with (inject_Z 0). apply inject_Z_lt. lia. Qed.

Lemma kernel_cells_eq d s : 1 <= s ->
  kernel_cells (kern d s) = filter (fun p => P_ d s (fst p) (snd p)) (pairs (2 * s + 1) (2 * s + 1)).
Proof.
  intros Hs. unfold kernel_cells. destruct (kern_shape d s) as [-> ->]. fold (pairs (2 * s + 1) (2 * s + 1)). apply filter_ext. intros p. rewrite kern_at by exact Hs.
  pose proof (ksum_pos d s Hs) as K. destruct (P_ d s (fst p) (snd p)).
  - destruct (Qeq_bool _ 0) eqn:E; [|reflexivity]. apply Qeq_bool_eq in E. exfalso.
    assert (X : (0 < 1 / ksum d s)%Q) by (apply Qlt_shift_div_l; lra). lra.
  - assert (X : (0 / ksum d s == 0)%Q) by (unfold Qdiv; ring). apply Qeq_eq_bool in X. rewrite X. reflexivity.
Qed.
Lemma kernel_permutation d s : 1 <= s -> Permutation (map (offset s) (kernel_cells (kern d s))) (shield_cells d s).
Proof. intros Hs. rewrite kernel_cells_eq by exact Hs. apply P_permutation. exact Hs. Qed.

(** ** Sums and means with NaN *)
Lemma num_sum_perm l l' : Permutation l l' ->
  match num_sum l, num_sum l' with Some a, Some b => (a == b)%Q | None, None => True | _, _ => False end.
Proof.
  induction 1 as [|x l l' H IH|x y l|l1 l2 l3 H1 IH1 H2 IH2].
  - cbn. reflexivity.
  - cbn [num_sum]. destruct x; [exact I|]. destruct (num_sum l), (num_sum l'); try contradiction; [rewrite IH; reflexivity|exact I].
  - cbn [num_sum]. destruct x, y; try exact I; destruct (num_sum l); try exact I. ring.
  - destruct (num_sum l1), (num_sum l2), (num_sum l3); try contradiction; try exact I. rewrite IH1. exact IH2.
Qed.
Lemma num_mean_perm l l' : Permutation l l' -> same_num (num_mean l) (num_mean l').
Proof.
  intros H. pose proof (num_sum_perm l l' H) as K. unfold num_mean, zlen. rewrite (Permutation_length H).
  destruct (num_sum l), (num_sum l'); try contradiction; cbn; [rewrite K; reflexivity|exact I].
Qed.
Lemma num_sum_none l : num_sum l = None <-> In NaN l.
Proof.
  induction l as [|[|q] l IH]; cbn [num_sum In].
  - split; [discriminate|tauto].
  - tauto.
  - destruct (num_sum l); (split; [intros X|intros [X|X]]); try discriminate; try (apply IH in X; discriminate); try reflexivity.
    right. apply IH. reflexivity.
Qed.
Lemma nan_fold {A} (f : A -> num) l : fold_left (fun acc p => nadd acc (f p)) l NaN = NaN.
Proof. induction l as [|x l IH]; [reflexivity|exact IH]. Qed.
Lemma weighted_fold {A} (v : A -> num) (w : A -> Q) (w0 : Q) l : (forall x, In x l -> (w x == w0)%Q) -> forall a,
  match num_sum (map v l) with
  | None => fold_left (fun acc p => nadd acc (nscale (w p) (v p))) l (Num a) = NaN
  | Some s => exists q, fold_left (fun acc p => nadd acc (nscale (w p) (v p))) l (Num a) = Num q /\ (q == a + w0 * s)%Q
  end.
Proof.
  induction l as [|x l IH]; intros H a; cbn [map num_sum fold_left].
  - exists a. split; [reflexivity|ring].
  - destruct (v x) as [|q] eqn:E; cbn [nscale nadd]; [apply (nan_fold (fun p => nscale (w p) (v p)))|].
    specialize (IH (fun y Hy => H y (or_intror Hy)) (a + w x * q)%Q). destruct (num_sum (map v l)) as [s|]; [|exact IH].
    destruct IH as (r & Er & Hr). exists r. split; [exact Er|]. rewrite Hr, (H x (or_introl eq_refl)). ring.
Qed.

Lemma cval_seen im r c : cval im r c = seen im r c.
Proof. reflexivity. Qed.

(** ** The blur *)
Lemma blur_mean d s im i j : 1 <= s ->
  same_num (g_at (blur im (kern d s)) i j) (num_mean (map (fun o => seen im (i + fst o) (j + snd o)) (shield_cells d s))).
Proof.
  intros Hs. unfold blur. cbn [g_at]. destruct (kern_shape d s) as [-> ->]. replace ((2 * s + 1) / 2) with s by (apply (Z.div_unique _ 2 s 1); lia).
  pose proof (kernel_permutation d s Hs) as Pm. apply (Permutation_map (fun o => seen im (i + fst o) (j + snd o))) in Pm.
  rewrite map_map in Pm. eapply same_num_trans; [|apply num_mean_perm; exact Pm].
  pose proof (weighted_fold (fun p => cval im (i - (fst p - s)) (j - (snd p - s))) (fun p => g_at (kern d s) (fst p) (snd p))
    (1 / ksum d s)%Q (kernel_cells (kern d s))) as W.
  assert (Ev : map (fun p => cval im (i - (fst p - s)) (j - (snd p - s))) (kernel_cells (kern d s)) =
               map (fun p => seen im (i + fst (offset s p)) (j + snd (offset s p))) (kernel_cells (kern d s))).
  { apply map_ext. intros p. rewrite cval_seen. unfold offset. cbn [fst snd]. f_equal; lia. }
  rewrite Ev in W. unfold num_mean.
  assert (Hw : forall x, In x (kernel_cells (kern d s)) -> (g_at (kern d s) (fst x) (snd x) == 1 / ksum d s)%Q).
  { intros x Hx. rewrite kernel_cells_eq in Hx by exact Hs. apply filter_In in Hx. rewrite kern_at by exact Hs. rewrite (proj2 Hx). reflexivity. }
  specialize (W Hw 0%Q). destruct (num_sum _) as [q|].
  - destruct W as (r & -> & Hr). cbn. rewrite Hr. rewrite zlen_map.
    assert (L : zlen (kernel_cells (kern d s)) = zlen (shield_cells d s)).
    { pose proof (Permutation_length (kernel_permutation d s Hs)) as L. rewrite map_length in L. unfold zlen. rewrite L. reflexivity. }
    rewrite L, ksum_eq by exact Hs. field. intros Z0. pose proof (ksum_pos d s Hs) as K. rewrite ksum_eq in K by exact Hs. lra.
  - rewrite W. exact I.
Qed.
