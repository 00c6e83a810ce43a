From Coq Require Import Permutation.
From Verif Require Import Base BaseLemmas NameModel TerrModel TerrSpec TerrProofs ShldModel ShldSpec.
Open Scope Z_scope.

(** ** Aspect *)
Lemma nge_num a q : nge (Num a) q = true <-> (q <= a)%Q. Proof. apply Qleb_le. Qed.

Lemma reclassify_eq a : reclassify_aspect (Num a) =
  if Qltb a 0 then 9 else if Qltb a (225#10) then 1 else if Qltb a (675#10) then 2 else if Qltb a (1125#10) then 3
  else if Qltb a (1575#10) then 4 else if Qltb a (2025#10) then 5 else if Qltb a (2475#10) then 6 else if Qltb a (2925#10) then 7
  else if Qltb a (3375#10) then 8 else if Qleb a 360 then 1 else 9.
Proof.
  unfold reclassify_aspect. change (range2 2 9) with [2;3;4;5;6;7;8]. cbn [fold_left nge nlt nle].
  assert (L : forall x y y', (y == y')%Q -> Qleb x y = Qleb x y').
  { intros x y y' H. apply eq_true_iff_eq. rewrite !Qleb_le, H. reflexivity. }
  assert (T : forall x x' y, (x == x')%Q -> Qleb x y = Qleb x' y).
  { intros x x' y H. apply eq_true_iff_eq. rewrite !Qleb_le, H. reflexivity. }
  rewrite (T ((225#10) + inject_Z (2 - 2) * 45)%Q (225#10)) by reflexivity.
  rewrite (T ((225#10) + inject_Z (3 - 2) * 45)%Q (675#10)) by reflexivity.
  rewrite (T ((225#10) + inject_Z (4 - 2) * 45)%Q (1125#10)) by reflexivity.
  rewrite (T ((225#10) + inject_Z (5 - 2) * 45)%Q (1575#10)) by reflexivity.
  rewrite (T ((225#10) + inject_Z (6 - 2) * 45)%Q (2025#10)) by reflexivity.
  rewrite (T ((225#10) + inject_Z (7 - 2) * 45)%Q (2475#10)) by reflexivity.
  rewrite (T ((225#10) + inject_Z (8 - 2) * 45)%Q (2925#10)) by reflexivity.
  rewrite (Qltb_comp a a ((675#10) + inject_Z (2 - 2) * 45)%Q (675#10)) by reflexivity.
  rewrite (Qltb_comp a a ((675#10) + inject_Z (3 - 2) * 45)%Q (1125#10)) by reflexivity.
  rewrite (Qltb_comp a a ((675#10) + inject_Z (4 - 2) * 45)%Q (1575#10)) by reflexivity.
  rewrite (Qltb_comp a a ((675#10) + inject_Z (5 - 2) * 45)%Q (2025#10)) by reflexivity.
  rewrite (Qltb_comp a a ((675#10) + inject_Z (6 - 2) * 45)%Q (2475#10)) by reflexivity.
  rewrite (Qltb_comp a a ((675#10) + inject_Z (7 - 2) * 45)%Q (2925#10)) by reflexivity.
  rewrite (Qltb_comp a a ((675#10) + inject_Z (8 - 2) * 45)%Q (3375#10)) by reflexivity.
  assert (Neg : forall q, Qleb q a = negb (Qltb a q)).
  { intros q. unfold Qltb, Qleb. rewrite negb_involutive. reflexivity. }
  rewrite !Neg.
  destruct (Qltb a 0) eqn:E0.
  { apply Qltb_lt in E0.
    repeat match goal with |- context [Qltb a ?q] => rewrite (proj2 (Qltb_lt a q)) by lra end. reflexivity. }
  apply Qltb_ge in E0.
  repeat match goal with
  | |- context [if Qltb a ?q then _ else if _ then _ else _] => idtac
  end.
  destruct (Qltb a (225#10)) eqn:E1;
  [apply Qltb_lt in E1; repeat match goal with |- context [Qltb a ?q] => rewrite (proj2 (Qltb_lt a q)) by lra end; reflexivity|apply Qltb_ge in E1].
  destruct (Qltb a (675#10)) eqn:E2;
  [apply Qltb_lt in E2; repeat match goal with |- context [Qltb a ?q] => rewrite (proj2 (Qltb_lt a q)) by lra end; reflexivity|apply Qltb_ge in E2].
  destruct (Qltb a (1125#10)) eqn:E3;
  [apply Qltb_lt in E3; repeat match goal with |- context [Qltb a ?q] => rewrite (proj2 (Qltb_lt a q)) by lra end; reflexivity|apply Qltb_ge in E3].
  destruct (Qltb a (1575#10)) eqn:E4;
  [apply Qltb_lt in E4; repeat match goal with |- context [Qltb a ?q] => rewrite (proj2 (Qltb_lt a q)) by lra end; reflexivity|apply Qltb_ge in E4].
  destruct (Qltb a (2025#10)) eqn:E5;
  [apply Qltb_lt in E5; repeat match goal with |- context [Qltb a ?q] => rewrite (proj2 (Qltb_lt a q)) by lra end; reflexivity|apply Qltb_ge in E5].
  destruct (Qltb a (2475#10)) eqn:E6;
  [apply Qltb_lt in E6; repeat match goal with |- context [Qltb a ?q] => rewrite (proj2 (Qltb_lt a q)) by lra end; reflexivity|apply Qltb_ge in E6].
  destruct (Qltb a (2925#10)) eqn:E7;
  [apply Qltb_lt in E7; repeat match goal with |- context [Qltb a ?q] => rewrite (proj2 (Qltb_lt a q)) by lra end; reflexivity|apply Qltb_ge in E7].
  destruct (Qltb a (3375#10)) eqn:E8;
  [apply Qltb_lt in E8; repeat match goal with |- context [Qltb a ?q] => rewrite (proj2 (Qltb_lt a q)) by lra end; reflexivity|apply Qltb_ge in E8].
  destruct (Qleb a 360); reflexivity.
Qed.

Lemma sector_unwind d a : (0 <= a <= 360)%Q ->
  (in_sector d a <-> (bearing d - (225#10) <= a /\ a < bearing d + (225#10))%Q \/
     (d = N_ /\ (3375#10 <= a)%Q)).
Proof.
  intros Ha. unfold in_sector. split.
  - intros (k & H1 & H2).
    assert (Hk : k = 0 \/ k = -1).
    { assert (B1 : (bearing d <= 315)%Q) by (destruct d; cbn; lra). assert (B0 : (0 <= bearing d)%Q) by (destruct d; cbn; lra).
      assert (L1 : k < 1) by (apply inject_Z_lt_inv; change (inject_Z 1) with 1%Q; lra).
      assert (L2 : -2 < k) by (apply inject_Z_lt_inv; change (inject_Z (-2)) with (-2)%Q; lra). lia. }
    destruct Hk as [-> | ->].
    + left. change (inject_Z 0) with 0%Q in *. lra.
    + right. change (inject_Z (-1)) with (-1)%Q in *. destruct d; cbn [bearing] in *; try (exfalso; lra). split; [reflexivity|lra].
  - intros [H|[-> H]]; [exists 0|exists (-1)].
    + change (inject_Z 0) with 0%Q. lra.
    + change (inject_Z (-1)) with (-1)%Q. cbn [bearing]. lra.
Qed.

Lemma aspect_class d a : (0 <= a <= 360)%Q -> (reclassify_aspect (Num a) = dire_aspect d <-> in_sector d a).
Proof.
  intros Ha. rewrite sector_unwind by exact Ha. rewrite reclassify_eq.
  rewrite (proj2 (Qltb_ge a 0)) by lra.
  repeat match goal with |- context [Qltb a ?q] => let E := fresh "E" in destruct (Qltb a q) eqn:E; [apply Qltb_lt in E|apply Qltb_ge in E] end;
  try (rewrite (proj2 (Qleb_le a 360)) by lra);
  (split; [intros X; destruct d; try discriminate X; cbn [bearing]; first [left; lra | right; split; [reflexivity|lra]]
          | intros [X|[X Y]]; [destruct d; cbn [bearing] in X; first [reflexivity|exfalso; lra] | subst d; first [reflexivity|exfalso; lra]]]).
Qed.

(** ** combine *)
Lemma combine_spec d s asp v :
  exists w, combine_cell d (Num s) asp (Num v) = Num w /\
    (w == less_conservative (if asp =? dire_aspect d then v + slope_weight s * (1 - v) else v))%Q.
Proof.
  unfold combine_cell. cbv zeta. cbn [nge ngt nlt]. eexists. split; [reflexivity|].
  assert (P : forall x y, (x == y)%Q -> ((if Qltb x (9#10) then x * (9#10) else x * x) == less_conservative y)%Q).
  { intros x y H. unfold less_conservative. rewrite <- (Qltb_comp x y (9#10) (9#10) H ltac:(reflexivity)). destruct (Qltb x (9#10)); rewrite H; ring. }
  apply P. unfold slope_weight. destruct (asp =? dire_aspect d); [|rewrite !andb_false_r; reflexivity]. rewrite !andb_true_r.
  destruct (Qleb s (327#100)) eqn:E1.
  - apply Qleb_le in E1. rewrite (proj2 (Qleb_gt (1230#100) s)) by lra. rewrite (proj2 (Qltb_ge (327#100) s)) by lra. cbn [andb]. ring.
  - apply Qleb_gt in E1. rewrite (proj2 (Qltb_lt (327#100) s)) by lra. cbn [andb].
    destruct (Qleb (1230#100) s) eqn:E2.
    + apply Qleb_le in E2. rewrite (proj2 (Qltb_ge s (1230#100))) by lra. ring.
    + apply Qleb_gt in E2. rewrite (proj2 (Qltb_lt s (1230#100))) by lra. field.
Qed.
Lemma combine_nan_slope d asp v :
  exists w, combine_cell d NaN asp (Num v) = Num w /\ (w == less_conservative v)%Q.
Proof.
  unfold combine_cell. cbv zeta. cbn [nge ngt nlt andb]. eexists. split; [reflexivity|]. unfold less_conservative. destruct (Qltb v (9#10)); ring.
Qed.
Lemma combine_missing d s asp v : combine_cell d s asp v = NaN <-> v = NaN.
Proof. destruct v; unfold combine_cell; cbv zeta; split; congruence. Qed.

Lemma less_cons_mono x y : (0 <= x)%Q -> (x <= y)%Q -> (less_conservative x <= less_conservative y)%Q.
Proof.
  intros H0 H. unfold less_conservative. destruct (Qltb x (9#10)) eqn:E1, (Qltb y (9#10)) eqn:E2;
    try apply Qltb_lt in E1; try apply Qltb_ge in E1; try apply Qltb_lt in E2; try apply Qltb_ge in E2; try lra.
  - assert ((9#10) * (9#10) <= y * y)%Q by (apply Qmult_le_compat_nonneg; lra). lra.
  - apply Qmult_le_compat_nonneg; lra.
Qed.
Lemma less_cons_range x : (0 < x <= 1)%Q -> (0 < less_conservative x <= 1)%Q.
Proof.
  intros H. unfold less_conservative. destruct (Qltb x (9#10)) eqn:E; [apply Qltb_lt in E; lra|apply Qltb_ge in E].
  split; [apply Qmult_lt_0_compat; lra|]. setoid_replace 1%Q with (1 * 1)%Q by reflexivity. apply Qmult_le_compat_nonneg; lra.
Qed.
Lemma slope_weight_range s : (0 <= slope_weight s <= 1)%Q.
Proof.
  unfold slope_weight. destruct (Qleb s (327#100)) eqn:E1; [lra|]. destruct (Qleb (1230#100) s) eqn:E2; [lra|].
  apply Qleb_gt in E1, E2. split; [apply Qle_shift_div_l|apply Qle_shift_div_r]; lra.
Qed.
Lemma slope_weight_mono s t : (s <= t)%Q -> (slope_weight s <= slope_weight t)%Q.
Proof.
  intros H. pose proof (slope_weight_range s). pose proof (slope_weight_range t). unfold slope_weight in *.
  destruct (Qleb s (327#100)) eqn:E1; [lra|]. apply Qleb_gt in E1. rewrite (proj2 (Qleb_gt t (327#100))) in * by lra.
  destruct (Qleb (1230#100) t) eqn:E3; [lra|]. apply Qleb_gt in E3. rewrite (proj2 (Qleb_gt (1230#100) s)) in * by lra.
  unfold Qdiv. apply Qmult_le_compat_r; [lra|]. apply Qinv_le_0_compat. lra.
Qed.

(** ** Initial values *)
Lemma ms_missing cast nodata table data r c :
  g_at (class2ms cast nodata table data) r c = NaN <->
  (g_at data r c = -99 /\ (nodata = Some (-99) -> cast (-99) = -99)) \/ (nodata = Some (g_at data r c) /\ cast (-99) = -99).
Proof.
  unfold class2ms, gmap. cbn [g_at]. set (x := g_at data r c).
  assert (F : forall y l a, a <> NaN -> fold_left (fun acc row => if y =? fst row then Num (snd row / 100) else acc) l a <> NaN).
  { intros y l. induction l as [|row l IH]; intros a Ha; [exact Ha|]. cbn [fold_left]. apply IH. destruct (y =? fst row); [discriminate|exact Ha]. }
  destruct nodata as [n|].
  - destruct (Z.eqb_spec x n) as [->|N].
    + destruct (Z.eqb_spec (cast (-99)) (-99)) as [C|C].
      * split; [auto|reflexivity].
      * split.
        -- intros K. exfalso. revert K. apply F. discriminate.
        -- intros [[K1 K2]|[_ K]]; [|contradiction]. exfalso. apply C, K2. congruence.
    + destruct (Z.eqb_spec x (-99)) as [->|M].
      * split; [|reflexivity]. intros _. left. split; [reflexivity|]. intros K. injection K as ->. contradiction.
      * split.
        -- intros K. exfalso. revert K. apply F. discriminate.
        -- intros [[K _]|[K _]]; [contradiction|]. injection K as ->. contradiction.
  - destruct (Z.eqb_spec x (-99)) as [->|M].
    + split; [|reflexivity]. intros _. left. split; [reflexivity|discriminate].
    + split.
      * intros K. exfalso. revert K. apply F. discriminate.
      * intros [[K _]|[K _]]; [contradiction|discriminate].
Qed.

Definition ms_reclass (x : Z) (t : list (Z * Q)) (a : num) : num :=
  fold_left (fun acc row => if x =? fst row then Num (snd row / 100) else acc) t a.
Lemma ms_unlisted x t a : ~ In x (map fst t) -> ms_reclass x t a = a.
Proof.
  revert a. induction t as [|y t IH]; intros a H; [reflexivity|]. unfold ms_reclass in *. cbn [fold_left].
  cbn [map In] in H. destruct (Z.eqb_spec x (fst y)) as [->|]; [tauto|]. apply IH. tauto.
Qed.
Lemma ms_last x l1 l2 v a : ~ In x (map fst l2) -> ms_reclass x (l1 ++ (x, v) :: l2) a = Num (v / 100).
Proof.
  intros H. unfold ms_reclass. rewrite fold_left_app. cbn [fold_left fst snd]. rewrite Z.eqb_refl. apply (ms_unlisted x l2 _ H).
Qed.
Lemma ms_value cast nodata table data r c : nodata <> Some (g_at data r c) -> g_at data r c <> -99 ->
  g_at (class2ms cast nodata table data) r c = ms_reclass (g_at data r c) table (Num 1).
Proof.
  intros H1 H2. unfold class2ms, gmap. cbn [g_at].
  assert (E : match nodata with Some n => if g_at data r c =? n then cast (-99) else g_at data r c | None => g_at data r c end = g_at data r c).
  { destruct nodata as [n|]; [|reflexivity]. destruct (Z.eqb_spec (g_at data r c) n); [exfalso; apply H1; congruence|reflexivity]. }
  rewrite E. destruct (Z.eqb_spec (g_at data r c) (-99)); [contradiction|reflexivity].
Qed.
