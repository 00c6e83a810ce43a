(** * Proofs about changed land cover and tables. *)
From Coq Require Import Qabs.
From Verif Require Import Base BaseLemmas NameModel TerrModel TerrSpec TerrProofs TerrRunProofs ShldModel ShldSpec ShldProofs ShldKernProofs ShldProps ClipProofs SensSpec.
Open Scope Z_scope.

(** Both missing, or the second is at least the first plus [lo]. *)
Definition at_least (lo : Q) (x y : num) : Prop :=
  match x, y with NaN, NaN => True | Num a, Num b => (lo <= b - a)%Q | _, _ => False end.
Lemma at_least_same lo x x' y y' : same_num x x' -> same_num y y' -> at_least lo x' y' -> at_least lo x y.
Proof. destruct x, x', y, y'; cbn; try tauto. intros A B H. rewrite A, B. exact H. Qed.
Lemma no_smaller_at x y : no_smaller x y <-> at_least 0 x y.
Proof. destruct x, y; cbn; try tauto. split; intros H; lra. Qed.
Lemma within_at e x y : within e x y <-> at_least (- e) x y /\ at_least (- e) y x.
Proof. destruct x, y; cbn [within at_least]; try tauto. rewrite Qabs_le_iff. split; [intros H; split; lra|intros [H1 H2]; lra]. Qed.

Lemma qsum_shift lo l l' : Forall2 (fun a b => (lo <= b - a)%Q) l l' -> (inject_Z (zlen l) * lo <= qsum l' - qsum l)%Q /\ zlen l = zlen l'.
Proof.
  induction 1 as [|a b l l' H F [IH L]]; [split; [change (0 * lo <= 0 - 0)%Q; lra|reflexivity]|]. unfold zlen in *. cbn [length qsum fold_right]. rewrite !Nat2Z.inj_succ. split; [|lia].
  unfold Z.succ. rewrite inject_Z_plus. fold (qsum l). fold (qsum l'). change (inject_Z 1) with 1%Q. lra.
Qed.
Lemma mean_or_shift lo a a' l l' : (lo <= a' - a)%Q -> Forall2 (fun a b => (lo <= b - a)%Q) l l' -> (lo <= mean_or a' l' - mean_or a l)%Q.
Proof.
  intros H F. pose proof (qsum_shift lo l l' F) as [S L]. destruct l as [|x l]; inversion F as [|? b ? m]; subst; [exact H|].
  change (mean_or a (x :: l)) with (qsum (x :: l) / inject_Z (zlen (x :: l)))%Q. change (mean_or a' (b :: m)) with (qsum (b :: m) / inject_Z (zlen (b :: m)))%Q.
  rewrite <- L. assert (P : (0 < inject_Z (zlen (x :: l)))%Q) by (unfold zlen; cbn [length]; unfold Qlt; cbn; lia).
  set (n := inject_Z (zlen (x :: l))) in *. setoid_replace (qsum (b :: m) / n - qsum (x :: l) / n)%Q with ((qsum (b :: m) - qsum (x :: l)) / n)%Q by (field; lra).
  apply Qle_shift_div_l; [exact P|]. rewrite Qmult_comm. exact S.
Qed.
Lemma cell_mean_shift lo d (g g' : grid Q) avg lag i j : g_rows g' = g_rows g -> g_cols g' = g_cols g -> 0 <= i < g_rows g -> 0 <= j < g_cols g ->
  (forall r c, 0 <= r < g_rows g -> 0 <= c < g_cols g -> (lo <= g_at g' r c - g_at g r c)%Q) ->
  (lo <= cell_mean d g' avg lag i j - cell_mean d g avg lag i j)%Q.
Proof.
  intros Er Ec Hi Hj H. unfold cell_mean. rewrite Er, Ec. apply mean_or_shift; [apply H; assumption|]. unfold values.
  assert (B : forall p, In p (fetch d (g_rows g) (g_cols g) lag avg i j) -> (lo <= g_at g' (fst p) (snd p) - g_at g (fst p) (snd p))%Q).
  { intros p Hp. apply in_fetch in Hp. destruct Hp as (k & _ & _ & H1 & H2). apply H; assumption. }
  induction (fetch d (g_rows g) (g_cols g) lag avg i j) as [|p l IH]; [constructor|]. cbn [map]. constructor; [apply B; left; reflexivity|].
  apply IH. intros q Hq. apply B. right. exact Hq.
Qed.

Lemma terrain_dir_value d init avg lag o : 0 <= lag -> 0 <= avg -> 1 <= g_rows init -> 1 <= g_cols init -> terrain_dir d init avg lag = Ok o ->
  (g_rows init < lag /\ o = gmap Num (fill init)) \/
  (lag <= g_rows init /\ forall i j, 0 <= i < g_rows init -> 0 <= j < g_cols init ->
      same_num (g_at o i j) (masked (g_at init i j) (cell_mean d (fill init) (Z.min avg (g_rows init - lag)) lag i j))).
Proof.
  intros Hl Ha Hr Hc E. destruct (Z_lt_ge_dec (g_rows init) lag) as [S|S].
  - left. split; [exact S|]. rewrite terrain_dir_small in E by exact S. injection E as <-. reflexivity.
  - right. split; [lia|]. destruct (Z_lt_ge_dec (lag + 1) (extent_along d (g_rows init) (g_cols init))) as [X|X].
    + destruct (Z.eq_dec (Z.min avg (g_rows init - lag)) 0) as [Z0|Z0].
      * rewrite terrain_dir_err in E by lia. discriminate.
      * destruct (terrain_dir_ok d init avg lag) as (o' & E' & _ & _ & V); try lia. rewrite E in E'. injection E' as <-. exact V.
    + destruct (terrain_dir_ok d init avg lag) as (o' & E' & _ & _ & V); try lia. rewrite E in E'. injection E' as <-. exact V.
Qed.
Lemma terrain_dir_shift lo d (init init' : grid num) avg lag o o' i j : (lo <= 0)%Q -> 0 <= lag -> 0 <= avg ->
  g_rows init' = g_rows init -> g_cols init' = g_cols init -> 0 <= i < g_rows init -> 0 <= j < g_cols init ->
  (forall r c, 0 <= r < g_rows init -> 0 <= c < g_cols init -> at_least lo (g_at init r c) (g_at init' r c)) ->
  terrain_dir d init avg lag = Ok o -> terrain_dir d init' avg lag = Ok o' -> at_least lo (g_at o i j) (g_at o' i j).
Proof.
  intros Lo Hl Ha Er Ec Hi Hj H E E'.
  assert (F : forall r c, 0 <= r < g_rows init -> 0 <= c < g_cols init -> (lo <= g_at (fill init') r c - g_at (fill init) r c)%Q).
  { intros r c Hr Hc. specialize (H r c Hr Hc). unfold fill, gmap. cbn [g_at]. destruct (g_at init r c), (g_at init' r c); cbn in H; try contradiction; [lra|exact H]. }
  destruct (terrain_dir_value d init avg lag o Hl Ha ltac:(lia) ltac:(lia) E) as [[S ->]|[S V]];
    destruct (terrain_dir_value d init' avg lag o' Hl Ha ltac:(lia) ltac:(lia) E') as [[S' ->]|[S' V']]; try lia.
  - cbn [gmap g_at at_least]. apply F; assumption.
  - specialize (V i j Hi Hj). rewrite Er, Ec in V'. specialize (V' i j Hi Hj). eapply at_least_same; [exact V|exact V'|].
    pose proof (cell_mean_shift lo d (fill init) (fill init') (Z.min avg (g_rows init - lag)) lag i j Er Ec Hi Hj F) as M.
    specialize (H i j Hi Hj). destruct (g_at init i j), (g_at init' i j); cbn in H |- *; try contradiction; [exact I|exact M].
Qed.
Lemma terrain_shift lo fl table table' data data' gw l l' d o o' m m' i j : (lo <= 0)%Q -> fl_ok fl -> (0 < gw)%Q ->
  g_rows data' = g_rows data -> g_cols data' = g_cols data ->
  (forall r c, 0 <= r < g_rows data -> 0 <= c < g_cols data -> class_mult table (g_at data r c) (m r c) /\ class_mult table' (g_at data' r c) (m' r c) /\ at_least lo (m r c) (m' r c)) ->
  terrain fl table data gw = Ok (Some l) -> terrain fl table' data' gw = Ok (Some l') -> In (d, o) l -> In (d, o') l' ->
  0 <= i < g_rows data -> 0 <= j < g_cols data -> at_least lo (g_at o i j) (g_at o' i j).
Proof.
  intros Lo Hf Hg Er Ec H E E' Io Io' Hi Hj.
  destruct (terrain_skip_or_run _ _ _ _ _ E) as [|(x & X & _ & K)]; [discriminate|]. injection X as <-. specialize (K d o Io).
  destruct (terrain_skip_or_run _ _ _ _ _ E') as [|(x & X & _ & K')]; [discriminate|]. injection X as <-. specialize (K' d o' Io').
  destruct (widths_nonneg fl gw Hf Hg d) as [A B].
  assert (CM : forall t (g : grid Z) r c v, class_mult t (g_at g r c) v -> g_at (zero_to_nan (class2mz t g)) r c = v).
  { intros t g r c v C. destruct v as [|q]; [apply init_missing; exact C|]. destruct C. apply init_value; assumption. }
  apply (terrain_dir_shift lo d (zero_to_nan (class2mz table data)) (zero_to_nan (class2mz table' data')) (fst (widths fl gw d)) (snd (widths fl gw d))); try assumption.
  intros r c Hr Hc. destruct (H r c Hr Hc) as (C1 & C2 & C3). rewrite (CM _ _ _ _ _ C1), (CM _ _ _ _ _ C2). exact C3.
Qed.

(** ** Shielding *)
Lemma num_sum_shift lo l l' : Forall2 (at_least lo) l l' -> match num_sum l, num_sum l' with
  | Some s, Some s' => (inject_Z (zlen l) * lo <= s' - s)%Q | None, None => True | _, _ => False end /\ zlen l = zlen l'.
Proof.
  induction 1 as [|a b l l' H F [IH L]]; [split; [change (0 * lo <= 0 - 0)%Q; lra|reflexivity]|]. unfold zlen in *. cbn [length num_sum]. rewrite !Nat2Z.inj_succ. split; [|lia].
  destruct a as [|a], b as [|b]; cbn in H; try contradiction; [exact I|]. destruct (num_sum l), (num_sum l'); try contradiction; [|exact I].
  unfold Z.succ. rewrite inject_Z_plus. change (inject_Z 1) with 1%Q. lra.
Qed.
Lemma num_mean_shift lo l l' : l <> [] -> Forall2 (at_least lo) l l' -> at_least lo (num_mean l) (num_mean l').
Proof.
  intros N F. pose proof (num_sum_shift lo l l' F) as [S L]. unfold num_mean. rewrite <- L.
  assert (P : (0 < inject_Z (zlen l))%Q) by (destruct l; [contradiction|]; unfold zlen; cbn [length]; unfold Qlt; cbn; lia).
  set (n := inject_Z (zlen l)) in *. clearbody n. destruct (num_sum l) as [s|], (num_sum l') as [s'|]; try contradiction; [|exact I]. cbn.
  setoid_replace (s' / n - s / n)%Q with ((s' - s) / n)%Q by (field; lra). apply Qle_shift_div_l; [exact P|]. rewrite Qmult_comm. exact S.
Qed.
Lemma less_cons_lipschitz x y : (0 <= x)%Q -> (x <= y)%Q -> (y <= 1)%Q -> (less_conservative y - less_conservative x <= 2 * (y - x))%Q.
Proof.
  intros H0 H H1. unfold less_conservative. destruct (Qltb x (9#10)) eqn:A, (Qltb y (9#10)) eqn:B;
    try apply Qltb_lt in A; try apply Qltb_ge in A; try apply Qltb_lt in B; try apply Qltb_ge in B.
  - lra.
  - assert (P : (0 <= (y - (9#10)) * ((11#10) - y))%Q) by (apply Qmult_le_0_compat; lra). nra.
  - lra.
  - assert (P : (0 <= (y - x) * (2 - y - x))%Q) by (apply Qmult_le_0_compat; lra). nra.
Qed.
Lemma corrected_shift e w v v' : (0 <= w <= 1)%Q -> (- e <= v' - v)%Q -> (0 <= e)%Q -> (- e <= (v' + w * (1 - v')) - (v + w * (1 - v)))%Q.
Proof.
  intros Hw H He. setoid_replace ((v' + w * (1 - v')) - (v + w * (1 - v)))%Q with ((1 - w) * (v' - v))%Q by ring.
  assert (P : (0 <= (1 - w) * (v' - v + e))%Q) by (apply Qmult_le_0_compat; lra). assert (P2 : (0 <= w * e)%Q) by (apply Qmult_le_0_compat; lra). lra.
Qed.
Lemma corrected_unit w v : (0 <= w <= 1)%Q -> (0 <= v <= 1)%Q -> (0 <= v + w * (1 - v) <= 1)%Q.
Proof.
  intros Hw Hv. assert (P : (0 <= w * (1 - v))%Q) by (apply Qmult_le_0_compat; lra). assert (P2 : (0 <= (1 - w) * (1 - v))%Q) by (apply Qmult_le_0_compat; lra). lra.
Qed.

(** The mean initial shielding over the cells that shield a pixel. *)
Section Shield.
  Variables (cast : Z -> Z) (table table' : list (Z * Q)) (t t' : grid Z) (q q' : Z -> Z -> Q).
  Hypothesis Er : g_rows t' = g_rows t.
  Hypothesis Ec : g_cols t' = g_cols t.
  Hypothesis H : forall r c, 0 <= r < g_rows t -> 0 <= c < g_cols t ->
    g_at t r c <> -99 /\ g_at t' r c <> -99 /\ initial_shielding table (g_at t r c) (q r c) /\ initial_shielding table' (g_at t' r c) (q' r c).

  Lemma initial_value tb (g : grid Z) r c x : g_at g r c <> -99 -> initial_shielding tb (g_at g r c) x -> exists y, g_at (class2ms cast None tb g) r c = Num y /\ (y == x)%Q.
  Proof.
    intros N I. rewrite ms_value by (discriminate || exact N). destruct I as [(l1 & l2 & v & E & L & V)|[L V]].
    - rewrite E, ms_last by exact L. eexists. split; [reflexivity|]. rewrite V. reflexivity.
    - rewrite ms_unlisted by exact L. eexists. split; [reflexivity|]. rewrite V. reflexivity.
  Qed.

  Lemma mean_shift lo d s i j : (lo <= 0)%Q -> 1 <= s -> (forall r c, 0 <= r < g_rows t -> 0 <= c < g_cols t -> (lo <= q' r c - q r c)%Q) ->
    at_least lo (num_mean (map (fun p => seen (class2ms cast None table t) (i + fst p) (j + snd p)) (shield_cells d s)))
                (num_mean (map (fun p => seen (class2ms cast None table' t') (i + fst p) (j + snd p)) (shield_cells d s))).
  Proof.
    intros Lo Hs D. apply num_mean_shift.
    - pose proof (shield_length d s Hs) as L. intros N. apply (f_equal (@zlen num)) in N. unfold zlen in N, L. rewrite map_length in N. cbn in N.
      destruct (is_diagonal d); [|lia]. rewrite N in L. symmetry in L. pose proof (Z.div_le_lower_bound (s * (s + 1)) 2 1 ltac:(lia) ltac:(nia)). lia.
    - induction (shield_cells d s) as [|p l IH]; [constructor|]. cbn [map]. constructor; [|exact IH]. unfold seen.
      change (g_rows (class2ms cast None table t)) with (g_rows t). change (g_cols (class2ms cast None table t)) with (g_cols t).
      change (g_rows (class2ms cast None table' t')) with (g_rows t'). change (g_cols (class2ms cast None table' t')) with (g_cols t'). rewrite Er, Ec.
      destruct (inside _ _ _) eqn:I; [|cbn; lra]. apply inside_iff in I. cbn [fst snd] in I. destruct I as [I1 I2].
      destruct (H _ _ I1 I2) as (N1 & N2 & S1 & S2). destruct (initial_value table t _ _ _ N1 S1) as (y & -> & V). destruct (initial_value table' t' _ _ _ N2 S2) as (y' & -> & V').
      cbn [at_least]. rewrite V, V'. apply D; assumption.
  Qed.
  Lemma mean_unit d s i j : 1 <= s -> (forall r c, 0 <= r < g_rows t -> 0 <= c < g_cols t -> (0 <= q r c <= 1)%Q) ->
    exists v, num_mean (map (fun p => seen (class2ms cast None table t) (i + fst p) (j + snd p)) (shield_cells d s)) = Num v /\ (0 <= v <= 1)%Q.
  Proof.
    intros Hs D. pose proof (blur_mean d s (class2ms cast None table t) i j Hs) as M.
    destruct (C30_bounds d s (class2ms cast None table t) i j 0 1 Hs ltac:(lra)) as (v & E & B).
    { intros r c Hr Hc. change (g_rows (class2ms cast None table t)) with (g_rows t) in Hr. change (g_cols (class2ms cast None table t)) with (g_cols t) in Hc.
      destruct (H r c Hr Hc) as (N1 & _ & S1 & _). destruct (initial_value table t r c _ N1 S1) as (y & -> & V). exists y. split; [reflexivity|]. rewrite V. apply D; assumption. }
    rewrite E in M. destruct (num_mean _) as [|v']; cbn in M; [contradiction|]. exists v'. split; [reflexivity|]. lra.
  Qed.
End Shield.
