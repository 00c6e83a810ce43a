(** * Proofs for turned rasters. *)
From Verif Require Import Base BaseLemmas NameModel TerrModel TerrSpec TerrProofs TerrRunProofs ShldModel ShldSpec ShldProofs ShldKernProofs ShldRunProofs
  TopoModel TopoSpec TopoProps TurnSpec.
From Coq Require Import Lia.
Open Scope Z_scope.

(** ** Geometry *)
Lemma turn_upwind s d : upwind (turn_dir s d) =
  let a := if rows_reversed s then - fst (upwind d) else fst (upwind d) in
  let b := if cols_reversed s then - snd (upwind d) else snd (upwind d) in
  if exchanged s then (b, a) else (a, b).
Proof. destruct s as [[] [] []], d; reflexivity. Qed.

Lemma place_up s rows cols d k i j : let p := place s rows cols (i, j) in
  up_pixel (turn_dir s d) k (fst p) (snd p) = place s rows cols (up_pixel d k i j).
Proof.
  cbn zeta. unfold up_pixel. rewrite turn_upwind. unfold place. cbn zeta. destruct s as [v h e]. cbn [rows_reversed cols_reversed exchanged fst snd].
  destruct v, h, e; cbn [fst snd]; f_equal; ring.
Qed.

Definition rows' (s : turn) (rows cols : Z) : Z := if exchanged s then cols else rows.
Definition cols' (s : turn) (rows cols : Z) : Z := if exchanged s then rows else cols.

Lemma inside_place s rows cols p : inside (rows' s rows cols) (cols' s rows cols) (place s rows cols p) = inside rows cols p.
Proof.
  apply Bool.eq_iff_eq_true. rewrite !inside_iff. unfold place, rows', cols'. destruct s as [v h e]. cbn [rows_reversed cols_reversed exchanged].
  destruct v, h, e; cbn [fst snd]; lia.
Qed.

(** The cell a cell of the turned raster comes from. *)
Definition back (s : turn) (rows cols : Z) (p : Z * Z) : Z * Z :=
  let '(r, c) := if exchanged s then (snd p, fst p) else p in
  (if rows_reversed s then rows - 1 - r else r, if cols_reversed s then cols - 1 - c else c).
Lemma place_back s rows cols p : place s rows cols (back s rows cols p) = p.
Proof.
  destruct s as [v h e], p as [r c]. unfold place, back. cbn [rows_reversed cols_reversed exchanged fst snd].
  destruct v, h, e; cbn [fst snd]; f_equal; lia.
Qed.

Lemma turned_inside {A} (R : A -> A -> Prop) s g g' p : turned_by R s g g' ->
  inside (g_rows g') (g_cols g') (place s (g_rows g) (g_cols g) p) = inside (g_rows g) (g_cols g) p.
Proof. intros (-> & -> & _). apply inside_place. Qed.

Lemma turn_dir_onto s d : exists d', turn_dir s d' = d.
Proof.
  destruct s as [[] [] []], d;
    first [exists N_; reflexivity|exists S_; reflexivity|exists E_; reflexivity|exists W_; reflexivity
          |exists NE; reflexivity|exists NW; reflexivity|exists SE; reflexivity|exists SW; reflexivity].
Qed.
Lemma turn_dir_inj s d d' : turn_dir s d = turn_dir s d' -> d = d'.
Proof. destruct s as [[] [] []], d, d'; cbn; congruence. Qed.
Lemma turn_dir_cardinal s d : is_cardinal (turn_dir s d) = is_cardinal d.
Proof. destruct s as [[] [] []], d; reflexivity. Qed.
Lemma turn_dir_diagonal s d : is_diagonal (turn_dir s d) = is_diagonal d.
Proof. destruct s as [[] [] []], d; reflexivity. Qed.
Lemma turn_extent s d rows cols : extent_along (turn_dir s d) (rows' s rows cols) (cols' s rows cols) = extent_along d rows cols.
Proof. destruct s as [[] [] []], d; unfold rows', cols'; cbn; lia. Qed.

Lemma turned_gmap {A B} (f : A -> B) s g g' : turned s g g' -> turned s (gmap f g) (gmap f g').
Proof. intros (E1 & E2 & H). split; [exact E1|]. split; [exact E2|]. intros r c I. cbn zeta. cbn [gmap g_at g_rows g_cols]. rewrite (H r c I). reflexivity. Qed.

(** ** Terrain *)
Lemma turned_fetch s rows cols d lag avg i j : let p := place s rows cols (i, j) in
  fetch (turn_dir s d) (rows' s rows cols) (cols' s rows cols) lag avg (fst p) (snd p) = map (place s rows cols) (fetch d rows cols lag avg i j).
Proof.
  cbn zeta. unfold fetch. induction (range2 (lag + 1) (lag + avg + 1)) as [|k l IH]; [reflexivity|]. cbn [map filter].
  rewrite place_up, inside_place. destruct (inside rows cols (up_pixel d k i j)); [cbn [map]; f_equal; exact IH|exact IH].
Qed.
Lemma turned_mean s d (data data' : grid Q) avg lag i j : turned s data data' -> inside (g_rows data) (g_cols data) (i, j) = true ->
  let p := place s (g_rows data) (g_cols data) (i, j) in
  cell_mean (turn_dir s d) data' avg lag (fst p) (snd p) = cell_mean d data avg lag i j.
Proof.
  intros (E1 & E2 & H) I. cbn zeta. unfold cell_mean. rewrite E1, E2. fold (rows' s (g_rows data) (g_cols data)) (cols' s (g_rows data) (g_cols data)).
  rewrite turned_fetch. pose proof (H i j I) as H0. cbn zeta in H0. rewrite <- H0. f_equal.
  unfold values. rewrite map_map. apply map_ext_in. intros [r c] K. unfold fetch in K. apply filter_In in K. destruct K as [_ K].
  symmetry. exact (H r c K).
Qed.

Lemma turned_dir s d init init' avg lag : turned s init init' -> 0 <= avg -> 0 <= lag -> 1 <= g_rows init -> 1 <= g_cols init ->
  (g_rows init' = g_rows init \/ avg + lag <= g_rows init /\ avg + lag <= g_rows init') ->
  match terrain_dir d init avg lag, terrain_dir (turn_dir s d) init' avg lag with
  | Ok o, Ok o' => turned_by same_num s o o'
  | Err e, Err e' => e = ZeroDivisionError /\ e' = ZeroDivisionError
  | _, _ => False
  end.
Proof.
  intros T Ha Hl Hr Hc K. pose proof T as (E1 & E2 & H).
  assert (Hr' : 1 <= g_rows init') by (rewrite E1; destruct (exchanged s); lia).
  assert (Hc' : 1 <= g_cols init') by (rewrite E2; destruct (exchanged s); lia).
  destruct (Z.lt_ge_cases (g_rows init) lag) as [S|S].
  { assert (S' : g_rows init' < lag) by lia. rewrite !terrain_dir_small by assumption.
    split; [exact E1|]. split; [exact E2|]. intros r c I. cbn zeta. cbn [gmap fill g_at g_rows g_cols]. rewrite <- (H r c I). apply same_num_refl. }
  assert (S' : lag <= g_rows init') by lia.
  assert (X : Z.min avg (g_rows init' - lag) = Z.min avg (g_rows init - lag)) by lia.
  assert (Y : extent_along (turn_dir s d) (g_rows init') (g_cols init') = extent_along d (g_rows init) (g_cols init)).
  { rewrite E1, E2. apply turn_extent. }
  destruct (Z.le_gt_cases (extent_along d (g_rows init) (g_cols init)) (lag + 1)) as [Z1|Z1];
    [|destruct (Z.le_gt_cases 1 (Z.min avg (g_rows init - lag))) as [Z2|Z2]].
  3:{ rewrite terrain_dir_err by lia. rewrite terrain_dir_err by lia. split; reflexivity. }
  1,2: destruct (terrain_dir_ok d init avg lag) as (o & Eo & R & C & V); try lia;
    destruct (terrain_dir_ok (turn_dir s d) init' avg lag) as (o' & Eo' & R' & C' & V'); try lia;
    rewrite Eo, Eo'; (split; [rewrite R', E1, C, R; reflexivity|]); (split; [rewrite C', E2, C, R; reflexivity|]);
    intros i j I; cbn zeta; rewrite R, C in *;
    pose proof (turned_inside eq s init init' (i, j) T) as I'; rewrite I in I'; apply inside_iff in I'; pose proof (proj1 (inside_iff _ _ _) I) as J; cbn [fst snd] in J;
    (eapply same_num_trans; [apply V; lia|]); apply same_num_sym; (eapply same_num_trans; [apply V'; tauto|]);
    rewrite X, (turned_mean s d (fill init) (fill init')); [|apply turned_gmap; exact T|exact I];
    pose proof (H i j I) as H0; cbn zeta in H0; rewrite <- H0; apply same_num_refl.
Qed.

Lemma num_max_zero l : forall a, is_zero (fold_left num_max l a) = true <->
  (forall x, In x (a :: l) -> exists q, x = Num q /\ (q <= 0)%Q) /\ exists q, In (Num q) (a :: l) /\ (q == 0)%Q.
Proof.
  induction l as [|y l IH]; intros a; cbn [fold_left].
  - split.
    + destruct a as [|q]; [discriminate|]. cbn. rewrite Qeq_bool_iff. intros E. split; [|exists q; auto].
      intros x [<-|[]]. exists q. split; [reflexivity|lra].
    + intros (_ & q & [-> |[]] & E). cbn. apply Qeq_bool_iff. exact E.
  - rewrite IH. split.
    + intros (A & q & Iq & Eq).
      assert (X : exists m, num_max a y = Num m /\ (m <= 0)%Q) by (apply A; left; reflexivity). destruct X as (m & Em & Lm).
      destruct a as [|u]; [discriminate|]. destruct y as [|v]; [discriminate|]. cbn in Em. injection Em as Em.
      split.
      * intros x [<-|[<-|I]]; [exists u|exists v|apply A; right; exact I]; (split; [reflexivity|]);
          destruct (Qltb u v) eqn:C; first [apply Qltb_lt in C|apply Qltb_ge in C]; subst m; lra.
      * destruct Iq as [Iq|Iq]; [|exists q; cbn; auto]. cbn in Iq. injection Iq as Iq. exists q. split; [|exact Eq].
        destruct (Qltb u v); subst q; cbn; auto.
    + intros (A & q & Iq & Eq).
      destruct (A a) as (u & -> & Lu); [cbn; auto|]. destruct (A y) as (v & -> & Lv); [cbn; auto|]. split.
      * intros x [<-|I]; [|apply A; right; right; exact I]. cbn. eexists. split; [reflexivity|]. destruct (Qltb u v); assumption.
      * destruct Iq as [Iq|[Iq|Iq]]; [injection Iq as <-|injection Iq as <-|exists q; split; [right; exact Iq|exact Eq]];
          cbn; (eexists; split; [left; reflexivity|]);
          match goal with |- context [Qltb ?a ?b] => destruct (Qltb a b) eqn:C; first [apply Qltb_lt in C|apply Qltb_ge in C] end; lra.
Qed.

Lemma turned_cells {A} s (g g' : grid A) x : turned s g g' -> (In x (grid_cells g') <-> In x (grid_cells g)).
Proof.
  intros T. rewrite !in_cells. pose proof T as (_ & _ & H). split.
  - intros (r & c & Hr & Hc & ->). pose proof (turned_inside eq s g g' (back s (g_rows g) (g_cols g) (r, c)) T) as I. rewrite place_back in I.
    rewrite (proj2 (inside_iff _ _ _)) in I by (cbn; lia). destruct (back s (g_rows g) (g_cols g) (r, c)) as [i j] eqn:B. symmetry in I.
    pose proof (H i j I) as K. cbn zeta in K. rewrite <- B, place_back in K. cbn [fst snd] in K. apply inside_iff in I. cbn in I. exists i, j. split; [lia|]. split; [lia|]. symmetry. exact K.
  - intros (i & j & Hi & Hj & ->). assert (I : inside (g_rows g) (g_cols g) (i, j) = true) by (apply inside_iff; cbn; lia).
    pose proof (turned_inside eq s g g' (i, j) T) as I'. rewrite I in I'. apply inside_iff in I'. pose proof (H i j I) as K. cbn zeta in K.
    do 2 eexists. split; [|split; [|exact K]]; lia.
Qed.

Lemma turned_max s g g' m m' : turned s g g' -> np_max g = Ok m -> np_max g' = Ok m' -> is_zero m' = is_zero m.
Proof.
  intros T. pose proof (fun x => turned_cells s g g' x T) as K. unfold np_max.
  destruct (grid_cells g) as [|a l]; [discriminate|]. destruct (grid_cells g') as [|a' l']; [discriminate|]. intros E E'. injection E as <-. injection E' as <-.
  apply Bool.eq_iff_eq_true. rewrite !num_max_zero. split; intros (A & q & Iq & Eq).
  - split; [intros x Ix; apply A, K, Ix|]. exists q. split; [apply K, Iq|exact Eq].
  - split; [intros x Ix; apply A, K, Ix|]. exists q. split; [apply K, Iq|exact Eq].
Qed.

Lemma turn_widths fl gw s d : widths fl gw (turn_dir s d) = widths fl gw d.
Proof. unfold widths. rewrite turn_dir_cardinal. reflexivity. Qed.

Lemma mapM_in {A B} (f : A -> res B) l bs : mapM f l = Ok bs -> forall x b, In x l -> f x = Ok b -> In b bs.
Proof.
  revert bs. induction l as [|y l IH]; intros bs H x b Ix E; [destruct Ix|]. cbn [mapM] in H.
  destruct (f y) as [b'|] eqn:E'; [|discriminate]. cbn [bind] in H. destruct (mapM f l) as [bs'|] eqn:E2; [|discriminate]. cbn [bind] in H. injection H as <-.
  destruct Ix as [->|Ix]; [left; congruence|right; exact (IH _ eq_refl x b Ix E)].
Qed.
Lemma in_dire d : In d dire.
Proof. destruct d; cbn; tauto. Qed.

Lemma terrain_turned fl table data data' gw s : fl_ok fl -> (0 < gw)%Q -> 1 <= g_rows data -> 1 <= g_cols data -> turned s data data' ->
  (g_rows data' = g_rows data \/ forall d, fst (widths fl gw d) + snd (widths fl gw d) <= g_rows data /\ fst (widths fl gw d) + snd (widths fl gw d) <= g_rows data') ->
  match terrain fl table data gw, terrain fl table data' gw with
  | Ok None, Ok None => True
  | Ok (Some l), Ok (Some l') => turned_results s l l'
  | Err e, Err e' => e = e'
  | _, _ => False
  end.
Proof.
  intros Hf Hg Hr Hc T W. pose proof T as (E1 & E2 & H).
  assert (Hr' : 1 <= g_rows data') by (rewrite E1; destruct (exchanged s); lia).
  assert (Hc' : 1 <= g_cols data') by (rewrite E2; destruct (exchanged s); lia).
  assert (T1 : turned s (class2mz table data) (class2mz table data')).
  { split; [exact E1|]. split; [exact E2|]. intros r c I. cbn zeta. cbn [class2mz g_at g_rows g_cols]. rewrite <- (H r c I). reflexivity. }
  set (init := zero_to_nan (class2mz table data)). set (init' := zero_to_nan (class2mz table data')).
  assert (T2 : turned s init init') by (apply turned_gmap; exact T1).
  destruct (np_max_ok (class2mz table data) Hr Hc) as (m & Em). destruct (np_max_ok (class2mz table data') Hr' Hc') as (m' & Em').
  pose proof (turned_max _ _ _ _ _ T1 Em Em') as Z. unfold terrain. rewrite Em, Em'. cbn [bind]. rewrite Z. destruct (is_zero m); [exact I|]. cbv zeta.
  fold init init'.
  set (f := fun i d => let '(avg, lag) := widths fl gw d in let* o := terrain_dir d i avg lag in Ok (d, o)). fold (f init) (f init').
  assert (Fd : forall i d, f i d = let* o := terrain_dir d i (fst (widths fl gw d)) (snd (widths fl gw d)) in Ok (d, o)).
  { intros i d. unfold f. destruct (widths fl gw d). reflexivity. }
  assert (D : forall d, match terrain_dir d init (fst (widths fl gw d)) (snd (widths fl gw d)), terrain_dir (turn_dir s d) init' (fst (widths fl gw (turn_dir s d))) (snd (widths fl gw (turn_dir s d))) with
     | Ok o, Ok o' => turned_by same_num s o o' | Err e, Err e' => e = ZeroDivisionError /\ e' = ZeroDivisionError | _, _ => False end).
  { intros d. rewrite turn_widths. destruct (widths_nonneg fl gw Hf Hg d) as [A B]. apply turned_dir; try assumption.
    destruct W as [W|W]; [left; exact W|right; apply W]. }
  assert (Ez : forall i d e, (exists d0 : dir, i = init \/ i = init') -> f i d = Err e -> e = ZeroDivisionError).
  { intros i d e (_ & [->| ->]) X; rewrite Fd in X.
    - specialize (D d). destruct (terrain_dir d init _ _); [discriminate|]. cbn in X. destruct (terrain_dir (turn_dir s d) init' _ _); [destruct D|]. destruct D. congruence.
    - destruct (turn_dir_onto s d) as (d0 & <-). specialize (D d0). destruct (terrain_dir (turn_dir s d0) init' _ _); [discriminate|]. cbn in X.
      destruct (terrain_dir d0 init _ _); [destruct D|]. destruct D. congruence. }
  destruct (mapM (f init) dire) as [l|e] eqn:El; cbn [bind].
  - destruct (mapM (f init') dire) as [l'|e'] eqn:El'; cbn [bind].
    + intros d o I. assert (X : f init d = Ok (d, o)).
      { clear - El I Fd. revert l El I. generalize dire as ds. induction ds as [|y ds IH]; intros l El I; cbn [mapM] in El; [injection El as <-; destruct I|].
        destruct (f init y) as [b|] eqn:Ey; [|discriminate]. cbn [bind] in El. destruct (mapM (f init) ds) as [bs|]; [|discriminate]. cbn [bind] in El. injection El as <-.
        destruct I as [->|I]; [|exact (IH _ eq_refl I)]. rewrite Fd in Ey. destruct (terrain_dir y _ _ _) eqn:Et; [|discriminate]. cbn in Ey. injection Ey as -> ->. rewrite Fd, Et. reflexivity. }
      rewrite Fd in X. specialize (D d). destruct (terrain_dir d init _ _) as [o0|]; [|discriminate]. cbn in X. injection X as ->.
      destruct (terrain_dir (turn_dir s d) init' _ _) as [o'|] eqn:Eo'; [|destruct D]. exists o'. split; [|exact D].
      apply (mapM_in _ _ _ El' (turn_dir s d) _ (in_dire _)). rewrite Fd, Eo'. reflexivity.
    + assert (X : exists bs, mapM (f init') dire = Ok bs); [|destruct X as (bs & X); congruence].
      apply mapM_ok. intros d' _. destruct (turn_dir_onto s d') as (d & <-). destruct (mapM_inv _ _ _ d El (in_dire d)) as (b & Eb).
      rewrite Fd in Eb. rewrite Fd. specialize (D d). destruct (terrain_dir d init _ _); [|discriminate]. destruct (terrain_dir (turn_dir s d) init' _ _); [|destruct D]. cbn. eauto.
  - assert (e = ZeroDivisionError) as ->.
    { clear - El Ez. revert El. generalize dire as ds. induction ds as [|y ds IH]; cbn [mapM]; [discriminate|].
      destruct (f init y) as [b|e'] eqn:Ey; cbn [bind]; [|intros X; injection X as <-; apply (Ez init y); [exists N_; auto|exact Ey]].
      destruct (mapM (f init) ds); cbn [bind]; [discriminate|exact IH]. }
    destruct (mapM (f init') dire) as [l'|e'] eqn:El'; cbn [bind].
    + assert (X : exists bs, mapM (f init) dire = Ok bs); [|destruct X as (bs & X); congruence].
      apply mapM_ok. intros d _. destruct (mapM_inv _ _ _ (turn_dir s d) El' (in_dire _)) as (b & Eb). rewrite Fd in Eb. rewrite Fd. specialize (D d).
      destruct (terrain_dir (turn_dir s d) init' _ _); [|discriminate]. destruct (terrain_dir d init _ _); [|destruct D]. cbn. eauto.
    + symmetry. clear - El' Ez. revert El'. generalize dire as ds. induction ds as [|y ds IH]; cbn [mapM]; [discriminate|].
      destruct (f init' y) as [b|e0] eqn:Ey; cbn [bind]; [|intros X; injection X as <-; apply (Ez init' y); [exists N_; auto|exact Ey]].
      destruct (mapM (f init') ds); cbn [bind]; [discriminate|exact IH].
Qed.
