From Coq Require Import Qround Qabs.
From Verif Require Import Base BaseLemmas Rounding BlrbModel BlrbSpec BlrbProofs TerrModel ShldModel TileSpec TileProofs TinySpec TinyModel.
From Verif Require Import TileModel.
Open Scope Z_scope.

(** ** Pixel sizes of narrow rasters *)
Lemma one_col f g : g_cols g = 1 -> interpolate_grid 1 0 0 (inject_Z (g_rows g)) (inject_Z (g_cols g)) f g = Err ValueError.
Proof.
  intros E. rewrite E. cbn [interpolate_grid]. unfold subdivide, indices. cbn [foldM]. unfold interpolate_block, indices, slice_set. rewrite E.
  match goal with |- context [fits1 (g_cols ?b) ?n] => replace (fits1 (g_cols b) n) with false by (cbn [g_cols bilinear]; vm_compute; reflexivity) end. rewrite andb_false_r. reflexivity.
Qed.
Lemma two_cols f g : g_cols g = 2 -> 2 <= g_rows g ->
  exists g', interpolate_grid 1 0 0 (inject_Z (g_rows g)) (inject_Z (g_cols g)) f g = Ok g' /\ g_rows g' = g_rows g /\ g_cols g' = g_cols g /\ forall r, 0 <= r < g_rows g -> g_at g' r 1 = NaN.
Proof.
  set (nr := g_rows g). set (nc := g_cols g). intros Hc Hr.
  destruct (upper_axis nr ltac:(lia)) as (U1 & U2 & U3 & U4 & U5 & U6 & U7). destruct (lower_axis nr ltac:(lia)) as (L1 & L2 & L3 & L4 & L5 & L6 & L7).
  destruct (upper_axis nc ltac:(lia)) as (V1 & V2 & V3 & V4 & V5 & V6 & V7). destruct (lower_axis nc ltac:(lia)) as (M1 & M2 & M3 & M4 & M5 & M6 & M7).
  cbv zeta in *. cbn [interpolate_grid]. unfold subdivide, indices. cbn [foldM].
  destruct (block_raw _ _ _ _ f g _ _ _ _ U1 U2 U3 U4 U5 V1 V2 V3 V4 V5) as (g1 & E1 & R1 & C1 & A1 & O1). rewrite E1. cbn [bind]. fold nr in R1. fold nc in C1.
  assert (L5' : nr - 1 < g_rows g1) by lia. assert (V5' : (nc + 1) / 2 < g_cols g1) by lia.
  destruct (block_raw _ _ _ _ f g1 _ _ _ _ L1 L2 L3 L4 L5' V1 V2 V3 V4 V5') as (g2 & E2 & R2 & C2 & A2 & O2). rewrite E2. cbn [bind].
  assert (U5' : (nr + 1) / 2 < g_rows g2) by lia. assert (M5' : nc - 1 < g_cols g2) by lia.
  destruct (block_raw _ _ _ _ f g2 _ _ _ _ U1 U2 U3 U4 U5' M1 M2 M3 M4 M5') as (g3 & E3 & R3 & C3 & A3 & O3). rewrite E3. cbn [bind].
  assert (L5'' : nr - 1 < g_rows g3) by lia. assert (M5'' : nc - 1 < g_cols g3) by lia.
  destruct (block_raw _ _ _ _ f g3 _ _ _ _ L1 L2 L3 L4 L5'' M1 M2 M3 M4 M5'') as (g4 & E4 & R4 & C4 & A4 & O4). rewrite E4. cbn [bind].
  exists g4. split; [reflexivity|]. split; [lia|]. split; [lia|]. intros r Ir. pose proof (ceil_upper nr) as Cc. pose proof (half_cases nr) as (kc & Kc & Ec).
  assert (H2 : nc / 2 = 1) by (rewrite Hc; reflexivity).
  assert (Z0 : forall s ul ur lr ll i j, (s - 1 == 0)%Q -> forall sr, g_at (bilinear sr s ul ur lr ll) i j = NaN).
  { intros s ul ur lr ll i j Es sr. unfold bilinear. cbn [g_at]. unfold ogrid_pos at 2. rewrite (proj2 (Qeq_bool_iff _ _) Es). destruct (ogrid_pos sr i); reflexivity. }
  assert (Ez : (half nc - 1 == 0)%Q) by (rewrite Hc; reflexivity).
  destruct (Z.ltb_spec r (nr / 2)) as [P|P].
  - rewrite O4 by lia. rewrite A3 by lia. apply Z0. rewrite M7. exact Ez.
  - rewrite A4 by lia. apply Z0. rewrite M7. exact Ez.
Qed.

Lemma nadd_nan_l l : fold_left nadd l NaN = NaN.
Proof. induction l as [|x l IH]; [reflexivity|]. exact IH. Qed.
Lemma sum_nan l a : In NaN l -> fold_left nadd l a = NaN.
Proof.
  revert a. induction l as [|x l IH]; intros a I; [destruct I|]. cbn [fold_left]. destruct I as [->|I]; [|apply IH; exact I].
  destruct a; apply nadd_nan_l.
Qed.
Lemma sum_num l a : (forall x, In x l -> x <> NaN) -> exists s, fold_left nadd l (Num a) = Num s.
Proof.
  revert a. induction l as [|x l IH]; intros a I; [eexists; reflexivity|]. cbn [fold_left]. destruct x as [|q]; [exfalso; apply (I NaN); [left|]; reflexivity|].
  apply IH. intros y Iy. apply I. right. exact Iy.
Qed.
Lemma cells_in_list (g : grid num) x : In x (concat (glist g)) <-> exists r c, 0 <= r < g_rows g /\ 0 <= c < g_cols g /\ x = g_at g r c.
Proof.
  unfold glist. rewrite in_concat. split.
  - intros (l & Il & Ix). apply in_map_iff in Il. destruct Il as (r & <- & Ir). apply in_map_iff in Ix. destruct Ix as (c & <- & Ic). apply in_zrange in Ir, Ic. eauto.
  - intros (r & c & Ir & Ic & ->). exists (map (fun c => g_at g r c) (zrange (g_cols g))). split.
    + apply (in_map (fun r => map (fun c => g_at g r c) (zrange (g_cols g)))). apply in_zrange. exact Ir.
    + apply (in_map (fun c => g_at g r c)). apply in_zrange. exact Ic.
Qed.
Lemma mean_nan g r c : 0 <= r < g_rows g -> 0 <= c < g_cols g -> g_at g r c = NaN -> np_mean g = NaN.
Proof. intros R C E. unfold np_mean. rewrite sum_nan; [reflexivity|]. apply cells_in_list. exists r, c. auto. Qed.
Lemma mean_num g : (forall r c, 0 <= r < g_rows g -> 0 <= c < g_cols g -> g_at g r c <> NaN) -> exists q, np_mean g = Num q.
Proof.
  intros H. unfold np_mean. destruct (sum_num (concat (glist g)) 0) as (s & ->); [|eexists; reflexivity].
  intros x Ix. apply cells_in_list in Ix. destruct Ix as (r & c & R & C & ->). apply H; assumption.
Qed.

Lemma rows_of depth : forall oi oj sr sc f g g', interpolate_grid depth oi oj sr sc f g = Ok g' -> g_rows g' = g_rows g /\ g_cols g' = g_cols g.
Proof.
  induction depth as [|depth IH]; intros oi oj sr sc f g g' E; cbn [interpolate_grid] in E.
  - unfold interpolate_block, indices, slice_set in E. destruct (_ && _) in E; [|discriminate]. injection E as <-. split; reflexivity.
  - revert g E. generalize (subdivide oi oj sr sc). intros l. induction l as [|[[ui uj] [li lj]] l I]; intros g E; cbn [foldM] in E; [injection E as <-; auto|].
    destruct (interpolate_grid depth ui uj _ _ f g) as [g1|] eqn:E1; [|discriminate]. cbn [bind] in E. destruct (IH _ _ _ _ _ _ _ E1) as [A B]. destruct (I _ E) as [C D]. split; congruence.
Qed.
Lemma grids_cases size rows cols : 1 <= rows -> 1 <= cols ->
  ((rows = 1 \/ cols = 1) /\ get_pixel_size_grids size rows cols = Err ValueError) \/
  ((rows = 2 \/ cols = 2) /\ gridwidth size rows cols = Ok NaN /\ exists p, get_pixel_size_grids size rows cols = Ok p) \/
  (3 <= rows /\ 3 <= cols /\ exists p q, get_pixel_size_grids size rows cols = Ok p /\ gridwidth size rows cols = Ok (Num q)).
Proof.
  intros R C. set (z := Grid rows cols (fun _ _ => Num 0)).
  destruct (Z.eq_dec rows 1) as [R1|R1].
  { left. split; [auto|]. unfold get_pixel_size_grids. fold z. rewrite (one_row _ z R1 : interpolate_grid 1 0 0 (inject_Z rows) (inject_Z cols) _ z = _). reflexivity. }
  destruct (Z.eq_dec cols 1) as [C1|C1].
  { left. split; [auto|]. unfold get_pixel_size_grids. fold z. rewrite (one_col _ z C1 : interpolate_grid 1 0 0 (inject_Z rows) (inject_Z cols) _ z = _). reflexivity. }
  right. destruct (Z.eq_dec rows 2) as [R2|R2].
  { left. split; [auto|].
    destruct (two_rows (fun x y => fst (size x y)) z R2 ltac:(cbn; lia)) as (xg & E & N). destruct (two_rows (fun x y => snd (size x y)) z R2 ltac:(cbn; lia)) as (yg & E' & N').
    cbn [g_rows g_cols z] in E, E', N, N'. assert (P : get_pixel_size_grids size rows cols = Ok (xg, yg)) by (unfold get_pixel_size_grids; fold z; rewrite E; cbn [bind]; rewrite E'; reflexivity).
    unfold gridwidth. rewrite P. cbn [bind]. split; [|eauto].
    destruct (rows_of _ _ _ _ _ _ _ _ E) as [Rg Cg]. rewrite (mean_nan xg 1 0); [reflexivity|rewrite Rg; cbn; lia|rewrite Cg; cbn; lia|apply N; lia]. }
  destruct (Z.eq_dec cols 2) as [C2|C2].
  { left. split; [auto|].
    destruct (two_cols (fun x y => fst (size x y)) z C2 ltac:(cbn; lia)) as (xg & E & Rg & Cg & N). destruct (two_cols (fun x y => snd (size x y)) z C2 ltac:(cbn; lia)) as (yg & E' & _ & _ & N').
    cbn [g_rows g_cols z] in E, E', N, N', Rg, Cg. assert (P : get_pixel_size_grids size rows cols = Ok (xg, yg)) by (unfold get_pixel_size_grids; fold z; rewrite E; cbn [bind]; rewrite E'; reflexivity).
    unfold gridwidth. rewrite P. cbn [bind]. split; [|eauto].
    rewrite (mean_nan xg 0 1); [reflexivity|rewrite Rg; lia|rewrite Cg; lia|apply N; lia]. }
  right. split; [lia|split; [lia|]].
  destruct (bisect_spec (fun x y => fst (size x y)) z ltac:(cbn; lia) ltac:(cbn; lia)) as (xg & E & Rg & Cg & N). destruct (bisect_spec (fun x y => snd (size x y)) z ltac:(cbn; lia) ltac:(cbn; lia)) as (yg & E' & Rg' & Cg' & N').
  cbn [g_rows g_cols z] in *. assert (P : get_pixel_size_grids size rows cols = Ok (xg, yg)) by (unfold get_pixel_size_grids; fold z; rewrite E; cbn [bind]; rewrite E'; reflexivity).
  destruct (mean_num xg) as (a & Ea). { rewrite Rg, Cg. intros r c Ir Ic. destruct (N r c Ir Ic) as (v & -> & _). discriminate. }
  destruct (mean_num yg) as (b & Eb). { rewrite Rg', Cg'. intros r c Ir Ic. destruct (N' r c Ir Ic) as (v & -> & _). discriminate. }
  unfold gridwidth. rewrite P. cbn [bind]. rewrite Ea, Eb. eauto.
Qed.

(** ** The widths of a tile *)
Lemma widths_small size rows cols land : 1 <= rows -> 1 <= cols -> (tile_widths size rows cols land = Err ValueError <-> rows <= 2 \/ cols <= 2).
Proof.
  intros R C. unfold tile_widths, terrain_widths, shield_kernel.
  destruct (grids_cases size rows cols R C) as [(H & E)|[(H & E & p & Ep)|(H1 & H2 & p & q & Ep & E)]].
  - unfold gridwidth. rewrite E. cbn. split; [lia|reflexivity].
  - rewrite E, Ep. cbn [bind]. split; [lia|intros _]. destruct land; reflexivity.
  - rewrite E, Ep. cbn [bind]. split; [|lia]. intros X. exfalso. revert X. destruct land; cbn [mapM dire is_cardinal cells_in bind]; destruct (Qeq_bool q 0); discriminate.
Qed.
Lemma sum_const l : forall a v, (forall x, In x l -> exists w, x = Num w /\ (w == v)%Q) -> exists s, fold_left nadd l (Num a) = Num s /\ (s == a + inject_Z (Z.of_nat (length l)) * v)%Q.
Proof.
  induction l as [|x l IH]; intros a v H. { exists a. split; [reflexivity|]. cbn. ring. }
  cbn [fold_left]. destruct (H x (or_introl eq_refl)) as (w & -> & E). cbn [nadd]. destruct (IH (a + w)%Q v) as (s & F & G); [intros y Iy; apply H; right; exact Iy|].
  exists s. split; [exact F|]. cbn [length]. rewrite Nat2Z.inj_succ. unfold Z.succ. rewrite inject_Z_plus. change (inject_Z 1) with 1%Q. apply (Qeq_trans _ _ _ G). setoid_rewrite E. ring.
Qed.
Lemma cells_number g : 0 <= g_rows g -> 0 <= g_cols g -> Z.of_nat (length (concat (@glist num g))) = g_rows g * g_cols g.
Proof.
  intros R C. unfold glist. assert (X : forall l, Z.of_nat (length (concat (map (fun r => map (g_at g r) (zrange (g_cols g))) l))) = Z.of_nat (length l) * g_cols g).
  { induction l as [|r l IH]; [reflexivity|]. cbn [map concat]. rewrite app_length, map_length, Nat2Z.inj_add, IH, zrange_length. cbn [length]. lia. }
  rewrite X, zrange_length. lia.
Qed.
Lemma mean_const g v : 0 < g_rows g -> 0 < g_cols g -> (forall r c, 0 <= r < g_rows g -> 0 <= c < g_cols g -> exists w, g_at g r c = Num w /\ (w == v)%Q) -> exists q, np_mean g = Num q /\ (q == v)%Q.
Proof.
  intros R C H. unfold np_mean. destruct (sum_const (concat (glist g)) 0 v) as (s & -> & P).
  { intros x Ix. apply cells_in_list in Ix. destruct Ix as (r & c & Ir & Ic & ->). apply H; assumption. }
  eexists. split; [reflexivity|]. rewrite P, cells_number by lia. assert (N : (0 < inject_Z (g_rows g * g_cols g))%Q) by (change 0%Q with (inject_Z 0); rewrite <- Zlt_Qlt; nia). field. intros X. rewrite X in N. discriminate.
Qed.
Lemma py_int_pos x y : (0 < y)%Q -> (x == y)%Q -> py_int x = Qfloor y.
Proof. intros P E. unfold py_int. replace (Qle_bool 0 x) with true by (symmetry; apply Qle_bool_iff; lra). rewrite E. reflexivity. Qed.
Lemma widths_constant size rows cols land a b : 3 <= rows -> 3 <= cols -> (0 < a)%Q -> (0 < b)%Q -> (forall x y, fst (size x y) == a /\ snd (size x y) == b)%Q ->
  let g := ((a + b) / 2)%Q in
  let near m := np_around (m / g)%Q in let down m := Qfloor (m / g)%Q in let diag m := Qfloor (m / ((1414 # 1000) * g))%Q in
  tile_widths size rows cols land = Ok (if land then repeat (near 500%Q, near 200%Q) 4 ++ repeat (diag 500%Q, diag 200%Q) 4 else [], down 100%Q).
Proof.
  intros R C A B S g near down diag. set (z := Grid rows cols (fun _ _ => Num 0)).
  destruct (bisect_spec (fun x y => fst (size x y)) z R C) as (xg & E & Rg & Cg & N). destruct (bisect_spec (fun x y => snd (size x y)) z R C) as (yg & E' & Rg' & Cg' & N').
  cbn [g_rows g_cols z] in *. assert (P : get_pixel_size_grids size rows cols = Ok (xg, yg)) by (unfold get_pixel_size_grids; fold z; rewrite E; cbn [bind]; rewrite E'; reflexivity).
  destruct (mean_const xg a) as (u & Eu & Pu); [lia|lia| |].
  { rewrite Rg, Cg. intros r c Ir Ic. destruct (N r c Ir Ic) as (v & -> & X). exists v. split; [reflexivity|]. rewrite X, bisected_const with (k := a) by (intros; apply S). reflexivity. }
  destruct (mean_const yg b) as (u' & Eu' & Pu'); [lia|lia| |].
  { rewrite Rg', Cg'. intros r c Ir Ic. destruct (N' r c Ir Ic) as (v & -> & X). exists v. split; [reflexivity|]. rewrite X, bisected_const with (k := b) by (intros; apply S). reflexivity. }
  assert (W : gridwidth size rows cols = Ok (Num ((1 # 2) * (u + u'))%Q)) by (unfold gridwidth; rewrite P; cbn [bind]; rewrite Eu, Eu'; reflexivity).
  set (q := ((1 # 2) * (u + u'))%Q) in *. assert (Q1 : (q == g)%Q) by (unfold q, g; rewrite Pu, Pu'; field). assert (G : (0 < g)%Q) by (unfold g; apply Qlt_shift_div_l; lra).
  assert (Z : Qeq_bool q 0 = false) by (apply not_true_iff_false; rewrite Qeq_bool_iff; lra).
  assert (PD : forall m d, (0 < m -> 0 < d -> 0 < m / d)%Q) by (intros m d M D; apply Qlt_shift_div_l; lra).
  assert (D1 : forall m, (0 < m)%Q -> py_int (m / q)%Q = down m) by (intros m M; apply py_int_pos; [apply PD; assumption|rewrite Q1; reflexivity]).
  assert (D2 : forall m, (0 < m)%Q -> py_int (m / (1414 # 1000) / q)%Q = diag m). { intros m M. apply py_int_pos; [apply PD; [exact M|lra]|]. rewrite Q1. field. lra. }
  assert (D3 : forall m, np_around (m / q)%Q = near m) by (intros m; apply np_around_proper; rewrite Q1; reflexivity).
  unfold tile_widths, terrain_widths, shield_kernel. rewrite W, P. cbn [bind].
  destruct land; cbn [mapM dire is_cardinal cells_in bind]; rewrite ?Z; cbn [bind]; rewrite ?Z; cbn [bind]; rewrite ?D3, ?D2, ?D1 by reflexivity; reflexivity.
Qed.

(** ** Windows *)
Section Grid.
  Context (fl : Q -> Q) (upwind : Q) (ds : raster) (tg : tilegrid).
  Hypothesis (Hfl : fl_ok fl) (Hg : good_raster upwind ds) (Hmk : mk_tilegrid fl upwind ds = Ok tg).

  Lemma buffer_window k : 0 <= k < num_tiles tg -> exists w, get_gridlimit_buffer tg k = Ok w /\
    window_cols w = Z.min ((k / subset_maxrows tg + 1) * x_step tg + x_buffer tg) (r_xsize ds) - Z.max 0 (k / subset_maxrows tg * x_step tg - x_buffer tg) /\
    window_rows w = Z.min ((k mod subset_maxrows tg + 1) * y_step tg + y_buffer tg) (r_ysize ds) - Z.max 0 (k mod subset_maxrows tg * y_step tg - y_buffer tg).
  Proof.
    intros Hk. destruct (mk_tilegrid_inv fl upwind ds tg Hfl Hg Hmk) as (Ex & Ey & _).
    unfold get_gridlimit_buffer. rewrite (tilegrid_pyget fl upwind ds) by assumption. cbn [bind]. eexists. split; [reflexivity|]. unfold span, window_cols, window_rows. cbn [fst snd]. rewrite Ex, Ey. lia.
  Qed.
  Lemma wide i step buf dim : 3 <= dim -> 0 < step -> 2 <= buf -> 0 <= i < blocks dim step -> 3 <= Z.min ((i + 1) * step + buf) dim - Z.max 0 (i * step - buf).
  Proof.
    intros D S B I. pose proof (blocks_spec dim step ltac:(lia) S) as (_ & L & _). assert (i * step <= (blocks dim step - 1) * step) by nia. assert (0 <= i * step) by nia. lia.
  Qed.
  Lemma buffer_wide k : 3 <= r_xsize ds -> 3 <= r_ysize ds -> 2 <= x_buffer tg -> 2 <= y_buffer tg -> 0 <= k < num_tiles tg ->
    exists w, get_gridlimit_buffer tg k = Ok w /\ 3 <= window_rows w /\ 3 <= window_cols w.
  Proof.
    intros X Y BX BY Hk. destruct (buffer_window k Hk) as (w & E & C & R). exists w. split; [exact E|].
    destruct (mk_tilegrid_inv fl upwind ds tg Hfl Hg Hmk) as (_ & _ & _ & _ & _ & _ & _ & _ & _ & _ & Sx & Sy & _).
    destruct (tile_index_range fl upwind ds tg k Hfl Hg Hmk Hk) as (_ & Hi & Hj). rewrite C, R. split; apply wide; assumption.
  Qed.
  Lemma last_narrow k : 1 < subset_maxcols tg -> last_width (r_xsize ds) (x_step tg) + x_buffer tg <= 2 ->
    (subset_maxcols tg - 1) * subset_maxrows tg <= k < num_tiles tg ->
    exists w, get_gridlimit_buffer tg k = Ok w /\ 1 <= window_rows w /\ 1 <= window_cols w <= 2.
  Proof.
    intros M L Hk. destruct (mk_tilegrid_inv fl upwind ds tg Hfl Hg Hmk) as (_ & _ & _ & _ & _ & _ & _ & _ & _ & _ & Sx & Sy & Bx & By & Ec & Er & En & _).
    pose proof Hg as (Dx & Dy & _). pose proof (blocks_spec (r_xsize ds) (x_step tg) ltac:(lia) Sx) as (N & N1 & N2). pose proof (blocks_spec (r_ysize ds) (y_step tg) ltac:(lia) Sy) as (O & O1 & O2).
    assert (Hk' : 0 <= k < num_tiles tg) by (rewrite Ec, Er in *; nia). destruct (buffer_window k Hk') as (w & E & C & R). exists w. split; [exact E|].
    destruct (tile_index_range fl upwind ds tg k Hfl Hg Hmk Hk') as (P & Hi & Hj).
    assert (I : k / subset_maxrows tg = subset_maxcols tg - 1). { symmetry. apply Z.div_unique with (k - (subset_maxcols tg - 1) * subset_maxrows tg); nia. }
    rewrite C, R. rewrite last_width_spec in L by lia. rewrite I, Ec. rewrite Ec in M. split.
    - assert (K1 : k mod subset_maxrows tg * y_step tg <= (blocks (r_ysize ds) (y_step tg) - 1) * y_step tg) by (apply Z.mul_le_mono_nonneg_r; lia). assert (K2 : 0 <= k mod subset_maxrows tg * y_step tg) by (apply Z.mul_nonneg_nonneg; lia).
      clear - K1 K2 O1 By Sy Dy. rewrite Z.mul_add_distr_r. lia.
    - set (b := blocks (r_xsize ds) (x_step tg)) in *. assert (K : 0 < (b - 1) * x_step tg) by (apply Z.mul_pos_pos; lia). clear - K L N1 N2 Bx Sx Dx M. replace ((b - 1 + 1) * x_step tg) with (b * x_step tg) by lia. lia.
  Qed.
End Grid.

(** ** Pixels of one unit or more *)
Section Fl.
  Context (fl : Q -> Q) (Hfl : fl_ok fl).
  Lemma step_one w : (1 <= w)%Q -> Qceiling (fl (1 / w)%Q) = 1.
  Proof.
    intros W. assert (P : (0 < 1 / w)%Q) by (apply Qlt_shift_div_l; lra). assert (U : (1 / w <= 1)%Q) by (apply Qle_shift_div_r; lra).
    pose proof (fl_pos fl Hfl _ P) as P'. pose proof (fl_mono fl Hfl _ _ U) as U'. assert (I : (fl 1 == 1)%Q) by (apply (fl_int fl Hfl 1); lia). rewrite I in U'.
    pose proof (Qle_ceiling (fl (1 / w)%Q)) as A. pose proof (Qceiling_lt (fl (1 / w)%Q)) as B.
    assert (A' : (inject_Z 0 < inject_Z (Qceiling (fl (1 / w)%Q)))%Q) by (change (inject_Z 0) with 0%Q; lra). rewrite <- Zlt_Qlt in A'.
    assert (B' : (inject_Z (Qceiling (fl (1 / w)%Q) - 1) < inject_Z 1)%Q) by (change (inject_Z 1) with 1%Q; lra). rewrite <- Zlt_Qlt in B'. lia.
  Qed.
  Lemma buffer_zero u w : (0 <= u)%Q -> (0 < w)%Q -> (2 * u <= w)%Q -> Qfloor (fl (u / w)%Q) = 0.
  Proof.
    intros U W H. assert (P : (0 <= u / w)%Q) by (apply Qle_shift_div_l; lra). assert (L : (u / w <= 1 # 2)%Q) by (apply Qle_shift_div_r; lra).
    pose proof (fl_nonneg fl Hfl _ P) as P'. assert (Ab : (Qabs (u / w) <= 1 # 2)%Q) by (rewrite Qabs_pos; assumption). destruct (fl_bounds fl Hfl _ _ Ab) as [_ B].
    assert (U1 : (u53 <= 1 # 2)%Q) by (unfold u53; discriminate). assert (L1 : (fl (u / w) < inject_Z 1)%Q) by (change (inject_Z 1) with 1%Q; lra).
    pose proof (Qfloor_resp_le _ _ P') as F. change (Qfloor 0) with 0 in F. pose proof (Qfloor_le (fl (u / w)%Q)) as F'.
    assert (X : (inject_Z (Qfloor (fl (u / w)%Q)) < inject_Z 1)%Q) by (eapply Qle_lt_trans; eassumption). rewrite <- Zlt_Qlt in X. lia.
  Qed.
End Fl.
Lemma metres_windows fl upwind ds : fl_ok fl -> sized ds -> in_metres upwind ds ->
  exists tg, mk_tilegrid fl upwind ds = Ok tg /\ num_tiles tg = r_xsize ds * r_ysize ds /\
    forall k, 0 <= k < num_tiles tg -> 
      let w := (k / r_ysize ds, k / r_ysize ds + 1, k mod r_ysize ds, k mod r_ysize ds + 1) in get_gridlimit tg k = Ok w /\ get_gridlimit_buffer tg k = Ok w.
Proof.
  intros Hfl [Sx Sy] (P1 & P2 & U & B1 & B2). assert (Hg : good_raster upwind ds) by (repeat split; try lia; lra).
  destruct (mk_tilegrid_ok fl upwind ds Hfl Hg) as (tg & Hmk). exists tg. split; [exact Hmk|].
  destruct (mk_tilegrid_inv fl upwind ds tg Hfl Hg Hmk) as (Ex & Ey & _ & _ & _ & _ & E1 & E2 & E3 & E4 & _ & _ & _ & _ & Ec & Er & En & _).
  rewrite step_one in E1, E2 by assumption. rewrite buffer_zero in E3, E4 by (assumption || lra).
  assert (Bk : forall d, blocks d 1 = d) by (intros d; unfold blocks; rewrite Z.div_1_r; lia). rewrite E1, Bk in Ec. rewrite E2, Bk in Er. split; [congruence|].
  intros k Hk w. destruct (tile_index_range fl upwind ds tg k Hfl Hg Hmk Hk) as (R & Hi & Hj). rewrite E1, E2, Er, !Bk in *.
  unfold get_gridlimit, get_gridlimit_buffer. rewrite (tilegrid_pyget fl upwind ds) by assumption. cbn [bind]. unfold span. cbn [fst snd]. rewrite Ex, Ey, E1, E2, E3, E4, Er.
  unfold w. set (i := k / r_ysize ds) in *. set (j := k mod r_ysize ds) in *. clearbody i j. split.
  - repeat match goal with |- context [if negb ?c then _ else _] => destruct c eqn:?; cbn [negb] end; repeat match goal with H : (_ =? _) = true |- _ => apply Z.eqb_eq in H | H : (_ =? _) = false |- _ => apply Z.eqb_neq in H end; repeat f_equal; lia.
  - repeat f_equal; lia.
Qed.

(** ** Rasters upside down, mirrored or without a pixel size *)
Section Axis.
  Context (fl : Q -> Q) (Hfl : fl_ok fl).
  Lemma div_opp p : (1 / - p == - (1 / p))%Q.
  Proof. unfold Qdiv. rewrite !Qmult_1_l. destruct p as [[|n|n] d]; reflexivity. Qed.
  Lemma ceil_opp x y : (x == - y)%Q -> Qceiling (fl x) = - Qfloor (fl y).
  Proof. intros E. unfold Qceiling. f_equal. apply Qfloor_comp. rewrite (fl_proper fl Hfl _ _ E), (fl_opp fl Hfl). ring. Qed.
  Lemma floor_nonneg p : (0 < p)%Q -> 0 <= Qfloor (fl (1 / p)%Q).
  Proof. intros P. assert (X : (0 <= 1 / p)%Q) by (apply Qle_shift_div_l; lra). apply (fl_nonneg fl Hfl) in X. apply Qfloor_resp_le in X. exact X. Qed.
  Lemma count_small dim n : 0 < dim < 2 ^ 31 -> dim < n -> Qfloor (fl (inject_Z dim / inject_Z n)%Q) = 0.
  Proof.
    intros D L. assert (N : (0 < inject_Z n)%Q) by (change 0%Q with (inject_Z 0); rewrite <- Zlt_Qlt; lia). assert (Dq : (0 < inject_Z dim)%Q) by (change 0%Q with (inject_Z 0); rewrite <- Zlt_Qlt; lia).
    set (x := (inject_Z dim / inject_Z n)%Q). assert (P : (0 < x)%Q) by (apply Qlt_shift_div_l; lra).
    assert (E : (x * inject_Z n == inject_Z dim)%Q) by (unfold x; field; lra). destruct (fl_bounds fl Hfl x x ltac:(rewrite Qabs_pos; lra)) as [_ B]. pose proof (fl_pos fl Hfl _ P) as P'.
    assert (L1 : (inject_Z dim + 1 <= inject_Z n)%Q) by (change 1%Q with (inject_Z 1); rewrite <- inject_Z_plus, <- Zle_Qle; lia).
    assert (L2 : (inject_Z dim < inject_Z (2 ^ 31))%Q) by (rewrite <- Zlt_Qlt; lia).
    assert (U : (u53 * inject_Z dim < 1)%Q). { apply Qlt_trans with (u53 * inject_Z (2 ^ 31))%Q; [apply Qmult_lt_l; [reflexivity|exact L2]|reflexivity]. }
    assert (T : (x + u53 * x < 1)%Q).
    { apply Qmult_lt_r with (inject_Z n); [exact N|]. setoid_replace ((x + u53 * x) * inject_Z n)%Q with (x * inject_Z n + u53 * (x * inject_Z n))%Q by ring. rewrite E. lra. }
    pose proof (Qfloor_le (fl x)) as F. assert (X : (inject_Z (Qfloor (fl x)) < inject_Z 1)%Q) by (change (inject_Z 1) with 1%Q; lra). rewrite <- Zlt_Qlt in X.
    assert (Y : 0 <= Qfloor (fl x)) by (apply (Qfloor_resp_le 0); lra). lia.
  Qed.
  Lemma count_large dim n : 0 < n <= dim -> 1 <= Qfloor (fl (inject_Z dim / inject_Z n)%Q).
  Proof.
    intros L. assert (N : (0 < inject_Z n)%Q) by (change 0%Q with (inject_Z 0); rewrite <- Zlt_Qlt; lia). assert (Dq : (inject_Z n <= inject_Z dim)%Q) by (rewrite <- Zle_Qle; lia).
    assert (P : (1 <= inject_Z dim / inject_Z n)%Q) by (apply Qle_shift_div_l; lra). apply (fl_mono fl Hfl) in P. assert (I : (fl 1 == 1)%Q) by (apply (fl_int fl Hfl 1); lia). rewrite I in P.
    apply (Qfloor_resp_le (inject_Z 1)) in P. rewrite Qfloor_Z in P. exact P.
  Qed.
  Lemma count_opp dim n : 0 < n -> Qceiling (fl (inject_Z dim / inject_Z (- n))%Q) = - Qfloor (fl (inject_Z dim / inject_Z n)%Q).
  Proof.
    intros N. apply ceil_opp. assert (Nq : (0 < inject_Z n)%Q) by (change 0%Q with (inject_Z 0); rewrite <- Zlt_Qlt; lia). rewrite inject_Z_opp. field. lra.
  Qed.
  Lemma step_pos p : (0 < p)%Q -> 0 < Qceiling (fl (1 / p)%Q).
  Proof.
    intros P. assert (X : (0 < 1 / p)%Q) by (apply Qlt_shift_div_l; lra). apply (fl_pos fl Hfl) in X. pose proof (Qle_ceiling (fl (1 / p)%Q)).
    assert (Y : (inject_Z 0 < inject_Z (Qceiling (fl (1 / p)%Q)))%Q) by (change (inject_Z 0) with 0%Q; lra). rewrite <- Zlt_Qlt in Y. exact Y.
  Qed.
  Lemma nz p : ~ (p == 0)%Q -> Qeq_bool p 0 = false.
  Proof. intros N. destruct (Qeq_bool p 0) eqn:E; [apply Qeq_bool_iff in E; contradiction|reflexivity]. Qed.
  Lemma nz_int n : n <> 0 -> Qeq_bool (inject_Z n) 0 = false.
  Proof. intros N. apply nz. intros E. apply N. apply inject_Z_injective. exact E. Qed.
End Axis.

Lemma no_size fl upwind ds : (gt1 ds == 0 \/ gt5 ds == 0)%Q -> mk_tilegrid fl upwind ds = Err ZeroDivisionError.
Proof.
  intros H. unfold mk_tilegrid, TileModel.fdiv. destruct (Qeq_bool (gt1 ds) 0) eqn:E1; [reflexivity|].
  assert (E5 : Qeq_bool (- gt5 ds) 0 = true) by (apply Qeq_bool_iff; destruct H as [H|H]; [apply Qeq_bool_iff in H; congruence|rewrite H; reflexivity]). cbn [bind]. rewrite E5. reflexivity.
Qed.

Lemma upside_down fl upwind ds : fl_ok fl -> sized ds -> (0 < gt1 ds)%Q -> (0 < gt5 ds)%Q ->
  let n := Qfloor (fl (1 / gt5 ds)%Q) in
  (n = 0 -> mk_tilegrid fl upwind ds = Err ZeroDivisionError) /\
  (1 <= n <= r_ysize ds -> mk_tilegrid fl upwind ds = Err ValueError) /\
  (r_ysize ds < n -> exists tg, mk_tilegrid fl upwind ds = Ok tg /\ num_tiles tg = 0).
Proof.
  intros Hfl [Sx Sy] P1 P5 n. pose proof (floor_nonneg fl Hfl _ P5) as N0. fold n in N0. pose proof (step_pos fl Hfl _ P1) as X0.
  unfold mk_tilegrid, TileModel.fdiv. rewrite !(nz (gt1 ds)) by lra. rewrite !(nz (- gt5 ds)) by lra. cbn [bind].
  rewrite (ceil_opp fl Hfl _ _ (div_opp (gt5 ds))). fold n. rewrite !(nz_int (Qceiling (fl (1 / gt1 ds)%Q))) by lia. cbn [bind].
  rewrite (Qceiling_mk _ _ fl Hfl Sx X0). pose proof (blocks_spec (r_xsize ds) _ ltac:(lia) X0) as (B & _). split; [|split].
  - intros ->. reflexivity.
  - intros H. rewrite (nz_int (- n)) by lia. cbn [bind]. rewrite (count_opp fl Hfl) by lia. pose proof (count_large fl Hfl (r_ysize ds) n ltac:(lia)) as L.
    match goal with |- (if ?c <? 0 then _ else _) = _ => assert (C : c < 0) by nia; apply Z.ltb_lt in C; rewrite C end. reflexivity.
  - intros H. rewrite (nz_int (- n)) by lia. cbn [bind]. rewrite (count_opp fl Hfl) by lia. rewrite (count_small fl Hfl) by lia. rewrite Z.mul_0_r. eexists. split; reflexivity.
Qed.

Lemma turned fl upwind ds : fl_ok fl -> sized ds -> (gt1 ds < 0)%Q -> (0 < gt5 ds)%Q ->
  let m := Qfloor (fl (1 / - gt1 ds)%Q) in let n := Qfloor (fl (1 / gt5 ds)%Q) in
  1 <= m <= r_xsize ds -> 1 <= n <= r_ysize ds ->
  exists tg, mk_tilegrid fl upwind ds = Ok tg /\ 1 <= num_tiles tg /\ forall k, 0 <= k < num_tiles tg -> get_gridlimit_buffer tg k = Ok (0, 1, 0, 1).
Proof.
  intros Hfl [Sx Sy] P1 P5 m n Hm Hn. assert (P1' : (0 < - gt1 ds)%Q) by lra.
  unfold mk_tilegrid, TileModel.fdiv. rewrite !(nz (gt1 ds)) by lra. rewrite !(nz (- gt5 ds)) by lra. cbn [bind].
  rewrite (ceil_opp fl Hfl _ _ (div_opp (gt5 ds))). fold n.
  assert (E : (1 / gt1 ds == - (1 / - gt1 ds))%Q) by (rewrite <- div_opp; rewrite Qopp_involutive; reflexivity). rewrite (ceil_opp fl Hfl _ _ E). fold m.
  rewrite (nz_int (- m)), (nz_int (- n)) by lia. cbn [bind]. rewrite !(count_opp fl Hfl) by lia.
  pose proof (count_large fl Hfl (r_xsize ds) m ltac:(lia)) as L1. pose proof (count_large fl Hfl (r_ysize ds) n ltac:(lia)) as L2.
  set (c := Qfloor (fl (inject_Z (r_xsize ds) / inject_Z m)%Q)) in *. set (r := Qfloor (fl (inject_Z (r_ysize ds) / inject_Z n)%Q)) in *.
  replace (- c * - r) with (c * r) by lia. assert (C : 1 <= c * r) by nia. destruct (Z.ltb_spec (c * r) 0); [lia|].
  eexists. split; [reflexivity|]. cbn [num_tiles]. split; [exact C|]. intros k Hk. unfold get_gridlimit_buffer. cbn [tg_xy].
  assert (T : forall a b d e f g h, tile_grid (- c) (- r) a b d e f g h = repeat (0, 0, 0, 0) (Z.to_nat h)).
  { intros. unfold tile_grid. assert (Zc : zrange (- c) = []) by (unfold zrange; replace (Z.to_nat (- c)) with O by lia; reflexivity). rewrite Zc. cbn [flat_map app length]. rewrite Nat.sub_0_r. reflexivity. }
  rewrite T. destruct (pyget_ok (repeat (0, 0, 0, 0) (Z.to_nat (c * r))) k) as (x & E0 & F0); [unfold zlen; rewrite repeat_length; lia|].
  rewrite E0. pose proof (nth_error_In _ _ F0) as I.
  apply repeat_spec in I. subst x. reflexivity.
Qed.
