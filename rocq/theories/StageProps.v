(** * C89: a run over tiles gives the values of the whole raster. *)
From Coq Require Import Qabs.
From Verif Require Import Base BaseLemmas PyStr Rounding TileModel TileSpec TileProofs ClipModel ClipProofs TileProps NameModel NameSpec TerrModel TerrSpec TerrProofs TerrRunProofs TerrProps
  ShldModel ShldSpec ShldProofs ShldKernProofs ShldRunProofs ShldProps TilingProps TopoModel TopoSpec TopoMhProofs TopoStageProofs TopoProps ReprModel ReprSpec ReprProofs ReprProps
  SchedModel SchedSpec DistModel ConvModel ConvSpec ConvRunSpec PipeModel PipeSpec PipeProps WholeSpec WholeProps StageModel StageSpec StageProofs.
Open Scope Z_scope.

(** Tile [k] of the grid, cut from the elevation raster [dem] with its buffer, with the
    land cover [lcv] brought onto it, runs through the three stages.  [ts] are the
    tile's own pixel sizes.  Whenever they give the same numbers of pixels as the mean
    pixel size [g] of the whole raster, and the buffers hold these numbers, the files of
    tile [k] hold, for every direction and pixel,
    - the terrain multiplier of the whole land cover [lc],
    - the shielding multiplier of the whole land cover and elevation raster,
    - the topographic multiplier of the buffered tile. *)
Theorem C89_tile fl M tr upwind ds tg dem lcv lc sizes mean tz tm cast slope_fn aspect_fn sqrt2 checksum k g xm ym lz :
  fl_ok fl -> fl_line fl M -> good_raster upwind ds -> coords_ok ds -> mk_tilegrid fl upwind ds = Ok tg -> 0 <= k < num_tiles tg ->
  (forall p q, tr p p q = q) -> elevation ds dem -> north_up lcv -> land_cover tr lcv dem lc ->
  r_ysize ds <= M -> r_xsize ds <= M -> (0 < sqrt2)%Q -> positive_table tz -> (0 < g <= 353)%Q ->
  1 <= x_buffer tg -> 1 <= y_buffer tg -> kernel_size fl g <= x_buffer tg -> kernel_size fl g <= y_buffer tg ->
  (forall d, fst (widths fl g d) + snd (widths fl g d) <= x_buffer tg) -> (forall d, fst (widths fl g d) + snd (widths fl g d) <= y_buffer tg) ->
  g_rows xm = r_ysize ds -> g_cols xm = r_xsize ds -> g_rows ym = r_ysize ds -> g_cols ym = r_xsize ds ->
  terrain fl tz lc g = Ok (Some lz) ->
  exists x1 x2 y1 y2 X1 X2 Y1 Y2 x0 y0 e2 e3,
    get_gridlimit tg k = Ok (x1, x2, y1, y2) /\ get_gridlimit_buffer tg k = Ok (X1, X2, Y1, Y2) /\
    get_tile_extent_buffer fl tg k = Ok (x0, y0, e2, e3) /\
    let ts := sizes (im_proj dem) x0 (gt1 ds) y0 (gt5 ds) (Y2 - Y1) (X2 - X1) in
    (0 < mean ts)%Q -> (forall d, widths fl (mean ts) d = widths fl g d) -> kernel_size fl (mean ts) = kernel_size fl g ->
    part_of Y1 Y2 X1 X2 xm (fst ts) -> part_of Y1 Y2 X1 X2 ym (snd ts) ->
    (exists i j, y1 <= i < y2 /\ x1 <= j < x2 /\ listed tz (g_at lc i j)) ->
    let sg := run_stages fl tr tg dem sizes mean tz tm cast slope_fn aspect_fn sqrt2 checksum in
    let z := clip sg k in let l := resample sg (as_file lcv) z in
    no_terrain sg l = false /\
    exists lt, topomult fl sqrt2 (mean ts) x0 (- y0)%Q None (window (heights_of dem) Y1 Y2 X1 X2) = Ok lt /\
    forall d, exists vms vmz vmt os oz ot,
      shows (ms sg k (ms_init sg l) z d) (x2 - x1) (y2 - y1) vms /\ shows (mz sg k l d) (x2 - x1) (y2 - y1) vmz /\ shows (mt sg k z d) (x2 - x1) (y2 - y1) vmt /\
      In (d, os) (shield slope_fn aspect_fn fl cast tm None lc None (heights_of dem) (Qabs (gt1 ds)) (Qabs (gt5 ds)) xm ym g) /\ In (d, oz) lz /\ In (d, ot) lt /\
      forall i j, y1 <= i < y2 -> x1 <= j < x2 ->
        vms (i - y1) (j - x1) = g_at os i j /\ same_num (vmz (i - y1) (j - x1)) (g_at oz i j) /\ vmt (i - y1) (j - x1) = g_at ot (i - Y1) (j - X1).
Proof.
  intros Hf HM Hg Hco Hmk Hk Htr Hel Hlu Hlc HMr HMc Hs PT [Hg0 Hg3] Bx By Kx Ky Wx Wy Xr Xc Yr Yc Ez.
  destruct (tile_of_window fl upwind ds tg k Hf Hg Hmk Hco Hk) as (x1 & x2 & y1 & y2 & ext & extb & GL & GB & TE & TB & P1 & P2 & P3 & P4 & P5 & P6 & K).
  destruct extb as [[[x0 y0] e2] e3] eqn:Eext.
  set (X1 := Z.max 0 (x1 - x_buffer tg)) in *. set (X2 := Z.min (r_xsize ds) (x2 + x_buffer tg)) in *.
  set (Y1 := Z.max 0 (y1 - y_buffer tg)) in *. set (Y2 := Z.min (r_ysize ds) (y2 + y_buffer tg)) in *.
  exists x1, x2, y1, y2, X1, X2, Y1, Y2, x0, y0, e2, e3. split; [exact GL|]. split; [exact GB|]. split; [exact TB|].
  intros ts Hts Ew Ek Pxm Pym Lst sg z l.
  destruct (tile_files fl tr upwind ds tg dem lcv lc k Hf Hg Hco Hmk Hk Htr Hel Hlu Hlc _ _ _ _ _ _ _ _ _ _ GL GB TE TB)
    as (PH & NZ & PrZ & XZ & YZ & DXZ & DYZ & PL & NL & PrL & XL & YL & DXL & DYL).
  change (st_clip fl tr tg dem k) with z in *. change (st_resample tr (as_file lcv) z) with l in *. cbn [fst snd] in XZ, YZ. rewrite XZ in XL. rewrite YZ in YL.
  assert (Dz : g_rows (band1 z) = Y2 - Y1 /\ g_cols (band1 z) = X2 - X1) by (destruct PH as (A & B & _); split; [exact A|exact B]).
  assert (Dl : g_rows (band1 l) = Y2 - Y1 /\ g_cols (band1 l) = X2 - X1) by (destruct PL as (A & B & _); split; [exact A|exact B]).
  assert (Sz : pixel_sizes sizes z = ts) by (unfold pixel_sizes; rewrite PrZ, XZ, YZ, DXZ, DYZ, (proj1 Dz), (proj2 Dz); reflexivity).
  assert (Sl : pixel_sizes sizes l = ts) by (unfold pixel_sizes; rewrite PrL, XL, YL, DXL, DYL, (proj1 Dl), (proj2 Dl); reflexivity).
  set (q := ms_init sg l) in *.
  assert (Sq : pixel_sizes sizes q = ts) by exact Sl.
  destruct Hlc as (Lr & Lc & _). destruct Hel as (_ & _ & _ & _ & Er & Ec & _ & Nt & _).
  assert (Tz : is_float (m_type (r_geo z)) = true) by (unfold z, sg; cbn [clip run_stages]; rewrite clip_type; destruct (im_type dem); try reflexivity; contradiction). rewrite Er in Lr. rewrite Ec in Lc.
  set (B := Z.min (x_buffer tg) (y_buffer tg)).
  assert (R0 : 0 <= Y1 <= Z.max 0 (y1 - B)) by (unfold Y1, B; clear -P3 P5 P6; lia). assert (C0 : 0 <= X1 <= Z.max 0 (x1 - B)) by (unfold X1, B; clear -P1 P5 P6; lia).
  assert (R1 : Z.min (r_ysize ds) (y2 + B) <= Y2 <= r_ysize ds) by (unfold Y2, B; clear -P3 P4 P5 P6; lia). assert (C1 : Z.min (r_xsize ds) (x2 + B) <= X2 <= r_xsize ds) by (unfold X2, B; clear -P1 P2 P5 P6; lia).
  assert (YY : Y1 <= y1 /\ y2 <= Y2) by (unfold Y1, Y2; clear -P3 P4 P5 P6; lia). assert (XX : X1 <= x1 /\ x2 <= X2) by (unfold X1, X2; clear -P1 P2 P5 P6; lia).
  assert (HB : 1 <= B /\ kernel_size fl g <= B) by (unfold B; clear -Bx By Kx Ky; lia).
  assert (HW : forall d, fst (widths fl g d) + snd (widths fl g d) <= B) by (intros d; specialize (Wx d); specialize (Wy d); unfold B; clear -Wx Wy; lia).
  clearbody X1 X2 Y1 Y2 B. clear Bx By Kx Ky Wx Wy P5 P6.
  (* terrain *)
  assert (ET : terrain fl tz (classes l) (mean ts) = terrain fl tz (classes l) g) by (apply terrain_widths; exact Ew).
  destruct (terrain_part fl tz lc (classes l) g B y1 y2 x1 x2 Y1 Y2 X1 X2 lz Hf Hg0 Hg3) as (lw & Tw & Ed & Tv); try assumption; rewrite ?Lr, ?Lc; try lia.
  split; [unfold sg; cbn [run_stages no_terrain]; unfold st_no_terrain, width; rewrite Sl, ET, Tw; reflexivity|].
  (* topographic *)
  destruct (C45_total fl M sqrt2 (mean ts) x0 (- y0)%Q None (window (heights_of dem) Y1 Y2 X1 X2) HM Hs Hts) as (lt & Et & Edt & Kt); [change (1 <= Y2 - Y1 <= M); lia|change (1 <= X2 - X1 <= M); lia|].
  exists lt. split; [exact Et|].
  destruct (topomult_part fl sqrt2 (mean ts) x0 (- y0)%Q (window (heights_of dem) Y1 Y2 X1 X2) (heights z) lt) as (lt' & Et' & Ft); try assumption.
  1,2: destruct PH as (A1 & A2 & A3); first [exact A1|exact A2].
  1: change (0 <= Y2 - Y1); lia.
  1: change (0 <= X2 - X1); lia.
  { destruct PH as (A1 & A2 & A3). intros r c Hr Hc. exact (A3 r c Hr Hc). }
  destruct (C45_total fl M sqrt2 (mean ts) x0 (- y0)%Q None (heights z) HM Hs Hts) as (lt2 & Et2 & _ & Kt'); [change (g_rows (heights z)) with (g_rows (band1 z)); lia|change (g_cols (heights z)) with (g_cols (band1 z)); lia|].
  rewrite Et' in Et2. injection Et2 as <-.
  (* shielding *)
  pose proof (shield_window slope_fn aspect_fn fl cast tm None lc (classes l) None (heights_of dem) (heights z) (Qabs (gt1 ds)) (Qabs (gt5 ds)) xm ym (fst ts) (snd ts) g (mean ts) B
    y1 y2 x1 x2 Y1 Y2 X1 X2 Hf Hg0 ltac:(lia) ltac:(lia) Ek) as S. cbv zeta in S. rewrite Lr, Lc in S.
  assert (S' := S ltac:(split; [lia|exact P4]) ltac:(split; [lia|exact P2]) R0 R1 C0 C1 (part_window _ _ _ _ _ _ _ _ Lr Lc PL) (part_window _ _ _ _ _ _ (heights_of dem) _ Er Ec PH)
    (part_window _ _ _ _ _ _ _ _ Xr Xc Pxm) (part_window _ _ _ _ _ _ _ _ Yr Yc Pym)). clear S. rename S' into S.
  set (sw := shield slope_fn aspect_fn fl cast tm None (classes l) None (heights z) (Qabs (gt1 ds)) (Qabs (gt5 ds)) (fst ts) (snd ts) (mean ts)) in *.
  assert (Dsw : map fst sw = dire).
  { unfold sw, shield. destruct (get_slope_aspect _ _ _ _ _ _ _ _) as [sl asp]. apply convo_keys. }
  assert (Zsw : forall d o, In (d, o) sw -> g_rows o = Y2 - Y1 /\ g_cols o = X2 - X1).
  { unfold sw, shield. destruct (get_slope_aspect _ _ _ _ _ _ _ _) as [sl asp]. intros d o I. unfold convo_combine in I.
    pose proof (convo_dirs_size (kernel_size fl (mean ts)) sl asp dire (class2ms cast None tm (classes l))) as F. rewrite Forall_forall in F.
    destruct (F _ I) as [F1 F2]. cbn [snd] in F1, F2. rewrite F1, F2. destruct PL as (A1 & A2 & _). split; [exact A1|exact A2]. }
  assert (Esw : forall d, st_ms fl tg sizes mean slope_fn aspect_fn k q z d = one_band q (cut_border fl tg k q (pick d sw))).
  { intros d. unfold st_ms, sw, shield, width. rewrite Sz, Sq, NZ, DXZ, DYZ.
    replace (band1 q) with (class2ms cast None tm (classes l)) by (unfold q, sg, run_stages, ms_init, st_ms_init, band1; cbn [r_bands b_data]; rewrite NL; reflexivity).
    rewrite (surjective_pairing ts) at 1. cbn [fst snd]. destruct (get_slope_aspect _ _ _ _ _ _ _ _) as [sl asp]. reflexivity. }
  assert (CB : forall v (h : grid num), m_x (r_geo v) = x0 -> m_y (r_geo v) = y0 -> m_dx (r_geo v) = gt1 ds -> m_dy (r_geo v) = gt5 ds -> g_rows h = Y2 - Y1 -> g_cols h = X2 - X1 ->
    exists w, shows (one_band v (cut_border fl tg k v h)) (x2 - x1) (y2 - y1) w /\ forall i j, y1 <= i < y2 -> x1 <= j < x2 -> w (i - y1) (j - x1) = g_at h (i - Y1) (j - X1)).
  { intros v h V1 V2 V3 V4 D1 D2. exists (g_at (cut_border fl tg k v h)).
    assert (EQ : cut_border fl tg k v h = clip_array fl h x0 (- y0)%Q (gt1 ds) (- gt5 ds)%Q ext) by (unfold cut_border, extent_of_tile; rewrite V1, V2, V3, V4, TE; reflexivity).
    pose proof (good_pos _ _ Hg) as [G1 G5].
    destruct (K num h x0 (- y0)%Q) as (O1 & O2 & V); try assumption.
    - cbn [fst]. setoid_replace (x0 - x0)%Q with 0%Q by ring. rewrite Qabs_pos by lra. apply Qle_shift_div_l; lra.
    - cbn [fst snd]. setoid_replace (- - y0 - y0)%Q with 0%Q by ring. rewrite Qabs_pos by lra. apply Qle_shift_div_l; lra.
    - rewrite EQ. split; [|exact V]. unfold one_band. eexists; exists []. cbn [r_bands]. split; [reflexivity|]. cbn [b_data]. split; [exact O2|]. split; [exact O1|]. reflexivity. }
  assert (Din : forall d, In d dire) by (intros d; destruct d; cbn; tauto). assert (Dnd : NoDup dire) by (repeat constructor; cbn; intuition discriminate).
  intros d.
  assert (Iw : exists ow, In (d, ow) lw) by (pose proof (Din d) as I; rewrite <- Ed in I; apply in_map_iff in I; destruct I as ((d' & o) & X & I); cbn in X; subst d'; eauto).
  assert (Iz : exists oz, In (d, oz) lz).
  { destruct (terrain_skip_or_run _ _ _ _ _ Ez) as [|(l' & El & Edz & _)]; [discriminate|]. injection El as <-.
    pose proof (Din d) as I. rewrite <- Edz in I. apply in_map_iff in I. destruct I as ((d' & o) & X & I). cbn in X. subst d'. eauto. }
  assert (It : exists ot, In (d, ot) lt).
  { assert (I : In d (map fst lt)) by (rewrite Edt; destruct d; cbn; tauto). apply in_map_iff in I. destruct I as ((d' & o) & X & I). cbn in X. subst d'. eauto. }
  assert (Is : exists ow, In (d, ow) sw) by (pose proof (Din d) as I; rewrite <- Dsw in I; apply in_map_iff in I; destruct I as ((d' & o) & X & I); cbn in X; subst d'; eauto).
  destruct Iw as (ow & Iw), Iz as (oz & Iz), It as (ot & It), Is as (osw & Is).
  destruct (Tv d ow oz Iw Iz) as (Tr & Tc & Tval).
  destruct (Forall2_in_fst (fun x y => forall i j, y1 <= i < y2 -> x1 <= j < x2 -> g_at x (i - Y1) (j - X1) = g_at y i j) _ _ d osw S Is) as (os & Ios & Sval).
  destruct (Forall2_pick (fun x y => forall r c, 0 <= r < Y2 - Y1 -> 0 <= c < X2 - X1 -> g_at y r c = g_at x r c) lt lt' d ot) as (ot' & It' & Pt & Tpv); try assumption.
  { rewrite Edt. repeat constructor; cbn; intuition discriminate. }
  destruct (Kt' d ot' It') as (Or & Oc & _).
  assert (HR : g_rows (heights z) = Y2 - Y1 /\ g_cols (heights z) = X2 - X1) by (destruct PH as (A & A' & _); split; [exact A|exact A']).
  destruct (CB q (pick d sw)) as (wms & S1 & V1); try assumption; try (rewrite (pick_in d sw ltac:(rewrite Dsw; exact Dnd) osw Is); apply (Zsw d osw Is)).
  destruct (CB l (pick d lw)) as (wmz & S2 & V2); try assumption; try (rewrite (pick_in d lw ltac:(rewrite Ed; exact Dnd) ow Iw); assumption).
  destruct (CB z (pick d lt')) as (wmt & S3 & V3); try assumption; try (rewrite Pt; lia).
  exists wms, wmz, wmt, os, oz, ot.
  split; [change (ms sg k q z d) with (st_ms fl tg sizes mean slope_fn aspect_fn k q z d); rewrite Esw; exact S1|].
  split; [change (mz sg k l d) with (st_mz fl tg sizes mean tz k l d); unfold st_mz, width; rewrite Sl, ET, Tw; exact S2|].
  split; [change (mt sg k z d) with (st_mt fl tg sizes mean sqrt2 k z d); unfold st_mt, width, topo_of_type; rewrite Tz, Sz, NZ, XZ, YZ, Et'; exact S3|].
  split; [exact Ios|]. split; [exact Iz|]. split; [exact It|].
  intros i j Hi Hj. rewrite V1, V2, V3 by assumption. rewrite (pick_in d sw ltac:(rewrite Dsw; exact Dnd) osw Is), (pick_in d lw ltac:(rewrite Ed; exact Dnd) ow Iw), Pt.
  split; [apply Sval; assumption|]. split; [apply Tval; assumption|]. apply Tpv; lia.
Qed.
Print Assumptions C89_tile.

(** ** The run *)
Lemma shows_band1 (v : file) nx ny w : shows v nx ny w -> shows v nx ny (g_at (band1 v)) /\ forall r c, 0 <= r < ny -> 0 <= c < nx -> g_at (band1 v) r c = w r c.
Proof.
  intros (b & rest & E & Ec & Er & V). unfold band1. rewrite E. split; [|exact V]. exists b, rest. repeat split; try assumption.
Qed.
Lemma product3_same mul a a' b b' c c' : (forall x x' y y', x == x' -> y == y' -> mul x y == mul x' y')%Q ->
  same_num a a' -> same_num b b' -> same_num c c' -> same_num (product3 mul a b c) (product3 mul a' b' c').
Proof. intros P. destruct a, a', b, b', c, c'; cbn; try tauto. intros A B C. apply P; [apply P|]; assumption. Qed.
Lemma same_num_eq a b : a = b -> same_num a b.
Proof. intros ->. destruct b; cbn; [exact I|reflexivity]. Qed.

Lemma Forall2_weaken {A B} (P Q : A -> B -> Prop) l l' : (forall a b, P a b -> Q a b) -> Forall2 P l l' -> Forall2 Q l l'.
Proof. intros H F. induction F; constructor; auto. Qed.

(** all_multipliers.py run on any number of processes, followed by the converter on any
    number of processes.  For every tile with data, each band of the combined raster is,
    pixel by pixel, the product of the whole raster's shielding and terrain multipliers
    and the buffered tile's topographic multiplier. *)
Theorem C89_run fl M tr upwind ds tg dem lcv lc sizes mean tz tm cast slope_fn aspect_fn sqrt2 checksum k g xm ym lz
    (name : Z -> str) out lcvp tiles n s0 s listing ctiles mul stats_ok size ops f :
  fl_ok fl -> fl_line fl M -> good_raster upwind ds -> coords_ok ds -> mk_tilegrid fl upwind ds = Ok tg -> 0 <= k < num_tiles tg ->
  (forall p q, tr p p q = q) -> elevation ds dem -> north_up lcv -> land_cover tr lcv dem lc ->
  r_ysize ds <= M -> r_xsize ds <= M -> (0 < sqrt2)%Q -> positive_table tz -> (0 < g <= 353)%Q ->
  1 <= x_buffer tg -> 1 <= y_buffer tg -> kernel_size fl g <= x_buffer tg -> kernel_size fl g <= y_buffer tg ->
  (forall d, fst (widths fl g d) + snd (widths fl g d) <= x_buffer tg) -> (forall d, fst (widths fl g d) + snd (widths fl g d) <= y_buffer tg) ->
  g_rows xm = r_ysize ds -> g_cols xm = r_xsize ds -> g_rows ym = r_ysize ds -> g_cols ym = r_xsize ds ->
  terrain fl tz lc g = Ok (Some lz) ->
  let sg := run_stages fl tr tg dem sizes mean tz tm cast slope_fn aspect_fn sqrt2 checksum in
  run_ok name out lcvp tiles -> s0 (File lcvp) = Some (as_file lcv) -> (1 <= n)%nat -> empty_dir s0 (pjoin out (lit "shielding")) ->
  reach (cut_dem name out sg) (multipliers_calculate name out lcvp sg) tiles n s0 s -> m s = MDone ->
  lists (fs s) (pjoin out (lit "shielding")) listing -> tile_list listing ctiles ->
  stats_spec stats_ok -> 1 <= size -> interleaving (map cops (split_tiles size ctiles)) ops ->
  foldM (cop_run mul stats_ok out) ops (files (fs s)) = Ok f ->
  (forall x x' y y', x == x' -> y == y' -> mul x y == mul x' y')%Q ->
  In k tiles -> checksum (as_file (clip_dataset fl tr dem (extent_with_buffer fl tg k))) = true ->
  exists x1 x2 y1 y2 X1 X2 Y1 Y2 x0 y0 e2 e3,
    get_gridlimit tg k = Ok (x1, x2, y1, y2) /\ get_gridlimit_buffer tg k = Ok (X1, X2, Y1, Y2) /\
    get_tile_extent_buffer fl tg k = Ok (x0, y0, e2, e3) /\
    let ts := sizes (im_proj dem) x0 (gt1 ds) y0 (gt5 ds) (Y2 - Y1) (X2 - X1) in
    (0 < mean ts)%Q -> (forall d, widths fl (mean ts) d = widths fl g d) -> kernel_size fl (mean ts) = kernel_size fl g ->
    part_of Y1 Y2 X1 X2 xm (fst ts) -> part_of Y1 Y2 X1 X2 ym (snd ts) ->
    (exists i j, y1 <= i < y2 /\ x1 <= j < x2 /\ listed tz (g_at lc i j)) ->
    exists lt geo bs, topomult fl sqrt2 (mean ts) x0 (- y0)%Q None (window (heights_of dem) Y1 Y2 X1 X2) = Ok lt /\
      f (m3_path out (name k)) = Some (ConvModel.Raster geo bs) /\
      Forall2 (fun d b => b_desc b = dir_str d /\ g_rows (b_data b) = y2 - y1 /\ g_cols (b_data b) = x2 - x1 /\
        exists os oz ot,
          In (d, os) (shield slope_fn aspect_fn fl cast tm None lc None (heights_of dem) (Qabs (gt1 ds)) (Qabs (gt5 ds)) xm ym g) /\ In (d, oz) lz /\ In (d, ot) lt /\
          forall i j, y1 <= i < y2 -> x1 <= j < x2 ->
            same_num (g_at (b_data b) (i - y1) (j - x1)) (product3 mul (g_at os i j) (g_at oz i j) (g_at ot (i - Y1) (j - X1)))) band_dirs bs.
Proof.
  intros Hf HM Hg Hco Hmk Hk Htr Hel Hlu Hlc HMr HMc Hs PT Hg0 Bx By Kx Ky Wx Wy Xr Xc Yr Yc Ez sg H1 H2 H3 H4 H5 H6 H7 H8 Hst Hsz Hil Hfo Hmul Hin Hdat.
  destruct (C89_tile fl M tr upwind ds tg dem lcv lc sizes mean tz tm cast slope_fn aspect_fn sqrt2 checksum k g xm ym lz Hf HM Hg Hco Hmk Hk Htr Hel Hlu Hlc HMr HMc Hs PT Hg0 Bx By Kx Ky Wx Wy Xr Xc Yr Yc Ez)
    as (x1 & x2 & y1 & y2 & X1 & X2 & Y1 & Y2 & x0 & y0 & e2 & e3 & GL & GB & TB & T).
  exists x1, x2, y1, y2, X1, X2, Y1, Y2, x0, y0, e2, e3. split; [exact GL|]. split; [exact GB|]. split; [exact TB|].
  intros ts A1 A2 A3 A4 A5 A6. cbv zeta in T. fold sg in T. specialize (T A1 A2 A3 A4 A5 A6).
  set (z := clip sg k) in *. set (l := resample sg (as_file lcv) z) in *. destruct T as (NT & lt & Et & D).
  assert (S1 : forall d, shows (ms sg k (ms_init sg l) z d) (x2 - x1) (y2 - y1) (g_at (band1 (ms sg k (ms_init sg l) z d)))) by (intros d; destruct (D d) as (? & ? & ? & ? & ? & ? & A & _); exact (proj1 (shows_band1 _ _ _ _ A))).
  assert (S2 : forall d, shows (mz sg k l d) (x2 - x1) (y2 - y1) (g_at (band1 (mz sg k l d)))) by (intros d; destruct (D d) as (? & ? & ? & ? & ? & ? & _ & A & _); exact (proj1 (shows_band1 _ _ _ _ A))).
  assert (S3 : forall d, shows (mt sg k z d) (x2 - x1) (y2 - y1) (g_at (band1 (mt sg k z d)))) by (intros d; destruct (D d) as (? & ? & ? & ? & ? & ? & _ & _ & A & _); exact (proj1 (shows_band1 _ _ _ _ A))).
  destruct (C64_end_to_end name out lcvp sg tiles n s0 (as_file lcv) s listing ctiles mul stats_ok size ops f k (x2 - x1) (y2 - y1)
    (fun d => g_at (band1 (ms sg k (ms_init sg l) z d))) (fun d => g_at (band1 (mz sg k l d))) (fun d => g_at (band1 (mt sg k z d)))
    H1 H2 H3 H4 H5 H6 H7 H8 Hst Hsz Hil Hfo Hin Hdat NT S1 S2 S3) as (geo & bs & b1 & b2 & F1 & F2 & _).
  exists lt, geo, bs. split; [exact Et|]. split; [exact F1|].
  revert F2. apply Forall2_weaken. intros d b (Bd & Bc & Br & Bv). split; [exact Bd|]. split; [exact Br|]. split; [exact Bc|].
  destruct (D d) as (vms & vmz & vmt & os & oz & ot & Q1 & Q2 & Q3 & I1 & I2 & I3 & V). exists os, oz, ot. split; [exact I1|]. split; [exact I2|]. split; [exact I3|].
  intros i j Hi Hj. destruct (V i j Hi Hj) as (V1 & V2 & V3). rewrite Bv by lia.
  apply product3_same; [exact Hmul| | |].
  - apply same_num_eq. rewrite (proj2 (shows_band1 _ _ _ _ Q1)) by lia. exact V1.
  - rewrite (proj2 (shows_band1 _ _ _ _ Q2)) by lia. exact V2.
  - apply same_num_eq. rewrite (proj2 (shows_band1 _ _ _ _ Q3)) by lia. exact V3.
Qed.
Print Assumptions C89_run.

(** ** Concrete case: the 25 by 17 raster of C05 with 250 m pixels, the heights of C76 and
    two land-cover classes on the same grid. *)
Definition ex_lc : grid Z := Grid 17 25 (fun i _ => if i <? 8 then 1 else 2).
Definition ex_lcv : image := Image UInt8 (lit "a") (1135#10) (1#10) (-105#10) (-1#10) None (gmap inject_Z ex_lc).
Definition ex_tz : list (Z * num) := [(1, Num 1); (2, Num (1#2))].
Definition ex_m : grid Q := Grid 17 25 (fun _ _ => 250%Q).
Definition ex_sizes (_ : str) (_ _ _ _ : Q) (r c : Z) : grid Q * grid Q := (Grid r c (fun _ _ => 250%Q), Grid r c (fun _ _ => 250%Q)).
Definition ex_mean (_ : grid Q * grid Q) : Q := 250%Q.
Lemma ex_cover : land_cover (fun _ _ p => p) ex_lcv ex_dem ex_lc.
Proof.
  split; [reflexivity|]. split; [reflexivity|]. intros r c x y px py Hr Hc Hx Hy E. injection E as <- <-. left. exists r, c.
  apply Qabs_le_iff in Hx. apply Qabs_le_iff in Hy. unfold centre_x, centre_y in *. cbn [ex_dem im_x im_y im_dx im_dy] in *.
  split; [|split; [reflexivity|split; [|discriminate]]].
  - unfold in_pixel, ex_lcv. cbn [im_x im_y im_dx im_dy im_cells gmap g_rows g_cols]. split; [exact Hr|]. split; [exact Hc|]. rewrite !inject_Z_plus. 
    change (inject_Z 1) with 1%Q. repeat split; lra.
  - right. cbn. destruct (r <? 8); [exists 1, 0|exists 2, 0]; (split; [lia|reflexivity]).
Qed.
Example C89_ex : exists tg lz, let fl := fun x : Q => x in
  fl_ok fl /\ fl_line fl 100 /\ good_raster (3#10) ex_ds /\ coords_ok ex_ds /\ mk_tilegrid fl (3#10) ex_ds = Ok tg /\ 1 < num_tiles tg /\
  elevation ex_ds ex_dem /\ north_up ex_lcv /\ land_cover (fun _ _ p => p) ex_lcv ex_dem ex_lc /\ positive_table ex_tz /\
  x_buffer tg = 3 /\ y_buffer tg = 3 /\ kernel_size fl 250 <= 3 /\ (forall d, fst (widths fl 250 d) + snd (widths fl 250 d) <= 3) /\
  terrain fl ex_tz ex_lc 250 = Ok (Some lz) /\
  (forall Y1 Y2 X1 X2 p x dx y dy, part_of Y1 Y2 X1 X2 ex_m (fst (ex_sizes p x dx y dy (Y2 - Y1) (X2 - X1)))) /\
  (forall i j, listed ex_tz (g_at ex_lc i j)).
Proof.
  assert (PT : positive_table ex_tz) by (intros cat v [X|[X|[]]]; injection X as <- <-; eexists; (split; [reflexivity|reflexivity])).
  assert (W : forall d, fst (widths (fun x : Q => x) 250 d) + snd (widths (fun x : Q => x) 250 d) <= 3) by (intros d; destruct d; vm_compute; discriminate).
  assert (L : forall i j, listed ex_tz (g_at ex_lc i j)) by (intros i j; unfold listed, ex_lc; cbn; destruct (i <? 8); tauto).
  assert (T : exists lz, terrain (fun x : Q => x) ex_tz ex_lc 250 = Ok (Some lz)).
  { destruct (C23_completes (fun x : Q => x) ex_tz ex_lc 250 fl_ok_id ltac:(reflexivity) ltac:(discriminate) ltac:(discriminate) ltac:(discriminate)) as (r & E).
    - intros d. destruct d; vm_compute; discriminate.
    - destruct r as [lz|]; [eauto|]. exfalso. pose proof (proj1 (C24_skipped (fun x : Q => x) ex_tz ex_lc 250 PT ltac:(discriminate) ltac:(discriminate)) E 0 0) as X.
      apply X; [cbn; lia|cbn; lia|exact (L 0 0)]. }
  destruct T as (lz & T). eexists. exists lz. cbv zeta. split; [exact fl_ok_id|]. split; [apply fl_line_id|]. split; [repeat split; reflexivity || discriminate|]. split; [exact ex_coords|].
  split; [vm_compute; reflexivity|]. split; [reflexivity|].
  split. { repeat (split; [reflexivity|]). split; [discriminate|]. intros i j. cbn. destruct (Z.even (i + j)); right; [exists 10, 0|exists 20, 0]; (split; [lia|reflexivity]). }
  split; [split; reflexivity|]. split; [exact ex_cover|]. split; [exact PT|]. split; [reflexivity|]. split; [reflexivity|]. split; [vm_compute; discriminate|].
  split; [exact W|]. split; [exact T|]. split; [|exact L].
  intros. split; [reflexivity|]. split; [reflexivity|]. reflexivity.
Qed.
