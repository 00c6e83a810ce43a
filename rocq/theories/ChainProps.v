(** * C104: from polygons to multipliers, the two programs in a row. *)
From Coq Require Import Qabs Qround Ascii String.
From Verif Require Import Base BaseLemmas PyStr Rounding UtilModel UtilSpec IniModel IniSpec CmdModel CmdSpec PreModel PreSpec PreProps RastModel RastSpec RastProps PrepSpec PrepModel PrepProps
  TileModel TileSpec TileProofs ClipModel TileProps NameModel NameSpec TerrModel TerrSpec TerrProofs TerrProps ShldModel ShldSpec ShldProps TopoModel TopoSpec ReprModel ReprSpec
  SchedModel SchedSpec DistModel ConvModel ConvSpec ConvRunSpec PipeModel PipeSpec PipeProps WholeSpec WholeProps StageModel StageSpec StageProofs StageProps
  ChainSpec ChainProofs.
Open Scope Z_scope.

(** ** The map, read by the multiplier program *)
(** After a preparation that succeeds, the map is one the multiplier program can bring onto
    the elevation raster without losing anything: the land cover it finds for each pixel is
    the class given by the polygons over the centre of that pixel. *)
Theorem C104_land_cover : forall G fp e ge covers tr atof disk default argv l c (f f' : PrepSpec.files G), within fp e -> tree_ok ge -> areas_ok ge ->
  (forall n t, disk n = Some t -> ~ In return_ t) -> line_says argv l -> last_file l None = Some c ->
  PrepModel.main fp ge covers tr atof disk default argv f = (f', Went None) ->
  exists cf n sl ul d dem lcv, reads disk [default; c] cf /\ told cf n /\
    f_vec f (settlements n) = Some sl /\ f_vec f (uses n) = Some ul /\ mask_of f (mask n) d /\
    f_ras f (PrepSpec.elevation n) = Some dem /\ f_ras f' (map_file n) = Some lcv /\
    (settlement_field n <> use_field n -> north_up dem -> (forall p q, tr p p q = q) ->
     exists lc, north_up lcv /\ land_cover tr lcv dem lc /\ (forall r c, (g_at (im_cells lcv) r c == inject_Z (g_at lc r c))%Q) /\
       classes_by covers tr ul dem (clip_all ge d (read (l_features ul))) (use_field n)
         (settled_by e ge d (settlement_field n) (read (l_features sl))) lc).
Proof.
  intros G fp e ge covers tr atof disk default argv l c f f' W TO AO NR L C H.
  destruct (C97_land_cover G fp e ge covers tr atof disk default argv l c f f' W TO AO NR L C H) as (cf & n & sl & ul & d & t & s & m & A1 & A2 & A3 & A4 & A5 & A6 & _ & A7 & _ & _ & D1 & D2 & D3 & D4 & D5 & D6 & D7 & D8 & D9 & V).
  exists cf, n, sl, ul, d, t, m. do 7 (split; [assumption|]). intros Nf Nt Tr. destruct (V Nf) as [_ V2]. clear V.
  set (polygons := clip_all ge d (read (l_features ul))) in *. exists (gmap Qfloor (im_cells m)).
  assert (K : forall r0 c0, let p := point_of tr ul t r0 c0 in let z := Qfloor (g_at (im_cells m) r0 c0) in
    (g_at (im_cells m) r0 c0 == inject_Z z)%Q /\ 0 <= z <= 511 /\
    ((uncovered covers (written polygons) p /\ z = 0) \/
     exists a g u k, topmost covers (written polygons) p a g /\ aget a (use_field n) = Ok u /\ settled_by e ge d (settlement_field n) (read (l_features sl)) g k /\ 0 <= z <= 511 /\ decode z = (k, known use_names u))).
  { intros r0 c0. cbv zeta. destruct (V2 r0 c0) as [U T]. destruct (C78_cases G covers (written polygons) (point_of tr ul t r0 c0)) as [Un|(a & g & To)].
    - pose proof (U Un) as E. assert (F : Qfloor (g_at (im_cells m) r0 c0) = 0) by (rewrite E; reflexivity). rewrite F. split; [exact E|]. split; [lia|]. left. auto.
    - destruct (T a g To) as (u & z & k & E1 & E2 & E3 & E4 & E5). assert (F : Qfloor (g_at (im_cells m) r0 c0) = z) by (rewrite E3; apply Qfloor_Z). rewrite F. split; [exact E3|]. split; [exact E2|]. right. exists a, g, u, k. auto. }
  split; [destruct Nt as [Nx Ny]; split; [rewrite D4|rewrite D6]; assumption|]. split.
  - apply map_cover; try assumption. intros r0 c0 _ _. destruct (K r0 c0) as (K1 & K2 & _). split; assumption.
  - split; [intros r0 c0; exact (proj1 (K r0 c0))|]. split; [exact D1|]. split; [exact D2|]. intros r0 c0 _ _. exact (proj2 (proj2 (K r0 c0))).
Qed.
Print Assumptions C104_land_cover.

(** ** The rows of the tables *)
(** Where the last polygon over the centre of a pixel has a documented land use, the class of
    the pixel is its code, plus a hundred times that of the settlement class; ... *)
Theorem C104_code : forall G (covers : G -> Q * Q -> bool) tr ul dem polygons field settled lc r c a g j use,
  classes_by covers tr ul dem polygons field settled lc -> 0 <= r < g_rows lc -> 0 <= c < g_cols lc ->
  topmost covers (written polygons) (point_of tr ul dem r c) a g -> aget a field = Ok (VStr use) -> In (j, use) use_names ->
  exists i k, g_at lc r c = 100 * i + j /\ settled g k /\ (k = None -> i = 0) /\ (forall name, k = Some name -> In (i, name) settlement_names).
Proof.
  intros G covers tr ul dem polygons field settled lc r c a g j use (_ & _ & K) R C T A J. destruct (K r c R C) as [[U _]|(a' & g' & u & k & T' & A' & S & B & D)].
  - destruct T as (b & e & E & Cv & _). rewrite (U a g) in Cv; [discriminate|]. rewrite E. apply in_or_app. right. left. reflexivity.
  - destruct (topmost_unique _ _ _ _ _ _ _ T T') as [<- <-]. rewrite A in A'. injection A' as <-. rewrite (use_known _ _ J) in D.
    destruct (code_is _ _ _ _ B D J) as (i & E & X). exists i, k. tauto.
Qed.
Print Assumptions C104_code.

(** ... and the terrain and shielding multipliers start from the row of that code in the
    class tables: the last one there is. *)
Theorem C104_rows : forall G (covers : G -> Q * Q -> bool) tr ul dem polygons field settled lc r c a g j use,
  classes_by covers tr ul dem polygons field settled lc -> 0 <= r < g_rows lc -> 0 <= c < g_cols lc ->
  topmost covers (written polygons) (point_of tr ul dem r c) a g -> aget a field = Ok (VStr use) -> In (j, use) use_names ->
  exists i k, settled g k /\ (k = None -> i = 0) /\ (forall name, k = Some name -> In (i, name) settlement_names) /\
    (forall tz v, last_row tz (100 * i + j) v -> g_at (class2mz tz lc) r c = v) /\
    (forall tz, ~ listed tz (100 * i + j) -> g_at (class2mz tz lc) r c = Num 0) /\
    (forall cast tm l1 l2 v, tm = l1 ++ (100 * i + j, v) :: l2 -> ~ In (100 * i + j) (map fst l2) -> g_at (class2ms cast None tm lc) r c = Num (v / 100)) /\
    (forall cast tm, ~ In (100 * i + j) (map fst tm) -> g_at (class2ms cast None tm lc) r c = Num 1).
Proof.
  intros G covers tr ul dem polygons field settled lc r c a g j use Cl R C T A J. destruct (C104_code _ _ _ _ _ _ _ _ _ _ _ _ _ _ _ Cl R C T A J) as (i & k & E & S & N1 & N2).
  exists i, k. do 3 (split; [assumption|]).
  assert (P : g_at lc r c <> -99).
  { destruct Cl as (_ & _ & K). destruct (K r c R C) as [[_ Z0]|(? & ? & ? & ? & _ & _ & _ & B & _)]; lia. }
  rewrite <- E. split; [intros tz v; apply C26_terrain_table|]. split; [intros tz; apply C26_terrain_table|].
  split; [intros cast tm; exact (proj1 (C26_shielding_table cast None tm lc r c ltac:(discriminate) P))|intros cast tm; exact (proj2 (C26_shielding_table cast None tm lc r c ltac:(discriminate) P))].
Qed.
Print Assumptions C104_rows.

(** ** Both programs *)
(** The preparation succeeds; then the multiplier program runs on the elevation raster and the
    map (with the side conditions of C89), and the converter on its output.  Every tile with
    data gets a file with eight bands: in each pixel of each, the product of
    - the terrain multiplier of the land cover given by the polygons,
    - the shielding multiplier of this land cover and the elevation raster,
    - the topographic multiplier of the tile. *)
Theorem C104_run : forall G fp e ge covers tr atof disk default argv l c (f f' : PrepSpec.files G), within fp e -> tree_ok ge -> areas_ok ge ->
  (forall n t, disk n = Some t -> ~ In return_ t) -> line_says argv l -> last_file l None = Some c ->
  PrepModel.main fp ge covers tr atof disk default argv f = (f', Went None) ->
  exists cf n sl ul d dem lcv, reads disk [default; c] cf /\ told cf n /\
    f_vec f (settlements n) = Some sl /\ f_vec f (uses n) = Some ul /\ mask_of f (mask n) d /\
    f_ras f (PrepSpec.elevation n) = Some dem /\ f_ras f' (map_file n) = Some lcv /\
    (settlement_field n <> use_field n -> north_up dem -> (forall p q, tr p p q = q) ->
     exists lc,
       classes_by covers tr ul dem (clip_all ge d (read (l_features ul))) (use_field n)
         (settled_by e ge d (settlement_field n) (read (l_features sl))) lc /\
       forall fl M upwind ds tg sizes mean tz tm cast slope_fn aspect_fn sqrt2 checksum k g xm ym lz
           (name : Z -> str) out lcvp tiles np s0 s listing ctiles mul stats_ok size ops fo,
         fl_ok fl -> fl_line fl M -> good_raster upwind ds -> coords_ok ds -> mk_tilegrid fl upwind ds = Ok tg -> 0 <= k < num_tiles tg ->
         elevation ds dem ->
         r_ysize ds <= M -> r_xsize ds <= M -> (0 < sqrt2)%Q -> positive_table tz -> (0 < g <= 353)%Q ->
         1 <= x_buffer tg -> 1 <= y_buffer tg -> kernel_size fl g <= x_buffer tg -> kernel_size fl g <= y_buffer tg ->
         (forall d, fst (widths fl g d) + snd (widths fl g d) <= x_buffer tg) -> (forall d, fst (widths fl g d) + snd (widths fl g d) <= y_buffer tg) ->
         g_rows xm = r_ysize ds -> g_cols xm = r_xsize ds -> g_rows ym = r_ysize ds -> g_cols ym = r_xsize ds ->
         terrain fl tz lc g = Ok (Some lz) ->
         let sg := run_stages fl tr tg dem sizes mean tz tm cast slope_fn aspect_fn sqrt2 checksum in
         run_ok name out lcvp tiles -> s0 (File lcvp) = Some (as_file lcv) -> (1 <= np)%nat -> empty_dir s0 (pjoin out (lit "shielding")) ->
         reach (cut_dem name out sg) (multipliers_calculate name out lcvp sg) tiles np s0 s -> m s = MDone ->
         lists (fs s) (pjoin out (lit "shielding")) listing -> tile_list listing ctiles ->
         stats_spec stats_ok -> 1 <= size -> interleaving (map cops (split_tiles size ctiles)) ops ->
         foldM (cop_run mul stats_ok out) ops (files (fs s)) = Ok fo ->
         (forall x x' y y', x == x' -> y == y' -> mul x y == mul x' y')%Q ->
         In k tiles -> checksum (as_file (clip_dataset fl tr dem (extent_with_buffer fl tg k))) = true ->
         exists x1 x2 y1 y2 X1 X2 Y1 Y2 x0 y0 e2 e3,
           get_gridlimit tg k = Ok (x1, x2, y1, y2) /\ get_gridlimit_buffer tg k = Ok (X1, X2, Y1, Y2) /\
           get_tile_extent_buffer fl tg k = Ok (x0, y0, e2, e3) /\
           let ts := sizes (im_proj dem) x0 (gt1 ds) y0 (gt5 ds) (Y2 - Y1) (X2 - X1) in
           (0 < mean ts)%Q -> (forall d, widths fl (mean ts) d = widths fl g d) -> kernel_size fl (mean ts) = kernel_size fl g ->
           part_of Y1 Y2 X1 X2 xm (fst ts) -> part_of Y1 Y2 X1 X2 ym (snd ts) ->
           (exists i j, y1 <= i < y2 /\ x1 <= j < x2 /\ listed tz (g_at lc i j)) ->
           exists lt geo bs, topomult fl sqrt2 (mean ts) x0 (- y0)%Q None (window (heights_of dem) Y1 Y2 X1 X2) = Ok lt /\
             fo (m3_path out (name k)) = Some (ConvModel.Raster geo bs) /\
             Forall2 (fun d b => b_desc b = dir_str d /\ g_rows (b_data b) = y2 - y1 /\ g_cols (b_data b) = x2 - x1 /\
               exists os oz ot,
                 In (d, os) (shield slope_fn aspect_fn fl cast tm None lc None (heights_of dem) (Qabs (gt1 ds)) (Qabs (gt5 ds)) xm ym g) /\ In (d, oz) lz /\ In (d, ot) lt /\
                 forall i j, y1 <= i < y2 -> x1 <= j < x2 ->
                   same_num (g_at (b_data b) (i - y1) (j - x1)) (product3 mul (g_at os i j) (g_at oz i j) (g_at ot (i - Y1) (j - X1)))) band_dirs bs).
Proof.
  intros G fp e ge covers tr atof disk default argv l c f f' W TO AO NR L C H.
  destruct (C104_land_cover G fp e ge covers tr atof disk default argv l c f f' W TO AO NR L C H) as (cf & n & sl & ul & d & dem & lcv & A1 & A2 & A3 & A4 & A5 & A6 & A7 & K).
  exists cf, n, sl, ul, d, dem, lcv. do 7 (split; [assumption|]). intros Nf Nt Tr. destruct (K Nf Nt Tr) as (lc & K1 & K2 & _ & K4). exists lc. split; [exact K4|].
  intros fl M upwind ds tg sizes mean tz tm cast slope_fn aspect_fn sqrt2 checksum k g xm ym lz name out lcvp tiles np s0 s listing ctiles mul stats_ok size ops fo Hf HM Hg Hco Hmk Hk Hel.
  exact (C89_run fl M tr upwind ds tg dem lcv lc sizes mean tz tm cast slope_fn aspect_fn sqrt2 checksum k g xm ym lz name out lcvp tiles np s0 s listing ctiles mul stats_ok size ops fo Hf HM Hg Hco Hmk Hk Tr Hel K1 K2).
Qed.
Print Assumptions C104_run.

(** ** Concrete case: the polygons of C97 on the elevation raster of C89: urban transport in
    its left part, water beside it. *)
Definition ch_files : PrepSpec.files (list Z) := Files (f_vec ex_files) (fun _ => Some ReprProps.ex_dem).
Definition ch_run := PrepModel.main (fun x => x) (line_geo all_forward) ex_covers (fun _ _ q => q) (fun _ => 0%Q) ex_disk (lit "multiplier_conf.cfg") [lit "-v"; lit "-c"; lit "my.cfg"] ch_files.
Definition ch_lc : grid Z := Grid 17 25 (fun _ j => if j <? 15 then 311 else 6).
Definition ch_tz : list (Z * num) := [(311, Num (8#10)); (6, Num (12#10))].
Example C104_ex : exists f' lcv tg lz, let fl := fun x : Q => x in
  tree_ok (line_geo all_forward) /\ areas_ok (line_geo all_forward) /\ ch_run = (f', Went None) /\
  f_ras f' (lit "/workspaces/Wind_multipliers/testing/intermediate/meshblobcks.tiff") = Some lcv /\
  (forall r c, 0 <= r < 17 -> 0 <= c < 25 -> (g_at (im_cells lcv) r c == inject_Z (g_at ch_lc r c))%Q) /\
  north_up ReprProps.ex_dem /\ good_raster (3#10) ex_ds /\ coords_ok ex_ds /\ elevation ex_ds ReprProps.ex_dem /\
  mk_tilegrid fl (3#10) ex_ds = Ok tg /\ 1 < num_tiles tg /\ x_buffer tg = 3 /\ y_buffer tg = 3 /\
  positive_table ch_tz /\ terrain fl ch_tz ch_lc 250 = Ok (Some lz) /\ (forall i j, listed ch_tz (g_at ch_lc i j)).
Proof.
  assert (PT : positive_table ch_tz) by (intros cat v [X|[X|[]]]; injection X as <- <-; eexists; (split; [reflexivity|reflexivity])).
  assert (L : forall i j, listed ch_tz (g_at ch_lc i j)) by (intros i j; unfold listed, ch_lc; cbn; destruct (j <? 15); tauto).
  assert (T : exists lz, terrain (fun x : Q => x) ch_tz ch_lc 250 = Ok (Some lz)).
  { destruct (C23_completes (fun x : Q => x) ch_tz ch_lc 250 fl_ok_id ltac:(reflexivity) ltac:(discriminate) ltac:(discriminate) ltac:(discriminate)) as (r & E).
    - intros d. destruct d; vm_compute; discriminate.
    - destruct r as [lz|]; [eauto|]. exfalso. pose proof (proj1 (C24_skipped (fun x : Q => x) ch_tz ch_lc 250 PT ltac:(discriminate) ltac:(discriminate)) E 0 0) as X.
      apply X; [cbn; lia|cbn; lia|exact (L 0 0)]. }
  destruct T as (lz & T). destruct C89_ex as (tg & lz0 & E). cbv zeta in E. destruct E as (_ & _ & E1 & E2 & E3 & E4 & E5 & _ & _ & _ & E6 & E7 & _).
  assert (R : snd ch_run = Went None) by (vm_compute; reflexivity).
  assert (V : match f_ras (fst ch_run) (lit "/workspaces/Wind_multipliers/testing/intermediate/meshblobcks.tiff") with
    | Some v => forallb (fun r => forallb (fun c => Qeq_bool (g_at (im_cells v) r c) (inject_Z (g_at ch_lc r c))) (range2 0 25)) (range2 0 17) | None => false end = true) by (vm_compute; reflexivity).
  destruct (f_ras (fst ch_run) _) as [lcv|] eqn:F; [|discriminate].
  exists (fst ch_run), lcv, tg, lz. cbv zeta. split; [exact forward_ok|]. split; [apply line_areas|]. split; [rewrite <- R; destruct ch_run; reflexivity|]. split; [exact F|].
  split; [intros r c Hr Hc; apply Qeq_bool_eq; rewrite forallb_forall in V; specialize (V r (proj2 (in_range2 0 17 r) Hr)); rewrite forallb_forall in V; exact (V c (proj2 (in_range2 0 25 c) Hc))|].
  split; [split; reflexivity|]. do 8 (split; [assumption|]). split; [exact T|exact L].
Qed.
