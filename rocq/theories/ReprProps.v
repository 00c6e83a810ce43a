(** * Theorems about cut and resampled rasters (C76). *)
From Coq Require Import Qabs.
From Verif Require Import Base BaseLemmas PyStr Rounding TileModel TileSpec TileProofs ClipModel ClipProofs TileProps ReprModel ReprSpec ReprProofs.
Open Scope Z_scope.

(** One pixel of [warp]. *)
Lemma warp_at tr src proj x dx y dy high wide r c px py :
  north_up src -> tr proj (im_proj src) (x + (inject_Z c + (1#2)) * dx, y + (inject_Z r + (1#2)) * dy)%Q = (px, py) ->
  let v := g_at (im_cells (warp tr src proj x dx y dy high wide)) r c in
  (forall i j, in_pixel src px py i j ->
     let s := g_at (im_cells src) i j in
     ((exists n, im_nodata src = Some n /\ (s == n)%Q) -> (v == 0)%Q) /\
     ((forall n, im_nodata src = Some n -> ~ (s == n)%Q) -> v = store (dst_type (im_type src)) s)) /\
  ((forall i j, ~ in_pixel src px py i j) -> (v == 0)%Q).
Proof.
  intros [Hx Hy] Et v.
  set (j0 := Qfloor ((px - im_x src) / im_dx src)). set (i0 := Qfloor ((py - im_y src) / im_dy src)).
  assert (Ev : v = if (0 <=? i0) && (i0 <? g_rows (im_cells src)) && (0 <=? j0) && (j0 <? g_cols (im_cells src)) then
      match im_nodata src with
      | Some n => if Qeq_bool (g_at (im_cells src) i0 j0) n then 0%Q else store (dst_type (im_type src)) (g_at (im_cells src) i0 j0)
      | None => store (dst_type (im_type src)) (g_at (im_cells src) i0 j0) end else 0%Q).
  { unfold v, warp. cbn [im_cells g_at]. cbv zeta. rewrite Et. reflexivity. }
  clearbody v.
  destruct (floor_pos px (im_x src) (im_dx src) j0 Hx) as [FX _]. destruct (floor_neg py (im_y src) (im_dy src) i0 Hy) as [FY _].
  specialize (FX eq_refl). specialize (FY eq_refl). split.
  - intros i j (Hi & Hj & P1 & P2 & P3 & P4) s.
    assert (Ej : j0 = j) by (apply (floor_pos px (im_x src) (im_dx src) j Hx); auto).
    assert (Ei : i0 = i) by (apply (floor_neg py (im_y src) (im_dy src) i Hy); auto).
    rewrite Ei, Ej in Ev.
    assert (B : (0 <=? i) && (i <? g_rows (im_cells src)) && (0 <=? j) && (j <? g_cols (im_cells src)) = true) by lia.
    rewrite B in Ev. fold s in Ev. rewrite Ev. destruct (im_nodata src) as [n|].
    + split.
      * intros (n' & E & Q1). injection E as <-. apply Qeq_bool_iff in Q1. rewrite Q1. reflexivity.
      * intros N. destruct (Qeq_bool s n) eqn:Q1; [|reflexivity]. exfalso. apply (N n eq_refl). apply Qeq_bool_iff. exact Q1.
    + split; [intros (n' & E & _); discriminate|reflexivity].
  - intros N. rewrite Ev.
    destruct ((0 <=? i0) && (i0 <? g_rows (im_cells src)) && (0 <=? j0) && (j0 <? g_cols (im_cells src))) eqn:B; [|reflexivity].
    exfalso. apply (N i0 j0). unfold in_pixel. repeat split; try lia; tauto.
Qed.

(** A file that is missing or cannot be opened is an OSError; otherwise the result has the
    grid of the second raster, its projection unless another one is asked for, and 32 bit
    integers if the first raster has, else single precision. *)
Theorem C76_grid : forall tr wkt fs src mtch epsg,
  (forall p, src = Path p \/ mtch = Path p -> (forall r, fs p <> Some (Some r)) -> reproject_dataset tr wkt fs src mtch epsg = Err OSError) /\
  (forall s m, (src = Opened s \/ exists p, src = Path p /\ fs p = Some (Some s)) -> (mtch = Opened m \/ exists p, mtch = Path p /\ fs p = Some (Some m)) ->
   exists o, reproject_dataset tr wkt fs src mtch epsg = Ok o /\
     g_rows (im_cells o) = g_rows (im_cells m) /\ g_cols (im_cells o) = g_cols (im_cells m) /\
     im_x o = im_x m /\ im_dx o = im_dx m /\ im_y o = im_y m /\ im_dy o = im_dy m /\
     (epsg = None \/ epsg = Some 0 -> im_proj o = im_proj m) /\ (forall e, epsg = Some e -> e <> 0 -> im_proj o = wkt e) /\
     (im_type s = Int32 -> im_type o = Int32) /\ (im_type s <> Int32 -> im_type o = Float32)).
Proof.
  intros tr wkt fs src mtch epsg. split.
  - intros p H N. unfold reproject_dataset.
    assert (E : open_source fs (Path p) = Err OSError) by (cbn; destruct (fs p) as [[r|]|] eqn:F; [destruct (N r eq_refl)|reflexivity..]).
    destruct H as [->| ->]; rewrite E; [reflexivity|]. destruct src as [q|r]; cbn [open_source]; [destruct (fs q) as [[r|]|]; reflexivity|reflexivity].
  - intros s m Hs Hm.
    assert (Es : open_source fs src = Ok s) by (destruct Hs as [->|(p & -> & E)]; cbn; [|rewrite E]; reflexivity).
    assert (Em : open_source fs mtch = Ok m) by (destruct Hm as [->|(p & -> & E)]; cbn; [|rewrite E]; reflexivity).
    unfold reproject_dataset. rewrite Es, Em. cbn [bind]. eexists. split; [reflexivity|]. cbn. do 6 (split; [reflexivity|]). split; [|split; [|split]].
    + intros [->| ->]; reflexivity.
    + intros e -> He. apply Z.eqb_neq in He. rewrite He. reflexivity.
    + intros ->. reflexivity.
    + destruct (im_type s); cbn; congruence.
Qed.
Print Assumptions C76_grid.

(** Each pixel of the result holds the value of the pixel of the first raster that contains
    its centre (in the coordinates of that raster), 0 if there is none or it holds the
    no-data value. *)
Theorem C76_values : forall tr wkt fs s m o r c px py,
  north_up s -> reproject_dataset tr wkt fs (Opened s) (Opened m) None = Ok o ->
  tr (im_proj m) (im_proj s) (centre_x m c, centre_y m r) = (px, py) ->
  let v := g_at (im_cells o) r c in
  (forall i j, in_pixel s px py i j ->
     ((exists n, im_nodata s = Some n /\ (g_at (im_cells s) i j == n)%Q) -> (v == 0)%Q) /\
     ((forall n, im_nodata s = Some n -> ~ (g_at (im_cells s) i j == n)%Q) -> kept (im_type s) (g_at (im_cells s) i j) -> (v == g_at (im_cells s) i j)%Q)) /\
  ((forall i j, ~ in_pixel s px py i j) -> (v == 0)%Q).
Proof.
  intros tr wkt fs s m o r c px py Hs E Et v. cbn in E. injection E as <-.
  destruct (warp_at tr s (im_proj m) (im_x m) (im_dx m) (im_y m) (im_dy m) (g_rows (im_cells m)) (g_cols (im_cells m)) r c px py Hs Et) as [A B].
  split; [|exact B]. intros i j P. destruct (A i j P) as [A1 A2]. split; [exact A1|]. intros N K. unfold v. rewrite (A2 N). apply store_kept. exact K.
Qed.
Print Assumptions C76_values.

(** So no class appears that is not in the first raster, except 0. *)
Theorem C76_classes : forall tr wkt fs s m o r c,
  north_up s -> reproject_dataset tr wkt fs (Opened s) (Opened m) None = Ok o ->
  (forall i j, kept (im_type s) (g_at (im_cells s) i j)) ->
  (g_at (im_cells o) r c == 0)%Q \/
  exists i j, 0 <= i < g_rows (im_cells s) /\ 0 <= j < g_cols (im_cells s) /\ (g_at (im_cells o) r c == g_at (im_cells s) i j)%Q.
Proof.
  intros tr wkt fs s m o r c Hs E K. destruct (tr (im_proj m) (im_proj s) (centre_x m c, centre_y m r)) as [px py] eqn:Et.
  destruct (C76_values tr wkt fs s m o r c px py Hs E Et) as [A B].
  set (i := Qfloor ((py - im_y s) / im_dy s)). set (j := Qfloor ((px - im_x s) / im_dx s)). destruct Hs as [Hx Hy].
  destruct (floor_pos px (im_x s) (im_dx s) j Hx) as [FX _]. destruct (floor_neg py (im_y s) (im_dy s) i Hy) as [FY _].
  specialize (FX eq_refl). specialize (FY eq_refl).
  destruct ((0 <=? i) && (i <? g_rows (im_cells s)) && (0 <=? j) && (j <? g_cols (im_cells s))) eqn:I.
  - assert (P : in_pixel s px py i j) by (unfold in_pixel; repeat split; try lia; tauto).
    destruct (A i j P) as [A1 A2]. destruct (im_nodata s) as [n|].
    + destruct (Qeq_dec (g_at (im_cells s) i j) n) as [Q1|Q1]; [left; apply A1; eauto|].
      right. exists i, j. split; [lia|]. split; [lia|]. apply A2; [|apply K]. intros n' E'. injection E' as <-. exact Q1.
    + right. exists i, j. split; [lia|]. split; [lia|]. apply A2; [discriminate|apply K].
  - left. apply B. intros i' j' (Hi & Hj & P1 & P2 & P3 & P4).
    assert (j = j') by (apply (floor_pos px (im_x s) (im_dx s) j' Hx); auto).
    assert (i = i') by (apply (floor_neg py (im_y s) (im_dy s) i' Hy); auto). lia.
Qed.
Print Assumptions C76_classes.

(** The elevation tile cut for tile [k] of the grid made from the elevation raster holds exactly the
    pixels of the buffered window of that tile, although its corner is computed in floating point, and
    lies where they lie, up to 1/2048 of a pixel. *)
Theorem C76_tile : forall fl tr upwind ds dem tg k,
  fl_ok fl -> good_raster upwind ds -> coords_ok ds -> mk_tilegrid fl upwind ds = Ok tg -> 0 <= k < num_tiles tg ->
  (forall p q, tr p p q = q) ->
  im_x dem = gt0 ds -> im_dx dem = gt1 ds -> im_y dem = gt3 ds -> im_dy dem = gt5 ds ->
  g_rows (im_cells dem) = r_ysize ds -> g_cols (im_cells dem) = r_xsize ds ->
  im_nodata dem = None -> (forall i j, kept (im_type dem) (g_at (im_cells dem) i j)) ->
  exists X1 X2 Y1 Y2 ext, get_gridlimit_buffer tg k = Ok (X1, X2, Y1, Y2) /\ get_tile_extent_buffer fl tg k = Ok ext /\
    let o := clip_dataset fl tr dem ext in let t := im_cells o in
    im_proj o = im_proj dem /\ im_dx o = im_dx dem /\ (im_dy o == im_dy dem)%Q /\ (im_type o = Int32 <-> im_type dem = Int32) /\
    (Qabs (im_x o - (im_x dem + inject_Z X1 * im_dx dem)) <= (1#2048) * im_dx dem)%Q /\
    (Qabs (im_y o - (im_y dem + inject_Z Y1 * im_dy dem)) <= (1#2048) * - im_dy dem)%Q /\
    g_rows t = Y2 - Y1 /\ g_cols t = X2 - X1 /\
    forall i j, 0 <= i < Y2 - Y1 -> 0 <= j < X2 - X1 -> (g_at t i j == g_at (im_cells dem) (Y1 + i) (X1 + j))%Q.
Proof.
  intros fl tr upwind ds dem tg k Hfl Hg Hco Hmk Hk Htr Ex Edx Ey Edy Er Ec Nd K.
  destruct (clip_recovers fl Hfl upwind ds tg Hg Hmk Hco k Hk) as (x1 & x2 & y1 & y2 & X1 & X2 & Y1 & Y2 & ext0 & ext & GL & GB & _ & EB & SZ & _).
  destruct (buffer_contains fl upwind ds tg k Hfl Hg Hmk Hk)
    as (a1 & a2 & b1 & b2 & A1 & A2 & B1 & B2 & GL' & GB' & Bx1 & Bx2 & Bx3 & By1 & By2 & By3).
  rewrite GB in GB'. injection GB' as <- <- <- <-.
  destruct (mk_tilegrid_inv fl upwind ds tg Hfl Hg Hmk) as (_ & _ & El & Eu & Ew & Eh & _).
  exists X1, X2, Y1, Y2, ext. split; [exact GB|]. split; [exact EB|].
  unfold get_tile_extent_buffer in EB. rewrite GB in EB. cbn [bind] in EB. injection EB as EB.
  pose proof Hg as (Dx & Dy & Hw & Hh & Hu). destruct Hco as [C1 C2].
  assert (Hh' : (0 < - gt5 ds)%Q) by lra.
  assert (CX : (Qabs (fl (gt0 ds + fl (inject_Z X1 * gt1 ds)) - (gt0 ds + inject_Z X1 * gt1 ds)) <= (1#2048) * gt1 ds)%Q)
    by (setoid_replace ((1#2048) * gt1 ds)%Q with (gt1 ds / 1024 / 2)%Q by field; apply (coord_err fl Hfl (gt0 ds) (gt1 ds) X1 (r_xsize ds)); [exact Hw|lia|exact C1]).
  assert (CY : (Qabs (fl (- gt3 ds + fl (inject_Z Y1 * - gt5 ds)) - (- gt3 ds + inject_Z Y1 * - gt5 ds)) <= (1#2048) * - gt5 ds)%Q)
    by (setoid_replace ((1#2048) * - gt5 ds)%Q with (- gt5 ds / 1024 / 2)%Q by field; apply (coord_err fl Hfl (- gt3 ds)%Q (- gt5 ds)%Q Y1 (r_ysize ds)); [exact Hh'|lia|rewrite Qabs_opp; exact C2]).
  unfold extent_of in EB. rewrite El, Eu, Ew, Eh in EB. subst ext.
  intros o t. unfold t, o, clip_dataset. rewrite Edx, Edy. cbv beta iota zeta. rewrite SZ. cbv beta iota zeta.
  split; [reflexivity|]. split; [exact (eq_sym Edx) || reflexivity|].
  split; [cbn [warp im_dy]; lra|]. split; [cbn; destruct (im_type dem); cbn; split; congruence|].
  split; [cbn [warp im_x]; rewrite Ex; exact CX|].
  split; [cbn [warp im_y]; rewrite Ey; apply Qabs_le_iff; apply Qabs_le_iff in CY; lra|].
  split; [reflexivity|]. split; [reflexivity|].
  intros i j Hi Hj.
  match goal with |- context [warp tr dem ?p ?x ?dx ?y ?dy ?h ?w] =>
    destruct (warp_at tr dem p x dx y dy h w i j (x + (inject_Z j + (1#2)) * dx)%Q (y + (inject_Z i + (1#2)) * dy)%Q) as [A _];
    [split; [rewrite Edx; exact Hw|rewrite Edy; exact Hh]|apply Htr|] end.
  destruct (A (Y1 + i) (X1 + j)) as [_ A2].
  - apply Qabs_le_iff in CX. apply Qabs_le_iff in CY.
    unfold in_pixel. rewrite Ex, Edx, Ey, Edy, Er, Ec, !inject_Z_plus. change (inject_Z 1) with 1%Q.
    split; [lia|]. split; [lia|]. repeat split; lra.
  - rewrite (A2 ltac:(rewrite Nd; discriminate)). apply store_kept. apply K.
Qed.
Print Assumptions C76_tile.

Definition one (t : dtype) (v : Q) : image := Image t (lit "a") 0 1 0 (-1) None (Grid 1 1 (fun _ _ => v)).

(** "Codes are kept" is false of larger codes in a raster of unsigned 32 bit integers, and
    "pixels without data stay without data" of the pixels beside the first raster: they get class 0. *)
Theorem C76_large_refuted : exists o, reproject_dataset (fun _ _ q => q) (fun _ => []) (fun _ => None) (Opened (one UInt32 16777217)) (Opened (one UInt8 0)) None = Ok o /\
  (g_at (im_cells o) 0 0 == 16777216)%Q.
Proof. eexists. split; [reflexivity|]. vm_compute. reflexivity. Qed.
Print Assumptions C76_large_refuted.

Theorem C76_outside_refuted : exists o,
  reproject_dataset (fun _ _ q => q) (fun _ => []) (fun _ => None) (Opened (one Int32 7)) (Opened (Image UInt8 (lit "a") 0 1 0 (-1) None (Grid 1 2 (fun _ _ => 0%Q)))) None = Ok o /\
  (g_at (im_cells o) 0 0 == 7)%Q /\ (g_at (im_cells o) 0 1 == 0)%Q /\ im_nodata o = None.
Proof. eexists. split; [reflexivity|]. repeat split; vm_compute; reflexivity. Qed.
Print Assumptions C76_outside_refuted.

(** Land-cover codes and single-precision heights are kept; a pixel of 2 by 2 resampled to the centre. *)
Example C76_example : kept UInt8 211 /\ kept Float64 (12345 # 16) /\ north_up (one UInt8 211) /\ in_pixel (one UInt8 211) (1#2) (-1#2) 0 0.
Proof.
  split; [right; exists 211, 0; split; [lia|reflexivity]|]. split; [right; exists 12345, (-4); split; [lia|reflexivity]|].
  split; [split; reflexivity|]. unfold in_pixel. cbn. repeat split; try lia; unfold Qle, Qlt; cbn; lia.
Qed.

(** The elevation raster of the example of C05, with heights of 10 and 20 metres, cut for each tile. *)
Definition ex_dem : image := Image Float32 (lit "a") (1135#10) (1#10) (-105#10) (-1#10) None
  (Grid 17 25 (fun i j => if Z.even (i + j) then 10%Q else 20%Q)).
Example C76_tile_example : exists tg, fl_ok rnd53 /\ good_raster (2#10) ex_ds /\ coords_ok ex_ds /\ mk_tilegrid rnd53 (2#10) ex_ds = Ok tg /\ 1 < num_tiles tg /\
  (forall i j, kept (im_type ex_dem) (g_at (im_cells ex_dem) i j)).
Proof.
  destruct C05_C06_ex as (tg & H1 & H2 & H3 & H4 & _). exists tg. split; [exact H1|]. split; [exact H2|]. split; [exact H3|]. split; [exact H4|].
  split; [vm_compute in H4; injection H4 as <-; reflexivity|].
  intros i j. cbn. destruct (Z.even (i + j)); right; [exists 10, 0|exists 20, 0]; (split; [lia|reflexivity]).
Qed.
