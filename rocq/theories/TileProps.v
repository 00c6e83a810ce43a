(** * Theorems about tiles (C01-C06). *)
From Verif Require Import Base BaseLemmas Rounding TileModel TileSpec TileProofs ClipModel ClipProofs.
Open Scope Z_scope.

(** A raster of 25 x 17 pixels of 1/10 degree, buffer 0.2 degree, used as the
    concrete case throughout; and the raster of the C02 counterexample: one
    pixel more than one degree of one-arc-second pixels. *)
Definition ex_ds : raster := Raster 25 17 (1135#10) (1#10) (-105#10) (-1#10).
Definition ex_bad : raster := Raster 3601 3601 (1135#10) (1#3600) (-105#10) (-1#3600).
Lemma ex_good : good_raster (2#10) ex_ds.
Proof. unfold good_raster, ex_ds; cbn. repeat split; reflexivity || discriminate. Qed.
Lemma ex_bad_good : good_raster (1#100) ex_bad.
Proof. unfold good_raster, ex_ds; cbn. repeat split; reflexivity || discriminate. Qed.
Lemma ex_coords : coords_ok ex_ds.
Proof. vm_compute. split; discriminate. Qed.

(** ** C01: the unbuffered tiles cover the raster, stay inside it, none is empty. *)
Theorem C01_tiles_cover fl upwind ds tg :
  fl_ok fl -> good_raster upwind ds -> mk_tilegrid fl upwind ds = Ok tg ->
  (forall x y, in_raster ds x y ->
     exists k w, 0 <= k < num_tiles tg /\ get_gridlimit tg k = Ok w /\ in_window w x y) /\
  (forall k, 0 <= k < num_tiles tg ->
     exists w, get_gridlimit tg k = Ok w /\
       (exists x y, in_window w x y) /\
       (forall x y, in_window w x y -> in_raster ds x y)).
Proof. exact (tiles_cover fl upwind ds tg). Qed.
Print Assumptions C01_tiles_cover.

Theorem C01_grid_exists fl upwind ds :
  fl_ok fl -> good_raster upwind ds -> exists tg, mk_tilegrid fl upwind ds = Ok tg.
Proof. exact (mk_tilegrid_ok fl upwind ds). Qed.
Print Assumptions C01_grid_exists.

Example C01_ex : exists tg, fl_ok rnd53 /\ good_raster (2#10) ex_ds /\ mk_tilegrid rnd53 (2#10) ex_ds = Ok tg /\
  num_tiles tg = 6 /\ get_gridlimit tg 3 = Ok (10, 20, 10, 17).
Proof.
  eexists. split; [exact rnd53_fl_ok|]. split; [exact ex_good|].
  split; [vm_compute; reflexivity|]. split; vm_compute; reflexivity.
Qed.

(** ** C02: tiles are pairwise disjoint exactly when, on each axis, there is a
    single block or the buffer is narrower than the last block. *)
Theorem C02_tiles_disjoint_iff fl upwind ds tg :
  fl_ok fl -> good_raster upwind ds -> mk_tilegrid fl upwind ds = Ok tg ->
  (forall k k' w w' x y, 0 <= k < num_tiles tg -> 0 <= k' < num_tiles tg ->
     get_gridlimit tg k = Ok w -> get_gridlimit tg k' = Ok w' ->
     in_window w x y -> in_window w' x y -> k = k')
  <-> buffer_fits (r_xsize ds) (x_step tg) (x_buffer tg) /\
      buffer_fits (r_ysize ds) (y_step tg) (y_buffer tg).
Proof. exact (tiles_disjoint_iff fl upwind ds tg). Qed.
Print Assumptions C02_tiles_disjoint_iff.

Example C02_ex : exists tg, mk_tilegrid rnd53 (2#10) ex_ds = Ok tg /\
  buffer_fits (r_xsize ex_ds) (x_step tg) (x_buffer tg) /\ buffer_fits (r_ysize ex_ds) (y_step tg) (y_buffer tg).
Proof.
  eexists. split; [vm_compute; reflexivity|]. split; right; reflexivity.
Qed.

(** Disjointness does fail on an ordinary raster with the shipped buffer:
    3601 x 3601 one-arc-second pixels, upwind length 0.01. *)
Theorem C02_disjoint_refuted :
  exists ds tg, good_raster (1#100) ds /\ mk_tilegrid rnd53 (1#100) ds = Ok tg /\
    exists k k' w w' x y, k <> k' /\ 0 <= k < num_tiles tg /\ 0 <= k' < num_tiles tg /\
      get_gridlimit tg k = Ok w /\ get_gridlimit tg k' = Ok w' /\ in_window w x y /\ in_window w' x y.
Proof.
  exists ex_bad. eexists. split; [exact ex_bad_good|]. split; [vm_compute; reflexivity|].
  exists 0, 1. do 2 eexists. exists 0, 3600.
  split; [discriminate|]. split; [vm_compute; split; [discriminate|reflexivity]|].
  split; [vm_compute; split; [discriminate|reflexivity]|].
  split; [vm_compute; reflexivity|]. split; [vm_compute; reflexivity|].
  vm_compute. repeat split; reflexivity || discriminate.
Qed.
Print Assumptions C02_disjoint_refuted.

(** When the buffer fits, tile k is exactly its nominal block. *)
Theorem C02_tile_is_block fl upwind ds tg k :
  fl_ok fl -> good_raster upwind ds -> mk_tilegrid fl upwind ds = Ok tg ->
  buffer_fits (r_xsize ds) (x_step tg) (x_buffer tg) ->
  buffer_fits (r_ysize ds) (y_step tg) (y_buffer tg) ->
  0 <= k < num_tiles tg ->
  exists w, get_gridlimit tg k = Ok w /\
    forall x y, in_window w x y <->
      in_nominal ds (x_step tg) (y_step tg) (k / subset_maxrows tg) (k mod subset_maxrows tg) x y.
Proof. exact (tile_window_nominal fl upwind ds tg k). Qed.
Print Assumptions C02_tile_is_block.

(** ** C03: the buffered window is the nominal block dilated by the buffer and
    cut to the raster; it contains the unbuffered window. *)
Theorem C03_buffered_window fl upwind ds tg k :
  fl_ok fl -> good_raster upwind ds -> mk_tilegrid fl upwind ds = Ok tg ->
  0 <= k < num_tiles tg ->
  exists w, get_gridlimit_buffer tg k = Ok w /\
    forall x y, in_window w x y <->
      (in_raster ds x y /\ exists x' y',
        in_nominal ds (x_step tg) (y_step tg) (k / subset_maxrows tg) (k mod subset_maxrows tg) x' y' /\
        Z.abs (x - x') <= x_buffer tg /\ Z.abs (y - y') <= y_buffer tg).
Proof. exact (buffered_window fl upwind ds tg k). Qed.
Print Assumptions C03_buffered_window.

Theorem C03_buffer_contains fl upwind ds tg k :
  fl_ok fl -> good_raster upwind ds -> mk_tilegrid fl upwind ds = Ok tg ->
  0 <= k < num_tiles tg ->
  exists x1 x2 y1 y2 X1 X2 Y1 Y2,
    get_gridlimit tg k = Ok (x1, x2, y1, y2) /\ get_gridlimit_buffer tg k = Ok (X1, X2, Y1, Y2) /\
    0 <= X1 <= x1 /\ x1 < x2 <= X2 /\ X2 <= r_xsize ds /\
    0 <= Y1 <= y1 /\ y1 < y2 <= Y2 /\ Y2 <= r_ysize ds.
Proof. exact (buffer_contains fl upwind ds tg k). Qed.
Print Assumptions C03_buffer_contains.

Example C03_ex : exists tg, mk_tilegrid rnd53 (2#10) ex_ds = Ok tg /\
  x_buffer tg = 2 /\ get_gridlimit_buffer tg 3 = Ok (8, 22, 8, 17).
Proof. eexists. split; [vm_compute; reflexivity|]. split; vm_compute; reflexivity. Qed.

(** ** C04: number and size of tiles, valid tile numbers. *)
Theorem C04_tile_sizes fl upwind ds tg :
  fl_ok fl -> good_raster upwind ds -> mk_tilegrid fl upwind ds = Ok tg ->
  num_tiles tg = blocks (r_xsize ds) (x_step tg) * blocks (r_ysize ds) (y_step tg) /\
  ((1 - u53) / gt1 ds <= inject_Z (x_step tg) /\ inject_Z (x_step tg) < (1 + u53) / gt1 ds + 1)%Q /\
  ((1 - u53) / - gt5 ds <= inject_Z (y_step tg) /\ inject_Z (y_step tg) < (1 + u53) / - gt5 ds + 1)%Q /\
  (upwind * (1 - u53) / gt1 ds - 1 < inject_Z (x_buffer tg) /\
    inject_Z (x_buffer tg) <= upwind * (1 + u53) / gt1 ds)%Q /\
  (upwind * (1 - u53) / - gt5 ds - 1 < inject_Z (y_buffer tg) /\
    inject_Z (y_buffer tg) <= upwind * (1 + u53) / - gt5 ds)%Q.
Proof. exact (tile_sizes fl upwind ds tg). Qed.
Print Assumptions C04_tile_sizes.

Theorem C04_tile_numbers fl upwind ds tg k :
  fl_ok fl -> good_raster upwind ds -> mk_tilegrid fl upwind ds = Ok tg ->
  (get_gridlimit tg k = Err IndexError <-> ~ (- num_tiles tg <= k < num_tiles tg)).
Proof. exact (tile_index_errors fl upwind ds tg k). Qed.
Print Assumptions C04_tile_numbers.

(** ** C05: clipping a buffered tile to the unbuffered extent returns exactly
    the unbuffered tile's pixels, despite float rounding of the extents. *)
Theorem C05_clip_recovers fl upwind ds tg k :
  fl_ok fl -> good_raster upwind ds -> mk_tilegrid fl upwind ds = Ok tg ->
  0 <= k < num_tiles tg -> coords_ok ds ->
    exists x1 x2 y1 y2 X1 X2 Y1 Y2 ext extb,
      get_gridlimit tg k = Ok (x1, x2, y1, y2) /\
      get_gridlimit_buffer tg k = Ok (X1, X2, Y1, Y2) /\
      get_tile_extent fl tg k = Ok ext /\
      get_tile_extent_buffer fl tg k = Ok extb /\
      clip_dataset_size fl extb (gt1 ds) (- gt5 ds) = (X2 - X1, Y2 - Y1) /\
      forall (A : Type) (data : grid A) (xl yu : Q),
        (Qabs (xl - fst (fst (fst extb))) <= gt1 ds / 8)%Q ->
        (Qabs (- yu - snd (fst (fst extb))) <= - gt5 ds / 8)%Q ->
        g_rows data = Y2 - Y1 -> g_cols data = X2 - X1 ->
        let out := clip_array fl data xl yu (gt1 ds) (- gt5 ds) ext in
        g_rows out = y2 - y1 /\ g_cols out = x2 - x1 /\
        (forall i j, 0 <= i < y2 - y1 -> 0 <= j < x2 - x1 ->
           in_grid data (y1 - Y1 + i) (x1 - X1 + j) /\
           g_at out i j = g_at data (y1 - Y1 + i) (x1 - X1 + j)).
Proof. intros H1 H2 H3 H4 H5. exact (clip_recovers fl H1 upwind ds tg H2 H3 H5 k H4). Qed.
Print Assumptions C05_clip_recovers.

(** ** C06: as many longitudes and latitudes as columns and rows of the tile;
    each is the centre of its pixel, to within 1/512 of a pixel in floating
    point and exactly in exact arithmetic. *)
Theorem C06_lat_lon_centres fl upwind ds tg k :
  fl_ok fl -> good_raster upwind ds -> mk_tilegrid fl upwind ds = Ok tg ->
  0 <= k < num_tiles tg -> coords_ok ds ->
    exists x1 x2 y1 y2 ext lon lat,
      get_gridlimit tg k = Ok (x1, x2, y1, y2) /\
      get_tile_extent fl tg k = Ok ext /\
      get_lat_lon fl ext (gt1 ds) (- gt5 ds) = (lon, lat) /\
      zlen lon = x2 - x1 /\ zlen lat = y2 - y1 /\
      (forall j, 0 <= j < x2 - x1 -> exists v, nth_error lon (Z.to_nat j) = Some v /\
         (Qabs (v - (gt0 ds + (inject_Z (x1 + j) + (1#2)) * gt1 ds)) <= gt1 ds / 512)%Q) /\
      (forall i, 0 <= i < y2 - y1 -> exists v, nth_error lat (Z.to_nat i) = Some v /\
         (Qabs (v - (gt3 ds + (inject_Z (y1 + i) + (1#2)) * gt5 ds)) <= - gt5 ds / 512)%Q).
Proof. intros H1 H2 H3 H4 H5. exact (lat_lon_centres fl H1 upwind ds tg H2 H3 H5 k H4). Qed.
Print Assumptions C06_lat_lon_centres.

Theorem C06_lat_lon_exact upwind ds tg k :
  good_raster upwind ds -> mk_tilegrid (fun x => x) upwind ds = Ok tg ->
  0 <= k < num_tiles tg -> coords_ok ds ->
  exists x1 x2 y1 y2 ext lon lat,
    get_gridlimit tg k = Ok (x1, x2, y1, y2) /\
    get_tile_extent (fun x => x) tg k = Ok ext /\
    get_lat_lon (fun x => x) ext (gt1 ds) (- gt5 ds) = (lon, lat) /\
    zlen lon = x2 - x1 /\ zlen lat = y2 - y1 /\
    (forall j v, nth_error lon (Z.to_nat j) = Some v -> 0 <= j ->
       (v == gt0 ds + (inject_Z (x1 + j) + (1#2)) * gt1 ds)%Q) /\
    (forall i v, nth_error lat (Z.to_nat i) = Some v -> 0 <= i ->
       (v == gt3 ds + (inject_Z (y1 + i) + (1#2)) * gt5 ds)%Q).
Proof. exact (lat_lon_exact upwind ds tg k). Qed.
Print Assumptions C06_lat_lon_exact.

(** The hypotheses of C05 and C06 hold for the concrete raster. *)
Example C05_C06_ex : exists tg, fl_ok rnd53 /\ good_raster (2#10) ex_ds /\ coords_ok ex_ds /\
  mk_tilegrid rnd53 (2#10) ex_ds = Ok tg /\ 0 <= 3 < num_tiles tg.
Proof.
  eexists. split; [exact rnd53_fl_ok|]. split; [exact ex_good|]. split; [exact ex_coords|].
  split; [vm_compute; reflexivity|]. vm_compute. split; [discriminate|reflexivity].
Qed.
