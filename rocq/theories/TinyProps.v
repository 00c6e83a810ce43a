(** * C102: rasters and tiles that are too small, in metres, or upside down. *)
From Coq Require Import Qround.
From Verif Require Import Base BaseLemmas Rounding BlrbModel TileModel TileSpec TinySpec TinyModel TinyProofs.
Open Scope Z_scope.

(** A tile's terrain and shielding stages stop at its pixel size exactly if the tile, with its
    buffer, has fewer than three rows or columns; whatever the pixel sizes and the land cover. *)
Theorem C102_too_small size rows cols land :
  1 <= rows -> 1 <= cols -> (tile_widths size rows cols land = Err ValueError <-> rows <= 2 \/ cols <= 2).
Proof. exact (widths_small size rows cols land). Qed.
Print Assumptions C102_too_small.

(** With pixels of one size (a projected raster) every other tile gets past it: 500 m and 200 m
    in cells, the nearest number along the axes and rounded down on the diagonals, if there is
    land, and 100 m rounded down for shielding. *)
Theorem C102_large_enough size rows cols land a b :
  3 <= rows -> 3 <= cols -> (0 < a)%Q -> (0 < b)%Q -> (forall x y, fst (size x y) == a /\ snd (size x y) == b)%Q ->
  let g := ((a + b) / 2)%Q in
  let near m := np_around (m / g)%Q in let down m := Qfloor (m / g)%Q in let diag m := Qfloor (m / ((1414 # 1000) * g))%Q in
  tile_widths size rows cols land = Ok (if land then repeat (near 500%Q, near 200%Q) 4 ++ repeat (diag 500%Q, diag 200%Q) 4 else [], down 100%Q).
Proof. exact (widths_constant size rows cols land a b). Qed.
Print Assumptions C102_large_enough.

(** A buffer of two pixels makes every tile of a raster of three by three or more large enough. *)
Theorem C102_buffer fl upwind ds tg size k land :
  fl_ok fl -> good_raster upwind ds -> mk_tilegrid fl upwind ds = Ok tg ->
  3 <= r_xsize ds -> 3 <= r_ysize ds -> 2 <= x_buffer tg -> 2 <= y_buffer tg -> 0 <= k < num_tiles tg ->
  exists w, get_gridlimit_buffer tg k = Ok w /\ tile_widths size (window_rows w) (window_cols w) land <> Err ValueError.
Proof.
  intros H1 H2 H3 X Y BX BY K. destruct (buffer_wide fl upwind ds tg H1 H2 H3 k X Y BX BY K) as (w & E & R & C). exists w. split; [exact E|].
  rewrite C102_too_small by lia. lia.
Qed.
Print Assumptions C102_buffer.

(** With less, the tiles of the last column can fail in a raster of any size. *)
Theorem C102_last_column_refuted fl upwind ds tg size k land :
  fl_ok fl -> good_raster upwind ds -> mk_tilegrid fl upwind ds = Ok tg ->
  1 < subset_maxcols tg -> last_width (r_xsize ds) (x_step tg) + x_buffer tg <= 2 ->
  (subset_maxcols tg - 1) * subset_maxrows tg <= k < num_tiles tg ->
  exists w, get_gridlimit_buffer tg k = Ok w /\ tile_widths size (window_rows w) (window_cols w) land = Err ValueError.
Proof.
  intros H1 H2 H3 M L K. destruct (last_narrow fl upwind ds tg H1 H2 H3 k M L K) as (w & E & R & C). exists w. split; [exact E|].
  apply C102_too_small; lia.
Qed.
Print Assumptions C102_last_column_refuted.

(** An elevation raster in metres: every pixel becomes a tile of its own, without its
    surroundings, and no tile with data can be calculated. *)
Theorem C102_metres_refuted fl upwind ds :
  fl_ok fl -> sized ds -> in_metres upwind ds ->
  exists tg, mk_tilegrid fl upwind ds = Ok tg /\ num_tiles tg = r_xsize ds * r_ysize ds /\
    forall k, 0 <= k < num_tiles tg ->
      let w := (k / r_ysize ds, k / r_ysize ds + 1, k mod r_ysize ds, k mod r_ysize ds + 1) in
      get_gridlimit tg k = Ok w /\ get_gridlimit_buffer tg k = Ok w /\
      forall size land, tile_widths size (window_rows w) (window_cols w) land = Err ValueError.
Proof.
  intros H1 H2 H3. destruct (metres_windows fl upwind ds H1 H2 H3) as (tg & E & N & W). exists tg. split; [exact E|]. split; [exact N|].
  intros k K w. destruct (W k K) as [W1 W2]. split; [exact W1|]. split; [exact W2|]. intros size land. apply C102_too_small; unfold w, window_rows, window_cols; lia.
Qed.
Print Assumptions C102_metres_refuted.

(** A raster without pixel sizes, and one whose rows go from south to north: an exception, or
    (a raster of fewer rows than a tile) no tiles at all, and the run ends without a word. *)
Theorem C102_no_pixel_size fl upwind ds :
  (gt1 ds == 0 \/ gt5 ds == 0)%Q -> mk_tilegrid fl upwind ds = Err ZeroDivisionError.
Proof. exact (no_size fl upwind ds). Qed.
Print Assumptions C102_no_pixel_size.
Theorem C102_upside_down_refuted fl upwind ds :
  fl_ok fl -> sized ds -> (0 < gt1 ds)%Q -> (0 < gt5 ds)%Q ->
  let n := Qfloor (fl (1 / gt5 ds)%Q) in
  (n = 0 -> mk_tilegrid fl upwind ds = Err ZeroDivisionError) /\
  (1 <= n <= r_ysize ds -> mk_tilegrid fl upwind ds = Err ValueError) /\
  (r_ysize ds < n -> exists tg, mk_tilegrid fl upwind ds = Ok tg /\ num_tiles tg = 0).
Proof. exact (upside_down fl upwind ds). Qed.
Print Assumptions C102_upside_down_refuted.

(** Turned by 180 degrees: every tile is the raster's first pixel, and too small. *)
Theorem C102_turned_refuted fl upwind ds :
  fl_ok fl -> sized ds -> (gt1 ds < 0)%Q -> (0 < gt5 ds)%Q ->
  1 <= Qfloor (fl (1 / - gt1 ds)%Q) <= r_xsize ds -> 1 <= Qfloor (fl (1 / gt5 ds)%Q) <= r_ysize ds ->
  exists tg, mk_tilegrid fl upwind ds = Ok tg /\ 1 <= num_tiles tg /\
    forall k, 0 <= k < num_tiles tg -> get_gridlimit_buffer tg k = Ok (0, 1, 0, 1) /\
      forall size land, tile_widths size 1 1 land = Err ValueError.
Proof.
  intros H1 H2 H3 H4 H5 H6. destruct (turned fl upwind ds H1 H2 H3 H4 H5 H6) as (tg & E & N & W). exists tg. split; [exact E|]. split; [exact N|].
  intros k K. split; [apply W; exact K|]. intros. apply C102_too_small; lia.
Qed.
Print Assumptions C102_turned_refuted.

(** A raster of 25 m pixels and the buffer of the sample configuration, 0.01. *)
Definition metre_ds : raster := TileModel.Raster 4000 3000 500000 25 7000000 (-25).
Example metre_case : sized metre_ds /\ in_metres (1 # 100) metre_ds /\ fl_ok rnd53.
Proof. split; [|split; [|exact rnd53_fl_ok]]; cbv [sized in_metres metre_ds r_xsize r_ysize gt1 gt5]; repeat split; try lia; try discriminate. Qed.
(** A raster of a tenth of a degree, 21 columns and 20 rows, buffer one pixel: the last column of tiles is two pixels wide. *)
Definition last_ds : raster := TileModel.Raster 21 20 140 (1 # 10) (-20) (- (1 # 10)).
Example last_case : exists tg, good_raster (1 # 10) last_ds /\ mk_tilegrid rnd53 (1 # 10) last_ds = Ok tg /\ subset_maxcols tg = 3 /\ subset_maxrows tg = 2 /\
  last_width 21 (x_step tg) + x_buffer tg = 2 /\ get_gridlimit_buffer tg 5 = Ok (19, 21, 9, 20).
Proof.
  eexists. split; [unfold good_raster, last_ds; cbn; repeat split; reflexivity || discriminate|]. split; [vm_compute; reflexivity|]. repeat split; vm_compute; reflexivity.
Qed.
(** The same raster with a buffer of 0.2 degrees has only tiles that are large enough. *)
Example buffer_case : exists tg, good_raster (2 # 10) last_ds /\ mk_tilegrid rnd53 (2 # 10) last_ds = Ok tg /\ x_buffer tg = 2 /\ y_buffer tg = 2 /\ num_tiles tg = 6.
Proof. eexists. split; [unfold good_raster, last_ds; cbn; repeat split; reflexivity || discriminate|]. split; [vm_compute; reflexivity|]. repeat split; vm_compute; reflexivity. Qed.
(** South to north: a tenth of a degree with 20 rows raises, with 9 rows there are no tiles; in metres division by zero;
    a raster without any georeference (pixel size 1 by 1) raises. *)
Definition flip_ds rows dy : raster := TileModel.Raster 20 rows 140 (1 # 10) (-20) dy.
Example flipped_case : Qfloor (1 / (1 # 10)) = 10 /\ mk_tilegrid rnd53 1 (flip_ds 20 (1 # 10)) = Err ValueError /\
  (exists tg, mk_tilegrid rnd53 1 (flip_ds 9 (1 # 10)) = Ok tg /\ num_tiles tg = 0) /\
  mk_tilegrid rnd53 1 (flip_ds 20 25) = Err ZeroDivisionError /\
  mk_tilegrid rnd53 1 (TileModel.Raster 100 100 0 1 0 1) = Err ValueError.
Proof.
  split; [reflexivity|]. split; [vm_compute; reflexivity|]. split; [eexists; split; vm_compute; reflexivity|]. split; vm_compute; reflexivity.
Qed.
Example turned_case : exists tg, mk_tilegrid rnd53 1 (TileModel.Raster 20 20 142 (- (1 # 10)) (-20) (1 # 10)) = Ok tg /\ num_tiles tg = 4.
Proof. eexists. split; vm_compute; reflexivity. Qed.
(** Pixel sizes: two rows stop both stages, three do not. *)
Example too_small_case : tile_widths (fun _ _ => (25, 25)%Q) 2 9 true = Err ValueError /\ tile_widths (fun _ _ => (25, 25)%Q) 2 9 false = Err ValueError /\
  exists w, tile_widths (fun _ _ => (25, 25)%Q) 3 3 true = Ok (w, 4).
Proof. split; [vm_compute; reflexivity|]. split; [vm_compute; reflexivity|]. eexists. vm_compute. reflexivity. Qed.
