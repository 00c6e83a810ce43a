(** * Model of the tile grid (all_multipliers.py, class TileGrid).

    All functions take the rounding function [fl] applied to every float
    result.  int32 overflow of the index arrays (dtype 'i', lines 107-110) is
    not modelled: raster dimensions are assumed to be below 2^31. *)
From Verif Require Import Base.
Open Scope Z_scope.

(** What TileGrid reads from the input raster: size and geotransform entries
    0, 1, 3, 5 (all_multipliers.py:70-84; entries 2 and 4 are not used). *)
Record raster := Raster {
  r_xsize : Z; r_ysize : Z;
  gt0 : Q; gt1 : Q; gt3 : Q; gt5 : Q }.

(** Instance attributes of TileGrid (all_multipliers.py:70-110).
    [tg_xy] zips the four arrays x_start, x_end, y_start, y_end. *)
Record tilegrid := TG {
  x_dim : Z; y_dim : Z;
  x_left : Q; y_upper : Q; pixelwidth : Q; pixelheight : Q;
  x_step : Z; y_step : Z; x_buffer : Z; y_buffer : Z;
  subset_maxcols : Z; subset_maxrows : Z; num_tiles : Z;
  tg_xy : list (Z * Z * Z * Z) }.

(** Python float division: raises on a zero divisor, otherwise rounds. *)
Definition fdiv (fl : Q -> Q) (a b : Q) : res Q :=
  if Qeq_bool b 0 then Err ZeroDivisionError else Ok (fl (a / b)%Q).

(** One (x_start, x_end) or (y_start, y_end) pair, all_multipliers.py:128-135. *)
Definition span (i step buf dim : Z) : Z * Z :=
  (Z.max 0 (i * step - buf), Z.min ((i + 1) * step + buf) dim - 1).

(** tile_grid, all_multipliers.py:116-136.  The arrays are allocated with
    num_tiles zeros (107-110) and the loops overwrite a prefix; the loops run
    over range(subset_maxcols) x range(subset_maxrows). *)
Definition tile_grid (cols rows xs ys xb yb xd yd num : Z) : list (Z * Z * Z * Z) :=
  let filled :=
    flat_map (fun i => map (fun j =>
      let '(x0, x1) := span i xs xb xd in
      let '(y0, y1) := span j ys yb yd in
      (x0, x1, y0, y1)) (zrange rows)) (zrange cols) in
  filled ++ repeat (0, 0, 0, 0) (Z.to_nat num - length filled).

(** TileGrid.__init__, all_multipliers.py:48-114 (opening the raster and
    logging left out; [upwind] is upwind_length).  np.zeros raises ValueError
    on a negative size. *)
Definition mk_tilegrid (fl : Q -> Q) (upwind : Q) (ds : raster) : res tilegrid :=
  let pw := gt1 ds in
  let ph := (- gt5 ds)%Q in
  let* qx := fdiv fl 1 pw in
  let* qy := fdiv fl 1 ph in
  let xs := Qceiling qx in
  let ys := Qceiling qy in
  let* bx := fdiv fl upwind pw in
  let* by_ := fdiv fl upwind ph in
  let xb := py_int bx in
  let yb := py_int by_ in
  let* cx := fdiv fl (inject_Z (r_xsize ds)) (inject_Z xs) in
  let* cy := fdiv fl (inject_Z (r_ysize ds)) (inject_Z ys) in
  let cols := Qceiling cx in
  let rows := Qceiling cy in
  let num := cols * rows in
  if num <? 0 then Err ValueError
  else Ok {| x_dim := r_xsize ds; y_dim := r_ysize ds;
             x_left := gt0 ds; y_upper := (- gt3 ds)%Q;
             pixelwidth := pw; pixelheight := ph;
             x_step := xs; y_step := ys; x_buffer := xb; y_buffer := yb;
             subset_maxcols := cols; subset_maxrows := rows; num_tiles := num;
             tg_xy := tile_grid cols rows xs ys xb yb (r_xsize ds) (r_ysize ds) num |}.

(** get_gridlimit_buffer, all_multipliers.py:138-155: (x1, x2, y1, y2). *)
Definition get_gridlimit_buffer (tg : tilegrid) (k : Z) : res (Z * Z * Z * Z) :=
  let* (xs, xe, ys, ye) := pyget (tg_xy tg) k in
  Ok (xs, xe + 1, ys, ye + 1).

(** get_gridlimit, all_multipliers.py:157-189: (x1, x2, y1, y2). *)
Definition get_gridlimit (tg : tilegrid) (k : Z) : res (Z * Z * Z * Z) :=
  let* (xs, xe, ys, ye) := pyget (tg_xy tg) k in
  let x1 := if negb (xs =? 0) then xs + x_buffer tg else xs in
  let y1 := if negb (ys =? 0) then ys + y_buffer tg else ys in
  let x2 := if negb (xe =? x_dim tg - 1) then xe - x_buffer tg + 1 else x_dim tg in
  let y2 := if negb (ye =? y_dim tg - 1) then ye - y_buffer tg + 1 else y_dim tg in
  Ok (x1, x2, y1, y2).

(** get_startcord, all_multipliers.py:191-204. *)
Definition get_startcord (fl : Q -> Q) (tg : tilegrid) (k : Z) : res (Q * Q) :=
  let* (x1, _, y1, _) := get_gridlimit tg k in
  Ok (fl (x_left tg + fl (inject_Z x1 * pixelwidth tg))%Q,
      fl (y_upper tg + fl (inject_Z y1 * pixelheight tg))%Q).

(** Extents are (x_start, y_start, x_end, y_end). *)
Definition extent := (Q * Q * Q * Q)%type.

(** Common body of get_tile_extent_buffer and get_tile_extent
    (all_multipliers.py:234-239, 254-259). *)
Definition extent_of (fl : Q -> Q) (tg : tilegrid) (lim : Z * Z * Z * Z) : extent :=
  let '(x1, x2, y1, y2) := lim in
  (fl (x_left tg + fl (inject_Z x1 * pixelwidth tg))%Q,
   (- fl (y_upper tg + fl (inject_Z y1 * pixelheight tg)))%Q,
   fl (x_left tg + fl (inject_Z x2 * pixelwidth tg))%Q,
   (- fl (y_upper tg + fl (inject_Z y2 * pixelheight tg)))%Q).

(** get_tile_extent_buffer, all_multipliers.py:221-239. *)
Definition get_tile_extent_buffer (fl : Q -> Q) (tg : tilegrid) (k : Z) : res extent :=
  let* lim := get_gridlimit_buffer tg k in Ok (extent_of fl tg lim).

(** get_tile_extent, all_multipliers.py:241-259. *)
Definition get_tile_extent (fl : Q -> Q) (tg : tilegrid) (k : Z) : res extent :=
  let* lim := get_gridlimit tg k in Ok (extent_of fl tg lim).
