(** * Model of clipping and coordinates (utilities/nctools.py, all_multipliers.py:clip_dataset). *)
From Verif Require Import Base TileModel.
Open Scope Z_scope.

(** The rounded pixel count used three times in the code:
    [int(np.around((a - b) / p))] with float rounding after each operation
    (nctools.py:39-43, 70-71; all_multipliers.py:350-351). *)
Definition px (fl : Q -> Q) (a b p : Q) : Z := np_around (fl (fl (a - b) / p))%Q.

(** One bound of a Python slice [a:b] applied to a sequence of length n. *)
Definition slice_bound (n a : Z) : Z :=
  let a' := if a <? 0 then a + n else a in Z.max 0 (Z.min a' n).

(** [data[r0:r1, c0:c1]] *)
Definition gslice {A} (g : grid A) (r0 r1 c0 c1 : Z) : grid A :=
  let a := slice_bound (g_rows g) r0 in
  let b := slice_bound (g_rows g) r1 in
  let c := slice_bound (g_cols g) c0 in
  let d := slice_bound (g_cols g) c1 in
  Grid (Z.max 0 (b - a)) (Z.max 0 (d - c)) (fun i j => g_at g (a + i) (c + j)).

(** clip_array, nctools.py:22-50.  [ext] is (x_start, y_start, x_end, y_end).
    Division by a zero pixel size is excluded by the callers' geotransforms and
    not modelled. *)
Definition clip_array {A} (fl : Q -> Q) (data : grid A) (x_left y_upper pw ph : Q) (ext : extent) : grid A :=
  let '(e0, e1, e2, e3) := ext in
  let lon_start := px fl e0 x_left pw in
  let lat_start := px fl (- y_upper)%Q e1 ph in
  let cols := px fl e2 e0 pw in
  let rows := px fl e1 e3 ph in
  let lon_end := lon_start + cols in
  let lat_end := lat_start + rows in
  gslice data lat_start lat_end lon_start lon_end.

(** get_lat_lon, nctools.py:53-80: (lon, lat). *)
Definition get_lat_lon (fl : Q -> Q) (ext : extent) (pw ph : Q) : list Q * list Q :=
  let '(e0, e1, e2, e3) := ext in
  let x_left := e0 in
  let y_upper := (- e1)%Q in
  let cols := px fl e2 e0 pw in
  let rows := px fl e1 e3 ph in
  (map (fun x => fl (fl (x_left + fl ((1#2) * pw)) + fl (inject_Z x * pw)))%Q (zrange cols),
   map (fun y => fl (fl (- y_upper - fl ((1#2) * ph)) - fl (inject_Z y * ph)))%Q (zrange rows)).

(** clip_dataset, all_multipliers.py:331-365: width, height and geotransform
    origin of the temporary DEM tile cut for an extent.  GDAL's resampling of
    the pixel values is not modelled. *)
Definition clip_dataset_size (fl : Q -> Q) (ext : extent) (pw ph : Q) : Z * Z :=
  let '(e0, e1, e2, e3) := ext in
  (px fl e2 e0 pw, px fl e1 e3 ph).
