(** * Vocabulary for the tiling properties, independent of the model. *)
From Verif Require Import Base TileModel.
Open Scope Z_scope.

(** A usable input raster: at least one pixel, fewer than 2^31 per axis,
    positive pixel width, north-up (negative geotransform entry 5), and a
    non-negative buffer length. *)
Definition good_raster (upwind : Q) (ds : raster) : Prop :=
  0 < r_xsize ds < 2 ^ 31 /\ 0 < r_ysize ds < 2 ^ 31 /\
  (0 < gt1 ds)%Q /\ (gt5 ds < 0)%Q /\ (0 <= upwind)%Q.

(** Pixel (column x, row y) lies in the half-open window (x1, x2, y1, y2). *)
Definition in_window (w : Z * Z * Z * Z) (x y : Z) : Prop :=
  let '(x1, x2, y1, y2) := w in x1 <= x < x2 /\ y1 <= y < y2.

Definition in_raster (ds : raster) (x y : Z) : Prop :=
  0 <= x < r_xsize ds /\ 0 <= y < r_ysize ds.

(** Position p belongs to the i-th block of a [0,dim) axis cut every [step]. *)
Definition in_block (dim step i p : Z) : Prop :=
  0 <= p < dim /\ p / step = i.

(** Pixel of the nominal (unbuffered) tile in tile column i, tile row j. *)
Definition in_nominal (ds : raster) (xs ys i j x y : Z) : Prop :=
  in_block (r_xsize ds) xs i x /\ in_block (r_ysize ds) ys j y.

(** Number of blocks needed to cut [dim] pixels every [step]. *)
Definition blocks (dim step : Z) : Z := (dim + step - 1) / step.

(** Width of the last block. *)
Definition last_width (dim step : Z) : Z := (dim - 1) mod step + 1.

(** The buffer is narrower than the last block, or there is one block only. *)
Definition buffer_fits (dim step buf : Z) : Prop :=
  dim <= step \/ buf < last_width dim step.

(** Coordinates for which double precision resolves pixels: origin plus extent
    at most 2^40 pixels from zero on each axis. *)
Definition coords_ok (ds : raster) : Prop :=
  (Qabs (gt0 ds) + inject_Z (r_xsize ds) * gt1 ds <= 1099511627776 * gt1 ds)%Q /\
  (Qabs (gt3 ds) + inject_Z (r_ysize ds) * - gt5 ds <= 1099511627776 * - gt5 ds)%Q.
