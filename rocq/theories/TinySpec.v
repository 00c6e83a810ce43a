(** * Rasters and tiles the programs can and cannot work on (C102). *)
From Verif Require Import Base TileModel.
Open Scope Z_scope.

(** A raster of at least one pixel that is not too large for the index arrays. *)
Definition sized (ds : raster) : Prop := 0 < r_xsize ds < 2 ^ 31 /\ 0 < r_ysize ds < 2 ^ 31.
(** Pixels of at least one unit, so that the unit is hardly a degree; a buffer of at most half a pixel. *)
Definition in_metres (upwind : Q) (ds : raster) : Prop :=
  (1 <= gt1 ds)%Q /\ (1 <= - gt5 ds)%Q /\ (0 <= upwind)%Q /\ (2 * upwind <= gt1 ds)%Q /\ (2 * upwind <= - gt5 ds)%Q.
(** The numbers of rows and columns of a window (x1, x2, y1, y2). *)
Definition window_rows (w : Z * Z * Z * Z) : Z := let '(_, _, y1, y2) := w in y2 - y1.
Definition window_cols (w : Z * Z * Z * Z) : Z := let '(x1, x2, _, _) := w in x2 - x1.
