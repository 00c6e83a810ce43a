(** * Words used for resampled rasters (C76). *)
From Coq Require Import Qabs.
From Verif Require Import Base PyStr ReprModel.
Open Scope Q_scope.

(** A raster with north up and positive pixel sizes. *)
Definition north_up (r : image) : Prop := 0 < im_dx r /\ im_dy r < 0.

(** The point (x, y) lies in pixel (i, j) of the raster. *)
Definition in_pixel (r : image) (x y : Q) (i j : Z) : Prop :=
  (0 <= i < g_rows (im_cells r))%Z /\ (0 <= j < g_cols (im_cells r))%Z /\
  im_x r + inject_Z j * im_dx r <= x /\ x < im_x r + inject_Z (j + 1) * im_dx r /\
  im_y r + inject_Z (i + 1) * im_dy r < y /\ y <= im_y r + inject_Z i * im_dy r.

(** Centre of pixel (i, j). *)
Definition centre_x (r : image) (j : Z) : Q := im_x r + (inject_Z j + (1#2)) * im_dx r.
Definition centre_y (r : image) (i : Z) : Q := im_y r + (inject_Z i + (1#2)) * im_dy r.

(** The values that survive the conversion: all of a 32 bit integer raster, and
    otherwise numbers with at most 24 significant bits, so integers up to 2^24
    and numbers of single precision. *)
Definition kept (t : dtype) (v : Q) : Prop :=
  t = Int32 \/ exists m e : Z, (Z.abs m <= 2 ^ 24)%Z /\ v == inject_Z m * 2 ^ e.
