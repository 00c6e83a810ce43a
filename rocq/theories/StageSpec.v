(** * Words for a run on actual rasters (C89). *)
From Coq Require Import Qabs.
From Verif Require Import Base PyStr TileModel ReprModel ReprSpec.
Open Scope Z_scope.

(** The elevation raster [dem] is the raster [ds] the tile grid was made from; no
    height is declared missing, its type is not 32 bit integers (C91), and its heights
    are single-precision numbers. *)
Definition elevation (ds : raster) (dem : image) : Prop :=
  im_x dem = gt0 ds /\ im_dx dem = gt1 ds /\ im_y dem = gt3 ds /\ im_dy dem = gt5 ds /\
  g_rows (im_cells dem) = r_ysize ds /\ g_cols (im_cells dem) = r_xsize ds /\
  im_nodata dem = None /\ im_type dem <> Int32 /\ forall i j, kept (im_type dem) (g_at (im_cells dem) i j).

(** The land-cover value at the point (x, y) is [v]: that of the pixel around the
    point, 0 where the pixel has no data or there is no pixel. *)
Definition cover_at (lcv : image) (x y : Q) (v : Z) : Prop :=
  (exists i j, in_pixel lcv x y i j /\ (g_at (im_cells lcv) i j == inject_Z v)%Q /\ kept (im_type lcv) (g_at (im_cells lcv) i j) /\
               forall n, im_nodata lcv = Some n -> ~ (g_at (im_cells lcv) i j == n)%Q) \/
  (v = 0 /\ ((forall i j, ~ in_pixel lcv x y i j) \/
             exists i j n, in_pixel lcv x y i j /\ im_nodata lcv = Some n /\ (g_at (im_cells lcv) i j == n)%Q)).

(** [lc] gives the land cover of each pixel of the elevation raster: the value at its
    centre, and at all points within 1/2048 of a pixel of it. *)
Definition land_cover (tr : str -> str -> Q * Q -> Q * Q) (lcv dem : image) (lc : grid Z) : Prop :=
  g_rows lc = g_rows (im_cells dem) /\ g_cols lc = g_cols (im_cells dem) /\
  forall r c x y px py, 0 <= r < g_rows lc -> 0 <= c < g_cols lc ->
    (Qabs (x - centre_x dem c) <= (1#2048) * im_dx dem)%Q -> (Qabs (y - centre_y dem r) <= (1#2048) * - im_dy dem)%Q ->
    tr (im_proj dem) (im_proj lcv) (x, y) = (px, py) -> cover_at lcv px py (g_at lc r c).

(** [w] holds the part of [g] with rows y1 to y2 and columns x1 to x2. *)
Definition part_of {A} (y1 y2 x1 x2 : Z) (g w : grid A) : Prop :=
  g_rows w = y2 - y1 /\ g_cols w = x2 - x1 /\
  forall r c, 0 <= r < y2 - y1 -> 0 <= c < x2 - x1 -> g_at w r c = g_at g (y1 + r) (x1 + c).

(** The heights of the elevation raster. *)
Definition heights_of (dem : image) : grid num := gmap (fun q => Num (Qred q)) (im_cells dem).
