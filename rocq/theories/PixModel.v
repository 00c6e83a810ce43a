(** * Model of the pixel sizes of geographic rasters (utilities/get_pixel_size_grid.py) over
    the real numbers.  Logging is not modelled. *)
From Coq Require Import Reals.
From Verif Require Import Base Atan2 VincModel.
Local Open Scope R_scope.

(** get_pixel_size_grid.py:17, RADIANS_PER_DEGREE *)
Definition radians_per_degree : R := 1745329251994329576923690768489 / 10 ^ 32.

(** get_pixel_size_grid.py:38-40, Earth.A, Earth.B, Earth.F *)
Definition earth_a : R := 6378137.
Definition earth_b : R := 63567523142 / 10000.
Definition earth_f : R := (earth_a - earth_b) / earth_a.

(** get_pixel_size_grid.py:90-98 and 100-108: the distance of two points given in the
    coordinates of the raster; [to_latlong] is coord_transform_to_latlong.TransformPoint
    (lines 73-76), which answers (lon, lat).  [fuel]: passes allowed in vinc_dist. *)
Definition point_dist (fuel : nat) (to_latlong : R -> R -> R * R) (p q : R * R) : option (res R) :=
  let '(lon1, lat1) := to_latlong (fst p) (snd p) in
  let '(lon2, lat2) := to_latlong (fst q) (snd q) in
  match vinc_dist fuel earth_f earth_a (lat1 * radians_per_degree) (lon1 * radians_per_degree)
                                       (lat2 * radians_per_degree) (lon2 * radians_per_degree) with
  | None => None
  | Some (Err e) => Some (Err e)
  | Some (Ok (size, _, _)) => Some (Ok size)
  end.

(** get_pixel_size_grid.py:53-111, get_pixel_size(dataset, (x, y)).  [g0], [g1], [g3], [g5]
    are the entries 0, 1, 3 and 5 of the geotransform. *)
Definition pixel_size (fuel : nat) (to_latlong : R -> R -> R * R) (g0 g1 g3 g5 x y : R) : option (res (R * R)) :=
  let xw := g0 + x * g1 in
  let yn := g3 + y * g5 in
  let xc := g0 + (x + 1 / 2) * g1 in
  let yc := g3 + (y + 1 / 2) * g5 in
  let xe := g0 + (x + 1) * g1 in
  let ys := g3 + (y + 1) * g5 in
  match point_dist fuel to_latlong (xw, yc) (xe, yc) with
  | None => None
  | Some (Err e) => Some (Err e)
  | Some (Ok x_size) =>
      match point_dist fuel to_latlong (xc, yn) (xc, ys) with
      | None => None
      | Some (Err e) => Some (Err e)
      | Some (Ok y_size) => Some (Ok (x_size, y_size))
      end
  end.
