(** * The stages of one tile on actual rasters: what the file operations of
    PipeModel.v write, put together from the models of the single stages. *)
From Coq Require Import Qabs.
From Verif Require Import Base PyStr TileModel ClipModel NameModel TerrModel ShldModel TopoModel ReprModel ConvModel PipeModel.
Open Scope Z_scope.

(** What a raster file says about its band and its place: type, projection,
    geotransform without rotation, no-data value. *)
Record meta := Meta { m_type : dtype; m_proj : str; m_x : Q; m_dx : Q; m_y : Q; m_dy : Q; m_nodata : option Q }.
Notation file := (ConvModel.raster meta).

(** A dataset of ReprModel.v as the content of a file, and back.  Cells of such a
    file are finite. *)
Definition as_file (im : image) : file :=
  ConvModel.Raster (Meta (im_type im) (im_proj im) (im_x im) (im_dx im) (im_y im) (im_dy im) (im_nodata im)) [Band [] (gmap Num (im_cells im))].
Definition band1 (v : file) : grid num :=
  match r_bands v with b :: _ => b_data b | [] => Grid 0 0 (fun _ _ => NaN) end.
Definition as_image (v : file) : image :=
  let g := r_geo v in
  Image (m_type g) (m_proj g) (m_x g) (m_dx g) (m_y g) (m_dy g) (m_nodata g)
    (gmap (fun x => match x with Num q => q | NaN => 0%Q end) (band1 v)).

(** band.ReadAsArray of heights (shield_mult.py:114-115, topo_mult.py:63) and of
    classes (terrain_mult.py:75, shield_mult.py:191).  One fraction stands for all equal ones. *)
Definition heights (v : file) : grid num := gmap (fun x => match x with Num q => Num (Qred q) | NaN => NaN end) (band1 v).
Definition classes (v : file) : grid Z := gmap (fun x => match x with Num q => Qfloor q | NaN => 0 end) (band1 v).
Definition one_band (v : file) (g : grid num) : file := ConvModel.Raster (r_geo v) [Band [] g].

(** topo_mult.py:63-69 and the rest of topomult: NaN is assigned to the missing cells of
    the array as read, in the type of the band.  NumPy refuses NaN for an array of
    integers with ValueError, whether or not any cell is missing.  (shield_mult.py:115
    converts the array to floating point first.) *)
Definition is_float (t : dtype) : bool := match t with Float32 | Float64 => true | _ => false end.
Definition topo_of_type (t : dtype) (fl : Q -> Q) (sqrt2 cellsize x_left y_upper : Q) (nodata : option Q) (dem : grid num) : res (list (dir * grid num)) :=
  if is_float t then topomult fl sqrt2 cellsize x_left y_upper nodata dem else Err ValueError.

(** The raster computed for direction [d]. *)
Definition dir_eqb (a b : dir) : bool :=
  match a, b with W_, W_ | E_, E_ | N_, N_ | S_, S_ | NW, NW | NE, NE | SE, SE | SW, SW => true | _, _ => false end.
Definition pick (d : dir) (l : list (dir * grid num)) : grid num :=
  match find (fun x => dir_eqb (fst x) d) l with Some x => snd x | None => Grid 0 0 (fun _ _ => NaN) end.

Section Stage.
  Variables (fl : Q -> Q) (tr : str -> str -> Q * Q -> Q * Q) (tg : tilegrid) (dem : image).
  (** get_pixel_size_grids (get_pixel_size_grid.py:126-198) as a function of the raster's
      projection, origin and pixel size, and its numbers of rows and columns. *)
  Variable sizes : str -> Q -> Q -> Q -> Q -> Z -> Z -> grid Q * grid Q.
  (** 0.5 * (np.mean(x_m_array) + np.mean(y_m_array)). *)
  Variable mean : grid Q * grid Q -> Q.
  Variables (tz : list (Z * num)) (tm : list (Z * Q)) (cast : Z -> Z) (slope_fn aspect_fn : Q -> Q -> Q) (sqrt2 : Q).
  (** band.Checksum() > 0. *)
  Variable checksum : file -> bool.

  Definition pixel_sizes (v : file) : grid Q * grid Q := 
    let t := r_geo v in sizes (m_proj t) (m_x t) (m_dx t) (m_y t) (m_dy t) (g_rows (band1 v)) (g_cols (band1 v)).
  Definition width (v : file) : Q := mean (pixel_sizes v).

  (** tile_info[1] and the buffered extent, all_multipliers.py:263-298; the tile
      numbers of the callers are those of the grid. *)
  Definition extent_of_tile (k : Z) : extent := match get_tile_extent fl tg k with Ok e => e | Err _ => (0, 0, 0, 0)%Q end.
  Definition extent_with_buffer (k : Z) : extent := match get_tile_extent_buffer fl tg k with Ok e => e | Err _ => (0, 0, 0, 0)%Q end.

  (** clip_array as called at terrain_mult.py:147, shield_mult.py:323, topo_mult.py:145,
      with x_left, y_upper, pixelwidth, pixelheight of the tile's file. *)
  Definition cut_border (k : Z) (v : file) (g : grid num) : grid num :=
    let t := r_geo v in clip_array fl g (m_x t) (- m_y t)%Q (m_dx t) (- m_dy t)%Q (extent_of_tile k).

  (** all_multipliers.py:307-365 (cut_dem, clip_dataset) and 399, which calls 586-671
      (reproject_dataset). *)
  Definition st_clip (k : Z) : file := as_file (clip_dataset fl tr dem (extent_with_buffer k)).
  Definition st_resample (l v : file) : file :=
    match reproject_dataset tr (fun _ => []) (fun _ => None) (Opened (as_image l)) (Opened (as_image v)) None with
    | Ok o => as_file o
    | Err _ => v
    end.
  (** terrain_mult.py:34-156. *)
  Definition st_no_terrain (v : file) : bool :=
    match terrain fl tz (classes v) (width v) with Ok None => true | _ => false end.
  Definition st_mz (k : Z) (v : file) (d : dir) : file :=
    one_band v (cut_border k v (match terrain fl tz (classes v) (width v) with Ok (Some l) => pick d l | _ => Grid 0 0 (fun _ _ => NaN) end)).
  (** shield_mult.py:167-241. *)
  Definition st_ms_init (v : file) : file :=
    let t := r_geo v in
    ConvModel.Raster (Meta Float32 (m_proj t) (m_x t) (m_dx t) (m_y t) (m_dy t) (Some (-99)%Q))
      [Band [] (class2ms cast (option_map Qfloor (m_nodata t)) tm (classes v))].
  (** shield_mult.py:88-148 on the elevation tile [z], then 244-347 on the initial shielding [v]. *)
  Definition st_ms (k : Z) (v z : file) (d : dir) : file :=
    let '(xm, ym) := pixel_sizes z in
    let '(slope, aspect) := get_slope_aspect slope_fn aspect_fn (m_nodata (r_geo z)) (heights z) (Qabs (m_dx (r_geo z))) (Qabs (m_dy (r_geo z))) xm ym in
    one_band v (cut_border k v (pick d (convo_combine fl (width v) slope aspect (band1 v)))).
  (** topo_mult.py:38-153. *)
  Definition st_mt (k : Z) (z : file) (d : dir) : file :=
    let t := r_geo z in
    one_band z (cut_border k z (match topo_of_type (m_type t) fl sqrt2 (width z) (m_x t) (- m_y t)%Q (m_nodata t) (heights z) with
                                | Ok l => pick d l | Err _ => Grid 0 0 (fun _ _ => NaN) end)).

  (** A stage that raises an exception ends the run; here its file is empty
      instead.  The theorems show that no stage does in the case considered. *)
  Definition run_stages : stages Z file := Stages st_clip checksum st_resample st_no_terrain st_mz st_ms_init st_ms st_mt.
End Stage.
