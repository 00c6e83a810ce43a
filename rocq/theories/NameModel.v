(** * Model of tile and file names. *)
From Verif Require Import Base TileModel PyStr.
Open Scope Z_scope.

(** get_tilename, all_multipliers.py:206-219.  [show] is Python's str(float). *)
Definition get_tilename (fl : Q -> Q) (show : Q -> str) (tg : tilegrid) (k : Z) : res str :=
  let* (x, y) := get_startcord fl tg k in
  Ok (lit "e" ++ take 8 (show x) ++ lit "s" ++ take 7 (show y)).

(** get_tileinfo over given tile numbers, all_multipliers.py:514-528. *)
Definition get_tileinfo (fl : Q -> Q) (show : Q -> str) (tg : tilegrid) (nums : list Z)
  : res (list (str * extent * extent)) :=
  mapM (fun t =>
    let* n := get_tilename fl show tg t in
    let* eb := get_tile_extent_buffer fl tg t in
    let* e := get_tile_extent fl tg t in
    Ok (n, eb, e)) nums.

(** get_tiles, all_multipliers.py:502-511. *)
Definition get_tiles (fl : Q -> Q) (show : Q -> str) (tg : tilegrid) :=
  get_tileinfo fl show tg (zrange (num_tiles tg)).

(** The eight wind directions. *)
Inductive dir := N_ | S_ | E_ | W_ | NE | NW | SE | SW.

Definition dir_str (d : dir) : str :=
  match d with
  | N_ => lit "n" | S_ => lit "s" | E_ => lit "e" | W_ => lit "w"
  | NE => lit "ne" | NW => lit "nw" | SE => lit "se" | SW => lit "sw" end.

(** Temporary rasters of a tile: all_multipliers.py:326 (DEM), 395 (land cover). *)
Definition dem_tmp (out tile : str) : str := pjoin out (tile ++ lit "_dem.img").
Definition lcv_tmp (out tile : str) : str := pjoin out (tile ++ lit ".img").

(** terrain_mult.py:132-143, from the land-cover temporary raster. *)
Definition terrain_nc (temp_tile : str) (d : dir) : str :=
  pjoin (pjoin (dirname temp_tile) (lit "terrain"))
        (splitext_root (basename temp_tile) ++ lit "_mz_" ++ dir_str d ++ lit ".nc").

(** shield_mult.py:176-177, 220 (initial shielding raster) and 287-288,
    317-322 (per direction file). *)
Definition ms_orig_path (terrain : str) : str :=
  pjoin (pjoin (dirname terrain) (lit "shielding"))
        (splitext_root (basename terrain) ++ lit "_ms.img").
Definition shield_nc (ms_orig : str) (d : dir) : str :=
  pjoin (dirname ms_orig) (splitext_root (basename ms_orig) ++ lit "_" ++ dir_str d ++ lit ".nc").

(** topo_mult.py:47-48, 142-143, from the DEM temporary raster. *)
Definition topo_nc (input_dem : str) (d : dir) : str :=
  pjoin (pjoin (dirname input_dem) (lit "topographic"))
        (drop_last 4 (splitext_root (basename input_dem)) ++ lit "_mt_" ++ dir_str d ++ lit ".nc").

(** Names the converter opens: convert.py:30-31, 92, 112-114. *)
Inductive mtype := Shielding | Terrain | Topographic.
Definition folder (t : mtype) : str :=
  match t with Shielding => lit "shielding" | Terrain => lit "terrain" | Topographic => lit "topographic" end.
Definition unit_lower (t : mtype) : str :=
  match t with Shielding => lit "ms" | Terrain => lit "mz" | Topographic => lit "mt" end.
Definition convert_nc (path tile : str) (t : mtype) (d : dir) : str :=
  pjoin (pjoin path (folder t)) (tile ++ lit "_" ++ unit_lower t ++ lit "_" ++ dir_str d ++ lit ".nc").

(** Tile name recovered from a file of the shielding folder: mpi_runner.py:24. *)
Definition tile_of_file (file : str) : str := split_head underscore file.

(** Direction attribute: nctools.py:307-310. *)
Definition nc_direction (nc_name : str) : str :=
  let d := last_n 2 (splitext_root nc_name) in
  if has_char underscore d then last_n 1 d else d.
