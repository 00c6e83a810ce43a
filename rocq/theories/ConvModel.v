(** * Model of the conversion to combined multipliers (utilities/convert.py).

    The file system is a map from paths to rasters; a raster has a
    georeference of some type [G] and a list of bands.  Values are Float32
    numbers or NaN; [mul] is the Float32 product of two numbers.  [stats_ok]
    tells whether ComputeStatistics finds a valid pixel (it raises otherwise,
    as gdal.UseExceptions is on).  Projections, compression and logging are
    left out; gdal.Translate is an exact copy. *)
From Verif Require Import Base PyStr NameModel.
Open Scope Z_scope.

Record band := Band { b_desc : str; b_data : grid num }.
Record raster (G : Type) := Raster { r_geo : G; r_bands : list band }.
Arguments Raster {G} _ _. Arguments r_geo {G} _. Arguments r_bands {G} _.

Section Conv.
  Context {G : Type}.
  Variable mul : Q -> Q -> Q.
  Variable stats_ok : grid num -> bool.
  Definition rstore := str -> option (raster G).
  Definition rput (f : rstore) (p : str) (r : raster G) : rstore :=
    fun x => if list_eq_dec ascii_dec x p then Some r else f x.

  (** convert.py:30 *)
  Definition directions : list dir := [E_; N_; NE; NW; S_; SE; SW; W_].
  (** convert.py:31; dictionaries keep insertion order. *)
  Definition types : list mtype := [Shielding; Terrain; Topographic].

  (** gdal.Open with exceptions enabled. *)
  Definition gopen (f : rstore) (p : str) : res (raster G) :=
    match f p with Some r => Ok r | None => Err RuntimeError end.
  (** GetRasterBand(i), i >= 1, and BandReadAsArray. *)
  Definition read_band (r : raster G) (i : Z) : res (grid num) :=
    match nth_error (r_bands r) (Z.to_nat (i - 1)) with Some b => Ok (b_data b) | None => Err RuntimeError end.

  (** MEM driver: a new band is zero. *)
  Definition new_band (nx ny : Z) : grid num := Grid ny nx (fun _ _ => Num 0).

  (** gdal_array.BandWriteArray at offset (0,0). *)
  Definition write_array (b a : grid num) : res (grid num) :=
    if (g_cols b <? g_cols a) || (g_rows b <? g_rows a) then Err ValueError
    else Ok (Grid (g_rows b) (g_cols b) (fun r c =>
           if (r <? g_rows a) && (c <? g_cols a) then g_at a r c else g_at b r c)).

  (** a[::-1] *)
  Definition flip_rows (a : grid num) : grid num :=
    Grid (g_rows a) (g_cols a) (fun r c => g_at a (g_rows a - 1 - r) c).

  (** np.multiply with broadcasting; the ufunc works on the raw data of masked
      arrays, so the masks made by ma.masked_values (lines 126-128) do not
      affect multiplied.data. *)
  Definition nmul (x y : num) : num :=
    match x, y with Num a, Num b => Num (mul a b) | _, _ => NaN end.
  Definition bdim (a b : Z) : option Z :=
    if a =? b then Some a else if a =? 1 then Some b else if b =? 1 then Some a else None.
  Definition bget (g : grid num) (r c : Z) : num :=
    g_at g (if g_rows g =? 1 then 0 else r) (if g_cols g =? 1 then 0 else c).
  Definition np_multiply (x y : grid num) : res (grid num) :=
    match bdim (g_rows x) (g_rows y), bdim (g_cols x) (g_cols y) with
    | Some r, Some c => Ok (Grid r c (fun i j => nmul (bget x i j) (bget y i j)))
    | _, _ => Err ValueError
    end.

  (** Lines 112-132: read the file of one type; [tr] is the variable transform
      (None while unbound), [first] the flag of line 106. *)
  Definition read_type (f : rstore) (path tile : str) (nx ny : Z) (d : dir)
      (st : option G * bool * list (grid num)) (ty : mtype) : res (option G * bool * list (grid num)) :=
    let '(tr, first, bands) := st in
    let* ds :=
      match f (convert_nc path tile ty d) with
      | Some ds => Ok ds
      | None =>
          match tr with
          | None => Err UnboundLocalError                                        (* line 122 *)
          | Some t =>
              let* b := write_array (new_band nx ny) (Grid nx ny (fun _ _ => Num 1)) in   (* line 124 *)
              Ok (Raster t [Band [] b])
          end
      end in
    let* a := read_band ds 1 in
    Ok (if first then Some (r_geo ds) else tr, false, bands ++ [a]).

  (** functools.reduce(np.multiply, bands), line 135. *)
  Definition multiply_all (bands : list (grid num)) : res (grid num) :=
    match bands with [] => Err TypeError | b :: bs => foldM np_multiply bs b end.

  (** Lines 137-147. *)
  Definition write_band (nx ny : Z) (d : dir) (m : grid num) : res band :=
    let b := new_band nx ny in
    let b' := match write_array b (flip_rows m) with
              | Ok b1 => match write_array b1 m with Ok b2 => b2 | Err _ => b1 end
              | Err _ => b end in
    if stats_ok b' then Ok (Band (dir_str d) b') else Err RuntimeError.

  (** Lines 108-149, one direction. *)
  Definition convert_dir (f : rstore) (path tile : str) (nx ny : Z)
      (st : option G * bool * list band) (d : dir) : res (option G * bool * list band) :=
    let '(tr, first, out) := st in
    let* (tr', first', bands) := foldM (read_type f path tile nx ny d) types (tr, first, []) in
    let* m := multiply_all bands in
    let* b := write_band nx ny d m in
    Ok (tr', first', out ++ [b]).

  Definition m3_path (path tile : str) : str := pjoin (pjoin path (lit "M3")) (tile ++ lit ".tif").
  Definition m3max_path (path tile : str) : str := pjoin (pjoin path (lit "M3_max")) (tile ++ lit ".tif").

  (** process_tile, 81-164: the raster it writes. *)
  Definition m3_raster (f : rstore) (path tile : str) : res (raster G) :=
    let* tmp := gopen f (convert_nc path tile Shielding N_) in
    let* b1 := read_band tmp 1 in                       (* RasterXSize, RasterYSize *)
    let '(nx, ny) := (g_cols b1, g_rows b1) in
    let* (tr, first, out) := foldM (convert_dir f path tile nx ny) directions (None, true, []) in
    match tr with Some t => Ok (Raster t out) | None => Err UnboundLocalError end.

  Definition process_tile (path tile : str) (f : rstore) : res rstore :=
    let* r := m3_raster f path tile in Ok (rput f (m3_path path tile) r).

  (** np.max over the stacked bands: NaN propagates; np.dstack drops masks. *)
  Definition nmax (x y : num) : num :=
    match x, y with Num a, Num b => Num (if Qltb a b then b else a) | _, _ => NaN end.
  Definition max_cell (bands : list (grid num)) (r c : Z) : num :=
    match bands with [] => NaN | b :: bs => fold_left (fun m g => nmax m (g_at g r c)) bs (g_at b r c) end.

  (** process_max_tile, 37-79; the output has a second band (line 60). *)
  Definition m3max_raster (f : rstore) (path tile : str) : res (raster G) :=
    let* ds := gopen f (m3_path path tile) in
    let* b1 := read_band ds 1 in
    let '(nx, ny) := (g_cols b1, g_rows b1) in
    let* bands := mapM (fun i => read_band ds (i + 1)) (zrange (zlen directions)) in
    if negb (forallb (fun g => (g_cols g =? nx) && (g_rows g =? ny)) bands) then Err ValueError else
    let* b := write_array (new_band nx ny) (Grid ny nx (max_cell bands)) in
    if stats_ok b then
      Ok (Raster (r_geo ds) [Band (lit "Maximum of all directions") b; Band [] (new_band nx ny)])
    else Err RuntimeError.

  Definition process_max_tile (path tile : str) (f : rstore) : res rstore :=
    let* r := m3max_raster f path tile in Ok (rput f (m3max_path path tile) r).

  (** The operations of Converter.run, 166-170, on one process. *)
  Inductive cop := OpTile (t : str) | OpMax (t : str).
  Definition cop_run (path : str) (f : rstore) (o : cop) : res rstore :=
    match o with OpTile t => process_tile path t f | OpMax t => process_max_tile path t f end.
  Definition cops (tiles : list str) : list cop := flat_map (fun t => [OpTile t; OpMax t]) tiles.
  Definition converter_run (path : str) (tiles : list str) (f : rstore) : res rstore :=
    foldM (cop_run path) (cops tiles) f.

  (** The returned file names (lines 162, 77, 170). *)
  Definition converter_files (path : str) (tiles : list str) : list str * list str :=
    (map (m3_path path) tiles, map (m3max_path path) tiles).
End Conv.
Arguments rstore : clear implicits.
