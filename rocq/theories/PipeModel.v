(** * File operations of one tile (all_multipliers.py:307-329 cut_dem, 367-427
    multipliers_calculate, with the file effects of the stages it calls).

    The file system is a map from cells to contents.  A cell is a path or, for
    the process-local variable temp_dataset (line 384), a cell named by the
    tile.  The numerical content computed by each stage is a parameter: any
    function of the files that stage reads.  One action is one file read by a
    stage together with the write that depends on it; finer interleavings of a
    stage's own reads and its writes are not represented.  The removal of
    left-over *.xml side files (shield_mult.py:337-347) and the changes of
    working directory are left out here (see RunModel for the latter). *)
From Verif Require Import Base TileModel PyStr NameModel SchedModel SchedSpec.
Open Scope Z_scope.

Inductive cell := File (p : str) | Local (tile : str).

Section Pipe.
  Context {T V : Type}.
  Variable name : T -> str.              (* tile_info[0] *)
  Variables (out lcv : str).             (* output_folder, self.lcv *)
  (** Contents computed by the stages. *)
  Record stages := Stages {
    clip : T -> V;                       (* clip_dataset of the open DEM, 331-365 *)
    has_data : V -> bool;                (* band.Checksum() > 0, 390-393 *)
    resample : V -> V -> V;              (* reproject_dataset, 586-670 *)
    no_terrain : V -> bool;              (* all reclassified values zero, terrain_mult.py:86-89 *)
    mz : T -> V -> dir -> V;             (* terrain, terrain_mult.py:34-156 *)
    ms_init : V -> V;                    (* terrain_class2ms_orig, shield_mult.py:167-241 *)
    ms : T -> V -> V -> dir -> V;        (* convo_combine, shield_mult.py:244-347 *)
    mt : T -> V -> dir -> V }.           (* topomult, topo_mult.py:38-153 *)
  Variable sg : stages.

  Notation fstore := (@store cell V).
  Definition cell_eqb (a b : cell) : bool :=
    match a, b with
    | File p, File q | Local p, Local q => if list_eq_dec ascii_dec p q then true else false
    | _, _ => false end.
  Definition put (f : fstore) (c : cell) (v : V) : fstore := fun x => if cell_eqb x c then Some v else f x.
  Definition del (f : fstore) (c : cell) : fstore := fun x => if cell_eqb x c then None else f x.

  Definition dem_of (t : T) : str := dem_tmp out (name t).
  Definition lcv_of (t : T) : str := lcv_tmp out (name t).
  Definition ms_of (t : T) : str := ms_orig_path (lcv_of t).

  (** cut_dem, 307-329. *)
  Definition cut_dem (t : T) (f : fstore) : fstore := put f (File (dem_of t)) (clip sg t).

  (** Lines 381-387: the DEM tile must exist; it is opened. *)
  Definition open_dem (t : T) (f : fstore) : res fstore :=
    match f (File (dem_of t)) with
    | None => Err OSError
    | Some v => Ok (put f (Local (name t)) v)
    end.

  (** Line 393: the operations below it run only when the tile has data. *)
  Definition when_data (t : T) (op : V -> fstore -> res fstore) (f : fstore) : res fstore :=
    match f (Local (name t)) with
    | Some v => if has_data sg v then op v f else Ok f
    | None => Err KeyError
    end.

  Definition with_file (p : str) (k : V -> res fstore) (f : fstore) : res fstore :=
    match f (File p) with Some v => k v | None => Err OSError end.

  (** Line 399. *)
  Definition op_resample (t : T) : action fstore := when_data t (fun dem f =>
    with_file lcv (fun l => Ok (put f (File (lcv_of t)) (resample sg l dem))) f).
  (** Line 403, one direction. *)
  Definition op_terrain (t : T) (d : dir) : action fstore := when_data t (fun _ f =>
    with_file (lcv_of t) (fun v =>
      if no_terrain sg v then Ok f else Ok (put f (File (terrain_nc (lcv_of t) d)) (mz sg t v d))) f).
  (** Line 407. *)
  Definition op_ms_init (t : T) : action fstore := when_data t (fun _ f =>
    with_file (lcv_of t) (fun v => Ok (put f (File (ms_of t)) (ms_init sg v))) f).
  Definition op_shield (t : T) (d : dir) : action fstore := when_data t (fun _ f =>
    with_file (ms_of t) (fun v => with_file (dem_of t) (fun z =>
      Ok (put f (File (shield_nc (ms_of t) d)) (ms sg t v z d))) f) f).
  (** shield_mult.py:333-336: errors ignored. *)
  Definition op_rm_ms (t : T) : action fstore := when_data t (fun _ f => Ok (del f (File (ms_of t)))).
  (** Line 411, one direction. *)
  Definition op_topo (t : T) (d : dir) : action fstore := when_data t (fun _ f =>
    with_file (dem_of t) (fun v => Ok (put f (File (topo_nc (dem_of t) d)) (mt sg t v d))) f).
  (** Lines 418 and 426-427: os.remove of the DEM tile. *)
  Definition op_rm_dem (t : T) : action fstore := fun f =>
    match f (Local (name t)) with
    | Some v => if has_data sg v then with_file (dem_of t) (fun _ => Ok (del f (File (dem_of t)))) f
                else Ok (del f (File (dem_of t)))
    | None => Err KeyError
    end.
  (** Line 421. *)
  Definition op_rm_lcv (t : T) : action fstore := when_data t (fun _ f =>
    with_file (lcv_of t) (fun _ => Ok (del f (File (lcv_of t)))) f).
  (** The local variable goes away when the call returns. *)
  Definition op_return (t : T) : action fstore := fun f => Ok (del f (Local (name t))).

  (** Direction orders: terrain_mult.py:99, shield_mult.py:290, topo_mult.py:82. *)
  Definition stage_dirs : list dir := [W_; E_; N_; S_; NW; NE; SE; SW].
  Definition topo_dirs : list dir := [N_; S_; E_; W_; NE; NW; SE; SW].

  Definition multipliers_calculate (t : T) : list (action fstore) :=
    [open_dem t; op_resample t] ++ map (op_terrain t) stage_dirs ++
    [op_ms_init t] ++ map (op_shield t) stage_dirs ++ [op_rm_ms t] ++
    map (op_topo t) topo_dirs ++ [op_rm_dem t; op_rm_lcv t; op_return t].
End Pipe.
Arguments stages : clear implicits.
