(** * The preparation program (pre_process.py:184-219).

    Writing files does not fail, and a vector file keeps the attributes it is
    given under their names (Shapefiles cut them to 10 characters).  The log
    file is left out. *)
From Verif Require Import Base PyStr UtilModel IniModel CmdModel PreModel RastModel RastSpec ReprModel PrepSpec.
Open Scope Z_scope.

(** [schema['properties'].update({k: ...})]: the names of the fields. *)
Definition add_field (l : list str) (k : str) : list str := if existsb (str_eqb k) l then l else l ++ [k].
Definition put_layer {G} (vec : str -> option (layer G)) (p : str) (l : layer G) : str -> option (layer G) :=
  fun q => if str_eqb q p then Some l else vec q.
(** shp_file.read of a file, shapefiles.py:19-27: fiona raises DriverError, a
    ValueError, if there is none. *)
Definition open_layer {G} (vec : str -> option (layer G)) (p : str) : res (layer G) :=
  match vec p with Some l => Ok l | None => Err ValueError end.

Section Prep.
  Context {G : Type}.
  Variable fl : Q -> Q.
  Variable ge : geo G.
  Variable covers : G -> Q * Q -> bool.
  Variable tr : str -> str -> Q * Q -> Q * Q.
  Variable atof : str -> Q.

  (** pre_process, pre_process.py:84-181, with its files: the layer it saves.
      The mask is opened after the settlements have been dissolved. *)
  Definition pre_process_files (vec : str -> option (layer G)) (settlement_file settlement_cat landuse_file landuse_cat crop_mask_file : str) : res (layer G) :=
    let* settlement := open_layer vec settlement_file in
    let* land_use := open_layer vec landuse_file in
    let* s := authorise settlement_cat (read (l_features settlement)) in
    let* _ := dissolve ge settlement_cat s in
    let* domain := if str_eqb crop_mask_file (lit "None") then Ok None else let* m := open_layer vec crop_mask_file in Ok (Some (l_features m)) in
    let* out := pre_process fl ge settlement_cat landuse_cat (l_features settlement) (l_features land_use) domain in
    Ok (Layer (l_proj land_use) (add_field (add_field (l_fields land_use) settlement_cat) (lit "CAT")) (map (fun f => (fst f, Some (snd f))) out)).

  (** pre_process.py:184-194: as the command line of all_multipliers.py, but -c is
      required. *)
  Definition cmd_line (argv : list str) : str + stop :=
    match parse_args argv with
    | inr s => inr s
    | inl (None, _) => inr Usage
    | inl (Some c, _) => inl c
    end.

  (** pre_process.py:202-213. *)
  Definition configured (c : conf) : res names :=
    let get := cfg_get c (lit "Preprocessing") in
    let* settlment_file := get (lit "settlement_data") in
    let* settlment_cat := get (lit "settlement_cat") in
    let* landuse_file := get (lit "land_use_data") in
    let* landuse_cat := get (lit "land_use_cat") in
    let* crop_mask_file := get (lit "crop_mask") in
    let* output_shapefile := get (lit "output_shapefile") in
    let* output_rasterized := get (lit "output_rasterized") in
    let* input_topo := get (lit "input_topo") in
    let* input_topo := if str_eqb input_topo (lit "True") then cfg_get c (lit "inputValues") (lit "dem_data") else Ok input_topo in
    Ok (Names settlment_file settlment_cat landuse_file landuse_cat crop_mask_file output_shapefile output_rasterized input_topo).

  (** pre_process.py:197-219.  The configuration module is imported, and the
      default file read, after the command line. *)
  Definition main (disk : str -> option str) (default : str) (argv : list str) (f : files G) : files G * ending :=
    match cmd_line argv with
    | inr s => (f, Stopped s)
    | inl c =>
      match (let* p := imported disk default in load_text disk c p) with
      | Err e => (f, Stopped (Raised e))
      | Ok p =>
        match configured (p_conf p) with
        | Err e => (f, Went (Some e))
        | Ok n =>
          match pre_process_files (f_vec f) (settlements n) (settlement_field n) (uses n) (use_field n) (mask n) with
          | Err e => (f, Went (Some e))
          | Ok l =>
            let f := Files (put_layer (f_vec f) (shapes n) l) (f_ras f) in
            match rasterize covers tr atof (f_vec f) (f_ras f) (shapes n) (elevation n) with
            | Err e => (f, Went (Some e))
            | Ok o => (Files (f_vec f) (put (f_ras f) (map_file n) o), Went None)
            end
          end
        end
      end
    end.
End Prep.
