(** * save_multiplier with its metadata and its change of directory
    (utilities/nctools.py:296-420). *)
From Coq Require Import Ascii String.
From Verif Require Import Base PyStr NameModel NcModel.
Open Scope Z_scope.

(** numpy's [minimum] and [maximum]: NaN wins. *)
Definition np_minimum (x y : num) : num :=
  match x, y with Num a, Num b => if Qltb b a then y else x | _, _ => NaN end.
Definition np_maximum (x y : num) : num :=
  match x, y with Num a, Num b => if Qltb a b then y else x | _, _ => NaN end.
(** [np.min], [np.max]: lines 369 and 381.  No value: ValueError. *)
Definition np_extreme (pick : num -> num -> num) (l : list num) : res num :=
  match l with [] => Err ValueError | x :: xs => Ok (fold_left pick xs x) end.
(** [np.nanmin], [np.nanmax]: lines 397-398.  NaN (with a warning) when there is
    nothing else, ValueError when there is no value at all. *)
Definition np_nanextreme (pick : num -> num -> num) (l : list num) : res num :=
  match l with
  | [] => Err ValueError
  | _ => match filter (fun x => match x with Num _ => true | NaN => false end) l with
         | [] => Ok NaN
         | x :: xs => Ok (fold_left pick xs x)
         end
  end.

(** The values of a two-dimensional array, row by row. *)
Definition cells (g : grid num) : list num :=
  flat_map (fun r => map (fun c => g_at g r c) (zrange (g_cols g))) (zrange (g_rows g)).

(** Python [d[k] = v]. *)
Fixpoint dict_set (k : string) (v : attval) (d : atts) : atts :=
  match d with
  | [] => [(k, v)]
  | (k', v') :: d => if String.eqb k' k then (k', v) :: d else (k', v') :: dict_set k v d
  end.

(** What the function learns from outside: the directory of its own source, the
    answer of [git describe], two configuration values, the sections and
    options of the configuration, and four texts. *)
Record env := Env { e_code_dir : str; e_git : res string; e_terrain : res string; e_dem : res string;
                    e_sections : list (string * list (string * string));
                    e_python : string; e_version : string; e_now : string; e_user : string }.

(** Lines 312-314. *)
Definition long_name (name : string) : option string :=
  if String.eqb name "Mz" then Some "terrain multiplier"%string
  else if String.eqb name "Ms" then Some "shielding multiplier"%string
  else if String.eqb name "Mt" then Some "topographic multiplier"%string
  else None.

(** Lines 327-345. *)
Definition fixed_atts (e : env) (what direction git terrain dem : string) : atts :=
  [("Abstract", AText ("This dataset is the local " ++ what ++ " for each grid cell in " ++ direction ++ " direction for this tile"));
   ("Lineage", AText ("Methodology is based on the reference: Yang, T., Nadimpalli, K. & Cechet, R.P. 2014. Local wind assessment in Australia: computation methodology for wind multipliers. Record 2014/33. Geoscience Australia, Canberra."));
   ("Inputs", AText ("terrain data: " ++ terrain ++ ", dem data: " ++ dem));
   ("Python_version", AText (e_python e));
   ("Wind_multipler_code_version", AText (e_version e));
   ("Git_version", AText git);
   ("Conventions", AText "CF-1.6");
   ("Created_on", AText (e_now e));
   ("Created_by", AText (e_user e));
   ("Custodian", AText "Geoscience Australia")]%string.

(** Lines 347-351. *)
Definition add_option (section : string) (d : atts) (ov : string * string) : atts :=
  dict_set (section ++ "_" ++ fst ov)%string (AText (snd ov)) d.
Definition add_section (d : atts) (s : string * list (string * string)) : atts :=
  fold_left (add_option (fst s)) (snd s) d.
Definition global_atts (e : env) (what direction git terrain dem : string) : atts :=
  fold_left add_section (e_sections e) (fixed_atts e what direction git terrain dem).

(** Lines 365-371, 377-383, 394-400, 407-412. *)
Definition lat_atts (lo hi : num) : atts :=
  [("long_name", AText "Latitude"); ("standard_name", AText "latitude"); ("units", AText "degrees_north"); ("actual_range", ANums [lo; hi]); ("axis", AText "Y")]%string.
Definition lon_atts (lo hi : num) : atts :=
  [("long_name", AText "Longitude"); ("standard_name", AText "longitude"); ("units", AText "degrees_east"); ("actual_range", ANums [lo; hi]); ("axis", AText "X")]%string.
Definition mult_atts (name : string) (lo hi : num) : atts :=
  [("long_name", AText (name ++ " multiplier values for each grid")); ("actual_range", ANums [lo; hi]); ("grid_mapping", AText "WGS-1984")]%string.
Definition crs_atts : atts :=
  [("grid_mapping_name", AText "latitude_longitude"); ("semi_major_axis", ANums [Num 6378137]); ("inverse_flattening", ANums [Num (298257222101 # 1000000000)]);
   ("longitude_of_prime_meridian", ANums [Num 0])]%string.

(** Data set written, exception raised, working directory afterwards. *)
Record outcome := Outcome { o_file : option ncfile; o_exn : option exn; o_cwd : str }.

(** Lines 296-420.  [cwd] is the working directory at the start; changing to an
    existing directory does not fail, and the file can be opened. *)
Definition save_multiplier_file (cast : string -> num -> num) (e : env) (name : string) (values : grid num) (lat lon : list num)
    (nc_name cwd : str) : outcome :=
  let direction := string_of_list_ascii (nc_direction nc_name) in
  match e_terrain e, e_dem e with
  | Err x, _ => Outcome None (Some x) cwd
  | _, Err x => Outcome None (Some x) cwd
  | Ok terrain, Ok dem =>
      match e_git e with
      | Err x => Outcome None (Some x) (e_code_dir e)
      | Ok git =>
          match long_name name with
          | None => Outcome None (Some KeyError) cwd
          | Some what =>
              let ranges :=
                let* a := np_extreme np_minimum lat in
                let* b := np_extreme np_maximum lat in
                let* c := np_extreme np_minimum lon in
                let* d := np_extreme np_maximum lon in
                let* lo := np_nanextreme np_minimum (cells values) in
                let* hi := np_nanextreme np_maximum (cells values) in
                Ok (lat_atts a b, lon_atts c d, mult_atts name lo hi) in
              match ranges with
              | Err x => Outcome None (Some x) cwd
              | Ok (latts, lonatts, matts) =>
                  let r := save_multiplier cast name values lat lon latts lonatts matts crs_atts (global_atts e what direction git terrain dem) in
                  Outcome (Some (fst r)) (snd r) cwd
              end
          end
      end
  end.
