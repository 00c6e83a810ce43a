(** * Imports of the programs, and the MPI object (utilities/parallel.py:83-137).

    Python's import of the modules of the repository; other modules are a
    predicate on dotted names (place [Elsewhere]), their code does not touch the
    repository's modules.  The search path does not change while a program is
    imported. *)
From Verif Require Import Base PyStr UtilModel ImpSpec.
Open Scope Z_scope.

Inductive stmt :=
| Imp (m : list str) (y : str)                    (* import m / import m as y *)
| From (m : list str) (xs : list (str * str)).    (* from m import x as y, ... *)
Definition ds (s : string) : list str := [lit s].
Definition dd (s t : string) : list str := [lit s; lit t].
Definition imp (s : string) : stmt := Imp (ds s) (lit s).
Definition imp_as (s t : string) : stmt := Imp (ds s) (lit t).
Definition from (m : list str) (xs : list string) : stmt := From m (map (fun x => (lit x, lit x)) xs).
Definition from_as (m : list str) (x y : string) : stmt := From m [(lit x, lit y)].

(** The import statements at the top of each file, and the names the file itself
    defines (those imported by others). *)
Definition repo_file (key : list str) : option (list stmt * list str) :=
  (let is p n := list_eq_dec (list_eq_dec ascii_dec) key (dd p n) in
  let at_root n := list_eq_dec (list_eq_dec ascii_dec) key (ds n) in
  (* all_multipliers.py:15-36 *)
  if at_root "all_multipliers" then Some ([
    imp "inspect"; imp_as "logging" "log"; imp "os"; imp "shutil"; imp "sys"; imp "time"; from (ds "functools") ["reduce"; "wraps"];
    From (dd "os" "path") [(lit "join", lit "pjoin"); (lit "realpath", lit "realpath"); (lit "isdir", lit "isdir"); (lit "dirname", lit "dirname")];
    imp "argparse"; imp_as "numpy" "np"; from (ds "osgeo") ["osr"; "gdal"]; from (dd "osgeo" "gdalconst") ["GA_ReadOnly"; "GRA_NearestNeighbour"; "GDT_Float32"; "GDT_Int32"];
    Imp (dd "shielding" "shield_mult") (lit "shielding"); Imp (dd "terrain" "terrain_mult") (lit "terrain"); Imp (dd "topographic" "topo_mult") (lit "topographic");
    from (ds "utilities") ["mpi_runner"]; from_as (dd "utilities" "config") "configparser" "config"; from (dd "utilities" "files") ["fl_start_log"];
    from (dd "utilities" "parallel") ["attempt_parallel"; "disable_on_workers"]], map lit ["TileGrid"; "Multipliers"; "run"])
  (* pre_process.py:1-13 *)
  else if at_root "pre_process" then Some ([
    from (dd "utilities" "shapefiles") ["shp_file"]; imp "logging"; from (dd "shapely" "geometry") ["shape"; "mapping"; "Polygon"; "Point"]; from (dd "shapely" "ops") ["unary_union"];
    from (dd "shapely" "strtree") ["STRtree"]; imp "fiona"; imp "itertools"; imp "time"; imp "sys"; from (ds "rtree") ["index"]; from (ds "osgeo") ["ogr"; "gdal"]; imp_as "numpy" "np"],
    map lit ["rasterize"; "pre_process"; "cmd_line"])
  (* rasterize.py:1-7 *)
  else if at_root "rasterize" then Some ([
    imp "argparse"; from (dd "os" "path") ["splitext"]; from (ds "osgeo") ["gdal"]; from (dd "utilities" "shapefiles") ["shp_file"]; from (ds "pre_process") ["rasterize"]],
    map lit ["cmdline"])
  (* the empty __init__.py *)
  else if in_dec (list_eq_dec (list_eq_dec ascii_dec)) key [ds "shielding"; ds "terrain"; ds "topographic"; ds "utilities"] then Some ([], [])
  (* blrb.py:11-15 *)
  else if is "utilities" "blrb" then Some ([
    imp "numpy"; imp "logging"; from (dd "utilities" "meta") ["print_call"]; from (ds "meta") ["print_call"]; imp "math"], map lit ["interpolate_grid"])
  (* config.py:12-14 *)
  else if is "utilities" "config" then Some ([
    imp "inspect"; Imp (dd "os" "path") (lit "os"); from (ds "configparser") ["RawConfigParser"]], map lit ["configparser"])
  (* convert.py:8-16 *)
  else if is "utilities" "convert" then Some ([
    imp_as "logging" "log"; imp "os"; from (ds "functools") ["reduce"]; from_as (dd "os" "path") "join" "pjoin"; imp_as "numpy" "np"; Imp (dd "numpy" "ma") (lit "ma");
    from (ds "osgeo") ["gdal"; "osr"]; from (dd "osgeo" "gdal_array") ["BandReadAsArray"]], map lit ["Converter"; "create_sub_dirs_for_convert"])
  (* files.py:5-17; hashlib is part of Python *)
  else if is "utilities" "files" then Some ([
    imp "os"; imp "sys"; imp "logging"; imp "datetime"; imp_as "numpy" "np"; from (ds "time") ["ctime"; "localtime"; "strftime"]; imp "hashlib"],
    map lit ["fl_program_version"; "fl_start_log"])
  (* get_pixel_size_grid.py:9-14 *)
  else if is "utilities" "get_pixel_size_grid" then Some ([
    imp_as "numpy" "np"; imp_as "logging" "log"; from (ds "osgeo") ["osr"]; from (dd "utilities" "vincenty") ["vinc_dist"]; from (dd "utilities" "blrb") ["interpolate_grid"]],
    map lit ["RADIANS_PER_DEGREE"; "get_pixel_size_grids"])
  (* meta.py:5-8 *)
  else if is "utilities" "meta" then Some ([
    imp "threading"; imp "os"; from (ds "functools") ["wraps"]; from (ds "inspect") ["getcallargs"]], map lit ["Singleton"; "print_call"])
  (* mpi_runner.py:1-11 *)
  else if is "utilities" "mpi_runner" then Some ([
    imp "functools"; imp_as "logging" "log"; imp "os"; imp "argparse"; from (ds "osgeo") ["gdal"]; from (dd "utilities" "convert") ["Converter"; "create_sub_dirs_for_convert"];
    from (dd "utilities" "parallel") ["attempt_parallel"]; from (ds "convert") ["Converter"; "create_sub_dirs_for_convert"]; from (ds "parallel") ["attempt_parallel"]],
    map lit ["parallelise_convert_on_tiles"])
  (* nctools.py:5-15 *)
  else if is "utilities" "nctools" then Some ([
    imp "sys"; imp "logging"; imp "os"; from (ds "netCDF4") ["Dataset"]; imp_as "numpy" "np"; imp "time"; imp "getpass"; imp "subprocess";
    from_as (dd "utilities" "config") "configparser" "config"; from (dd "utilities" "files") ["fl_program_version"]], map lit ["save_multiplier"; "get_lat_lon"; "clip_array"])
  (* parallel.py:20 *)
  else if is "utilities" "parallel" then Some ([from (ds "functools") ["wraps"]], map lit ["attempt_parallel"; "disable_on_workers"])
  (* shapefiles.py:1-7 *)
  else if is "utilities" "shapefiles" then Some ([
    imp "logging"; imp "itertools"; from (dd "shapely" "geometry") ["shape"; "mapping"; "Polygon"; "Point"]; from (dd "shapely" "ops") ["unary_union"]; from (dd "shapely" "strtree") ["STRtree"];
    imp "fiona"; imp_as "numpy" "np"], map lit ["shp_file"])
  (* value_lookup.py *)
  else if is "utilities" "value_lookup" then Some ([], map lit ["POINT_R"; "POINT_C"; "ALL_NEIGHB"])
  (* vincenty.py:3-4 *)
  else if is "utilities" "vincenty" then Some ([imp_as "numpy" "np"; imp "math"], map lit ["vinc_dist"; "vinc_pt"])
  (* terrain_mult.py:20-31 *)
  else if is "terrain" "terrain_mult" then Some ([
    imp "os"; imp "sys"; imp_as "logging" "log"; from_as (dd "utilities" "config") "configparser" "config"; from (ds "utilities") ["value_lookup"];
    from (dd "utilities" "nctools") ["save_multiplier"; "get_lat_lon"; "clip_array"]; from (dd "utilities" "get_pixel_size_grid") ["get_pixel_size_grids"]; imp_as "numpy" "np";
    from (ds "osgeo") ["gdal"]; from_as (dd "os" "path") "join" "pjoin"; imp_as "pandas" "pd"], map lit ["terrain"])
  (* shield_mult.py:19-36 *)
  else if is "shielding" "shield_mult" then Some ([
    imp "sys"; imp "os"; imp "glob"; imp_as "logging" "log"; imp "numexpr"; from (ds "scipy") ["ndimage"]; from_as (dd "os" "path") "join" "pjoin"; imp_as "numpy" "np";
    from (dd "osgeo" "gdalconst") ["GDT_Float32"]; from (ds "osgeo") ["gdal"]; from_as (dd "utilities" "config") "configparser" "config"; from (ds "utilities") ["value_lookup"];
    from (dd "utilities" "get_pixel_size_grid") ["get_pixel_size_grids"; "RADIANS_PER_DEGREE"]; from (dd "utilities" "nctools") ["save_multiplier"; "get_lat_lon"; "clip_array"]; imp_as "pandas" "pd"],
    map lit ["shield"])
  (* findpeaks.py:8, make_path.py:7, mh.py:8 *)
  else if is "topographic" "findpeaks" then Some ([imp_as "numpy" "np"], map lit ["findpeaks"; "findvalleys"])
  else if is "topographic" "make_path" then Some ([imp "numpy"], map lit ["make_path"])
  else if is "topographic" "mh" then Some ([imp_as "numpy" "np"], map lit ["escarpment_factor"; "mh_calc"])
  (* multiplier_calc.py:8-13 *)
  else if is "topographic" "multiplier_calc" then Some ([
    imp_as "logging" "log"; imp_as "numpy" "np"; from (ds "topographic") ["mh"]; from (dd "topographic" "findpeaks") ["findpeaks"; "findvalleys"]], map lit ["multiplier_calc"])
  (* topo_mult.py:20-32 *)
  else if is "topographic" "topo_mult" then Some ([
    imp "os"; imp "math"; imp_as "logging" "log"; from_as (dd "os" "path") "join" "pjoin"; imp_as "numpy" "np"; from (ds "scipy") ["signal"]; from (ds "osgeo") ["gdal"];
    from (dd "utilities" "get_pixel_size_grid") ["get_pixel_size_grids"]; from (dd "utilities" "nctools") ["save_multiplier"; "get_lat_lon"; "clip_array"];
    from (ds "topographic") ["make_path"]; from (ds "topographic") ["multiplier_calc"]], map lit ["topomult"])
  (* not imported by the programs *)
  else if in_dec (list_eq_dec (list_eq_dec ascii_dec)) key [ds "conf"; ds "tests"] then Some ([], [])
  else None)%string.

(** sys.path_finder: the first entry with the name. *)
Inductive target := Own (key : list str) | Foreign (has : list str -> bool).
Fixpoint find_module (path : list place) (n : str) : option target :=
  match path with
  | [] => None
  | Root :: path => match repo_file [n] with Some _ => Some (Own [n]) | None => find_module path n end
  | Inside p :: path => match repo_file [p; n] with Some _ => Some (Own [p; n]) | None => find_module path n end
  | Elsewhere has :: path => if has [n] then Some (Foreign has) else find_module path n
  end.

(** Where an object bound to a name was made: in the code of a loaded module, in a
    library, or it is a module itself. *)
Inductive origin := Made (m : list str) (x : str) | Library (q : list str) | AModule (m : list str).
(** sys.modules: name, file, names bound in it. *)
Definition loaded := list (list str * (list str * list (str * origin))).
Inductive failure := NotFound (m : list str) | NoName (m : list str) (x : str) | Deep.
Definition name_eq : forall a b : list str, {a = b} + {a <> b} := list_eq_dec (list_eq_dec ascii_dec).
Fixpoint get_loaded (m : list str) (st : loaded) : option (list str * list (str * origin)) :=
  match st with [] => None | (k, v) :: st => if name_eq k m then Some v else get_loaded m st end.
Fixpoint get_name (x : str) (l : list (str * origin)) : option origin :=
  match l with [] => None | (y, o) :: l => if str_eqb y x then Some o else get_name x l end.
Fixpoint bind_name (m : list str) (x : str) (o : origin) (st : loaded) : loaded :=
  match st with
  | [] => []
  | (k, (f, l)) :: st => if name_eq k m then (k, (f, (x, o) :: l)) :: st else (k, (f, l)) :: bind_name m x o st
  end.

Section Import.
  Variable find : str -> option target.
  Section Body.
    Variable load : loaded -> list str -> loaded + failure.
    (** from m import x, for a loaded module of the repository *)
    Definition from_one (me m : list str) (st : loaded + failure) (xy : str * str) : loaded + failure :=
      match st with
      | inr f => inr f
      | inl st =>
        let '(x, y) := xy in
        match get_loaded m st with
        | None => inr (NotFound m)
        | Some (key, names) =>
          match get_name x names with
          | Some o => inl (bind_name me y o st)
          | None =>
            match repo_file (key ++ [x]) with
            | None => inr (NoName m x)
            | Some _ => match load st (m ++ [x]) with inl st => inl (bind_name me y (AModule (m ++ [x])) st) | inr f => inr f end
            end
          end
        end
      end.
    Definition exec (me : list str) (st : loaded + failure) (s : stmt) : loaded + failure :=
      match st with
      | inr f => inr f
      | inl st =>
        match s with
        | Imp m y =>
          match find (hd [] m) with
          | None => inr (NotFound [hd [] m])
          | Some (Foreign has) => if has m then inl (bind_name me y (Library m) st) else inr (NotFound m)
          | Some (Own _) => match load st m with inl st => inl (bind_name me y (AModule [hd [] m]) st) | inr f => inr f end
          end
        | From m xs =>
          match find (hd [] m) with
          | None => inr (NotFound [hd [] m])
          | Some (Foreign has) =>
            if has m then
              fold_left (fun st xy => match st with inr f => inr f | inl st => if has (m ++ [fst xy]) then inl (bind_name me (snd xy) (Library (m ++ [fst xy])) st) else inr (NoName m (fst xy)) end) xs (inl st)
            else inr (NotFound m)
          | Some (Own _) => match load st m with inl st => fold_left (from_one me m) xs (inl st) | inr f => inr f end
          end
        end
      end.
    Definition run_file (me key : list str) (st : loaded) : loaded + failure :=
      match repo_file key with
      | None => inr (NotFound me)
      | Some (ss, defs) =>
        match fold_left (exec me) ss (inl (st ++ [(me, (key, []))])) with
        | inl st => inl (fold_left (fun st d => bind_name me d (Made me d) st) defs st)
        | inr f => inr f
        end
      end.
  End Body.
  (** importlib._bootstrap._find_and_load, with a bound on the nesting *)
  Fixpoint load (fuel : nat) (st : loaded) (m : list str) : loaded + failure :=
    match fuel with
    | O => inr Deep
    | S fuel =>
      match get_loaded m st with
      | Some _ => inl st
      | None =>
        match m with
        | [n] => match find n with Some (Own key) => run_file (load fuel) m key st | _ => inr (NotFound m) end
        | [n; b] =>
          match load fuel st [n] with
          | inr f => inr f
          | inl st =>
            match get_loaded [n] st with
            | Some (key, _) => match get_loaded m st with Some _ => inl st | None => run_file (load fuel) m (key ++ [b]) st end
            | None => inr (NotFound m)
            end
          end
        | _ => inr (NotFound m)
        end
      end
    end.
End Import.
(** Starting a file as a program: the imports at its top.  The module is called
    __main__. *)
Definition main : list str := [lit "__main__"].
Definition start (path : list place) (key : list str) : loaded + failure := run_file (find_module path) (load (find_module path) 60) main key [].
Definition all_multipliers_py (path : list place) := start path (ds "all_multipliers").
Definition pre_process_py (path : list place) := start path (ds "pre_process").
Definition rasterize_start (path : list place) := start path (ds "rasterize").
Definition mpi_runner_py (path : list place) := start path (dd "utilities" "mpi_runner").
Definition name_in (st : loaded) (m : list str) (x : str) : option origin :=
  match get_loaded m st with Some (_, l) => get_name x l | None => None end.

(** parallel.py:83-119: attempt_parallel of a loaded module binds MPI there, to
    mpi4py's communicator (size and rank) or to a dummy of one process. *)
Definition globals := list str -> option (Z * Z).
Definition attempt_parallel (mpi4py : option (Z * Z)) (m : list str) (g : globals) : globals :=
  fun k => if name_eq k m then Some (match mpi4py with Some w => w | None => (1, 0) end) else g k.
(** parallel.py:122-137: a function wrapped by disable_on_workers of module [m] *)
Inductive wrapped_call := Runs | Skipped | NoMPI.
Definition disable_on_workers (m : list str) (g : globals) : wrapped_call :=
  match g m with
  | None => NoMPI
  | Some (size, rank) => if (1 <? size) && (0 <? rank) then Skipped else Runs
  end.
(** The two as the program's own names [f] refer to them. *)
Definition call_attempt (st : loaded) (me : list str) (mpi4py : option (Z * Z)) (g : globals) : globals :=
  match name_in st me (lit "attempt_parallel") with Some (Made m _) => attempt_parallel mpi4py m g | _ => g end.
Definition call_wrapped (st : loaded) (me : list str) (g : globals) : wrapped_call :=
  match name_in st me (lit "disable_on_workers") with Some (Made m _) => disable_on_workers m g | _ => NoMPI end.
