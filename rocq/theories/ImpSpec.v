(** * Which programs start, and from where their functions come (C99). *)
From Verif Require Import Base PyStr.
Open Scope Z_scope.

(** A directory of Python's search path: the directory of the repository, one of
    its packages, or any other; [has q] says whether the module or name with the
    dotted name [q] can be had from it. *)
Inductive place := Root | Inside (package : str) | Elsewhere (has : list str -> bool).

(** The top-level modules the repository puts in these places. *)
Definition top_of (p : place) (n : str) : Prop :=
  match p with
  | Root => In n [lit "all_multipliers"; lit "pre_process"; lit "rasterize"; lit "conf"; lit "shielding"; lit "terrain"; lit "topographic"; lit "utilities"; lit "tests"]
  | Inside p =>
    (p = lit "utilities" /\ In n [lit "blrb"; lit "config"; lit "convert"; lit "files"; lit "get_pixel_size_grid"; lit "meta"; lit "mpi_runner"; lit "nctools"; lit "parallel"; lit "shapefiles"; lit "value_lookup"; lit "vincenty"]) \/
    (p = lit "terrain" /\ n = lit "terrain_mult") \/ (p = lit "shielding" /\ n = lit "shield_mult") \/
    (p = lit "topographic" /\ In n [lit "findpeaks"; lit "make_path"; lit "mh"; lit "multiplier_calc"; lit "topo_mult"])
  | Elsewhere has => has [n] = true
  end.
(** The first place of the path with a module of this name. *)
Inductive first_with (n : str) : list place -> place -> Prop :=
| First_here p path : top_of p n -> first_with n (p :: path) p
| First_later p path q : ~ top_of p n -> first_with n path q -> first_with n (p :: path) q.

(** What the programs need from libraries, as dotted names. *)
Definition needed : list (list str) := map (map lit) [
  ["argparse"]; ["configparser"; "RawConfigParser"]; ["datetime"]; ["fiona"]; ["functools"]; ["functools"; "reduce"]; ["functools"; "wraps"]; ["getpass"]; ["glob"]; ["hashlib"];
  ["inspect"]; ["inspect"; "getcallargs"]; ["itertools"]; ["logging"]; ["math"]; ["netCDF4"; "Dataset"]; ["numexpr"]; ["numpy"]; ["numpy"; "ma"]; ["os"]; ["os"; "path"];
  ["os"; "path"; "dirname"]; ["os"; "path"; "isdir"]; ["os"; "path"; "join"]; ["os"; "path"; "realpath"]; ["os"; "path"; "splitext"];
  ["osgeo"; "gdal"]; ["osgeo"; "gdal_array"; "BandReadAsArray"]; ["osgeo"; "gdalconst"; "GA_ReadOnly"]; ["osgeo"; "gdalconst"; "GDT_Float32"]; ["osgeo"; "gdalconst"; "GDT_Int32"];
  ["osgeo"; "gdalconst"; "GRA_NearestNeighbour"]; ["osgeo"; "ogr"]; ["osgeo"; "osr"]; ["pandas"]; ["rtree"; "index"]; ["scipy"; "ndimage"]; ["scipy"; "signal"];
  ["shapely"; "geometry"; "Point"]; ["shapely"; "geometry"; "Polygon"]; ["shapely"; "geometry"; "mapping"]; ["shapely"; "geometry"; "shape"]; ["shapely"; "ops"; "unary_union"]; ["shapely"; "strtree"; "STRtree"];
  ["shutil"]; ["subprocess"]; ["sys"]; ["threading"]; ["time"]; ["time"; "ctime"]; ["time"; "localtime"]; ["time"; "strftime"]]%string.
(** The libraries are installed: what is needed comes from a directory outside the
    repository. *)
Definition installed (path : list place) : Prop := forall q, In q needed ->
  exists has, first_with (hd [] q) path (Elsewhere has) /\ forall k, (0 < k <= length q)%nat -> has (firstn k q) = true.
(** The module [n] is found, and it has these names: it is the one of the
    repository's utilities, or a stranger with the right names. *)
Definition offers (path : list place) (n : str) (names : list str) : Prop :=
  first_with n path (Inside (lit "utilities")) \/
  exists has, first_with n path (Elsewhere has) /\ forall x, In x names -> has [n; x] = true.
