(** * Folders, working directory and files of a whole run.
    A path is a list of names below the root directory, or below the current
    working directory; "." and "..", links and permissions are not modelled.
    Files have no content here (PipeModel follows contents). *)
From Coq Require Import Ascii String.
From Verif Require Import Base PyStr NameModel PipeModel.
Open Scope Z_scope.

Inductive path := Abs (l : list str) | Rel (l : list str).
Inductive entry := FileE | DirE.
Definition fsys := list str -> option entry.

Definition path_eq_dec (a b : list str) : {a = b} + {a <> b} := list_eq_dec (list_eq_dec ascii_dec) a b.
Definition peqb (a b : list str) : bool := if path_eq_dec a b then true else false.
Definition under (o p : list str) : bool := peqb (firstn (length o) p) o.

(** The operating system's resolution of a path. *)
Definition resolve (cwd : list str) (p : path) : list str := match p with Abs l => l | Rel l => cwd ++ l end.
(** os.path.join(p, name) *)
Definition add (p : path) (name : str) : path := match p with Abs l => Abs (l ++ [name]) | Rel l => Rel (l ++ [name]) end.

Definition upd (f : fsys) (p : list str) (e : option entry) : fsys := fun q => if peqb q p then e else f q.

(** shutil.rmtree of an existing path *)
Definition rmtree (f : fsys) (o : list str) : res fsys :=
  match f o with
  | Some DirE => Ok (fun p => if under o p then None else f p)
  | _ => Err OSError
  end.

(** os.mkdir *)
Definition mkdir (f : fsys) (p : list str) : res fsys :=
  match f p with
  | Some _ => Err OSError
  | None => match f (removelast p) with Some DirE => Ok (upd f p (Some DirE)) | _ => Err OSError end
  end.
(** os.makedirs; the path is given in reverse. *)
Fixpoint makedirs_rev (r : list str) (f : fsys) : res fsys :=
  match r with
  | [] => Err OSError
  | x :: r' =>
      let* f := match f (rev r') with Some _ => Ok f | None => makedirs_rev r' f end in
      mkdir f (rev r)
  end.
Definition makedirs (f : fsys) (p : list str) : res fsys := makedirs_rev (rev p) f.

(** all_multipliers.py:567 *)
Definition subdirs_1 : list str := [lit "terrain"; lit "shielding"; lit "topographic"; lit "M3"; lit "M3_max"].

(** all_multipliers.py:569-574 and 576-583 share this shape. *)
Definition recreate (f : fsys) (p : list str) : res fsys :=
  let* f := match f p with Some _ => rmtree f p | None => Ok f end in
  makedirs f p.
(** all_multipliers.py:557-583 (on the rank that performs it); [o] is the
    output folder as resolved by the operating system. *)
Definition do_output_directory_creation (f : fsys) (o : list str) : res fsys :=
  let* f := recreate f o in
  foldM (fun f sub => recreate f (o ++ [sub])) subdirs_1 f.

(** ** The file operations of a tile *)
Inductive op :=
| OpWrite (p : path)        (* create or overwrite a file *)
| OpOpen (p : path)         (* open an existing file for reading *)
| OpRemove (p : path)       (* os.remove *)
| OpRemoveQuiet (p : path)  (* os.remove with every error ignored *)
| OpChdir (p : path)        (* os.chdir *)
| OpRemoveXml.              (* remove glob.glob('*.xml') *)

Definition proc := (list str * fsys)%type.

Definition is_xml (name : str) : bool :=
  match name with
  | [] => false
  | c :: _ => negb (Ascii.eqb c dot) && peqb [last_n 4 name] [lit ".xml"] && (4 <=? zlen name)
  end.

(** Opening a missing file raises; which exception is raised is not modelled
    (GDAL returns None and the next attribute access raises). *)
Definition exec (st : proc) (o : op) : res proc :=
  let '(cwd, f) := st in
  match o with
  | OpWrite p =>
      let q := resolve cwd p in
      match f q, f (removelast q) with
      | Some DirE, _ => Err OSError
      | _, Some DirE => Ok (cwd, upd f q (Some FileE))
      | _, _ => Err OSError
      end
  | OpOpen p => match f (resolve cwd p) with Some FileE => Ok st | _ => Err OSError end
  | OpRemove p =>
      let q := resolve cwd p in
      match f q with Some FileE => Ok (cwd, upd f q None) | _ => Err OSError end
  | OpRemoveQuiet p =>
      let q := resolve cwd p in
      match f q with Some FileE => Ok (cwd, upd f q None) | _ => Ok st end
  | OpChdir p => let q := resolve cwd p in match f q with Some DirE => Ok (q, f) | _ => Err OSError end
  | OpRemoveXml =>
      Ok (cwd, fun q => match f q with
                        | Some FileE => if peqb (removelast q) cwd && is_xml (last q []) && negb (peqb q []) then None else Some FileE
                        | e => e end)
  end.

(** File names of a tile, all_multipliers.py:326, 395, terrain_mult.py:136-143,
    shield_mult.py:176, 220, 317-322, topo_mult.py:47, 142-143; these are the
    last components of the paths computed as strings in NameModel. *)
Definition dem_name (t : str) : str := t ++ lit "_dem.img".
Definition lcv_name (t : str) : str := t ++ lit ".img".
Definition ms_name (t : str) : str := t ++ lit "_ms.img".
Definition nc_name (t u : str) (d : dir) : str := t ++ lit "_" ++ u ++ lit "_" ++ dir_str d ++ lit ".nc".
Definition in_dir (out : path) (sub : str) (name : str) : path := add (add out sub) name.

(** all_multipliers.py:307-329 then 367-427 for one tile; [data] is the test
    at 393; a tile with data is taken to have some terrain class (without one
    the terrain stage writes no file, see op_terrain in PipeModel).
    The files are opened in the order of the calls at 384-421: reproject_dataset
    (586-670), terrain_mult.py:44, 138-157, shield_mult.py:102, 182, 220, 257,
    317-347, topo_mult.py:50, 142-153. *)
Definition tile_ops (out : path) (t : str) (data : bool) : list op :=
  let dem := add out (dem_name t) in
  let lcv := add out (lcv_name t) in
  let ms := in_dir out (lit "shielding") (ms_name t) in
  [OpWrite dem; OpOpen dem] ++
  (if data then
     [OpWrite lcv; OpOpen lcv] ++
     map (fun d => OpWrite (in_dir out (lit "terrain") (nc_name t (lit "mz") d))) stage_dirs ++
     [OpOpen dem; OpOpen lcv; OpWrite ms; OpOpen ms] ++
     map (fun d => OpWrite (in_dir out (lit "shielding") (nc_name t (lit "ms") d))) stage_dirs ++
     [OpRemoveQuiet ms; OpChdir (add out (lit "shielding")); OpRemoveXml; OpOpen dem] ++
     map (fun d => OpWrite (in_dir out (lit "topographic") (nc_name t (lit "mt") d))) topo_dirs ++
     [OpRemove dem; OpRemove lcv]
   else [OpRemove dem]).

(** One process doing all tiles in turn (all_multipliers.py:489-496; the folder is
    prepared at 759-760).  The working-directory change and restore inside
    save_multiplier (nctools.py:321-324) and the reading of the two input
    rasters are left out. *)
Definition run_tiles (out : path) (tiles : list (str * bool)) (st : proc) : res proc :=
  foldM (fun st t => foldM exec (tile_ops out (fst t) (snd t)) st) tiles st.
Definition run (cwd : list str) (f : fsys) (out : path) (tiles : list (str * bool)) : res proc :=
  let* f := do_output_directory_creation f (resolve cwd out) in
  run_tiles out tiles (cwd, f).
