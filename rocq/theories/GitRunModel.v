(** * A run and the version of the source (utilities/nctools.py:319-324 in a whole run).
    Each multiplier file is written by save_multiplier, which first changes to the folder of the
    source ([code]) and asks git for its version there.  [git] is the exception of that question,
    if it raises (no repository, no tag, no git). *)
From Coq Require Import Ascii String.
From Verif Require Import Base PyStr NameModel PipeModel RunModel.

Inductive gop := Do (o : op) | Save (p : path).
(** The state and the exception after one operation; Save: nctools.py:319-324, then 413-420. *)
Definition gexec (git : option exn) (code : list str) (st : proc) (g : gop) : proc * option exn :=
  match g with
  | Do o => match exec st o with Ok st' => (st', None) | Err e => (st, Some e) end
  | Save p =>
      match git with
      | Some e => ((code, snd st), Some e)
      | None => match exec st (OpWrite p) with Ok st' => (st', None) | Err e => (st, Some e) end
      end
  end.
Fixpoint gexecs (git : option exn) (code : list str) (l : list gop) (st : proc) : proc * option exn :=
  match l with
  | [] => (st, None)
  | g :: l => match gexec git code st g with (st', None) => gexecs git code l st' | r => r end
  end.
(** The operations of a tile as in RunModel.tile_ops (all_multipliers.py:307-329, 367-427), the
    files of multipliers written by save_multiplier (terrain_mult.py:149, shield_mult.py:328,
    topo_mult.py:148). *)
Definition gtile (out : path) (t : str) (data : bool) : list gop :=
  let dem := add out (dem_name t) in
  let lcv := add out (lcv_name t) in
  let ms := in_dir out (lit "shielding") (ms_name t) in
  [Do (OpWrite dem); Do (OpOpen dem)] ++
  (if data then
     [Do (OpWrite lcv); Do (OpOpen lcv)] ++
     map (fun d => Save (in_dir out (lit "terrain") (nc_name t (lit "mz") d))) stage_dirs ++
     [Do (OpOpen dem); Do (OpOpen lcv); Do (OpWrite ms); Do (OpOpen ms)] ++
     map (fun d => Save (in_dir out (lit "shielding") (nc_name t (lit "ms") d))) stage_dirs ++
     [Do (OpRemoveQuiet ms); Do (OpChdir (add out (lit "shielding"))); Do OpRemoveXml; Do (OpOpen dem)] ++
     map (fun d => Save (in_dir out (lit "topographic") (nc_name t (lit "mt") d))) topo_dirs ++
     [Do (OpRemove dem); Do (OpRemove lcv)]
   else [Do (OpRemove dem)]).
(** As RunModel.run (all_multipliers.py:489-496, 759-760), with what an exception leaves behind.
    If the output folder cannot be prepared, what is left is not described here. *)
Fixpoint gtiles (git : option exn) (code : list str) (out : path) (tiles : list (str * bool)) (st : proc) : proc * option exn :=
  match tiles with
  | [] => (st, None)
  | t :: tiles => match gexecs git code (gtile out (fst t) (snd t)) st with (st', None) => gtiles git code out tiles st' | r => r end
  end.
Definition grun (git : option exn) (code cwd : list str) (f : fsys) (out : path) (tiles : list (str * bool)) : proc * option exn :=
  match do_output_directory_creation f (resolve cwd out) with
  | Err e => ((cwd, f), Some e)
  | Ok f => gtiles git code out tiles (cwd, f)
  end.
