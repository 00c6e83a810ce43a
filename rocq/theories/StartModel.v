(** * The start of a run: what is looked up, made, removed and opened, in order
    (all_multipliers.py:719-770, one process). *)
From Verif Require Import Base PyStr RunModel.
Open Scope Z_scope.

(** What the run finds: [w_get section option], the merged configuration (C51);
    [w_float], [w_bool]: which words float() and getboolean() accept; [w_level]:
    the exception a log level leads to, if any; [w_path]: what a file name in the
    configuration stands for; [w_raster]: the files GDAL can open, when they
    exist; the working directory. *)
Record world := World { w_get : str -> str -> option str; w_float : str -> bool; w_bool : str -> bool; w_level : str -> option exn;
                        w_path : str -> list str; w_raster : list str -> bool; w_cwd : list str }.

(** Lines 723-731, 752 and files.py:246-254: where the log goes, its directory made
    if need be.  The directory is made once (the second attempt, in
    fl_start_log, finds it). *)
Definition log_place (w : world) (logfile : str) (f : fsys) : fsys * list str :=
  let lf := w_path w logfile in
  match f (removelast lf) with
  | Some DirE => (f, lf)
  | _ => match makedirs f (removelast lf) with Ok f' => (f', lf) | Err _ => (f, w_cwd w ++ [lit "multipliers.log"]) end
  end.

(** logging.basicConfig, files.py:261-265: the log file is opened for writing. *)
Definition open_log (f : fsys) (lf : list str) : res fsys :=
  match f lf, f (removelast lf) with
  | Some DirE, _ => Err OSError
  | _, Some DirE => Ok (upd f lf (Some FileE))
  | _, _ => Err OSError
  end.

(** Lines 61-67, 289-295 and 609-617: os.path.exists and gdal.Open. *)
Definition check_raster (w : world) (f : fsys) (p : list str) : option exn :=
  match f p with Some FileE => if w_raster w p then None else Some OSError | _ => Some OSError end.

(** The first tile with data reads the land cover (line 399), then the table
    (terrain_mult.py:166-174).  The files of the tile itself are left out. *)
Definition first_tile (w : world) (f : fsys) (lcv : str) : option exn :=
  match check_raster w f (w_path w lcv) with
  | Some e => Some e
  | None =>
      match w_get w (lit "inputValues") (lit "terrain_table") with
      | None => Some KeyError
      | Some t => match f (w_path w t) with Some FileE => None | _ => Some SystemExit end
      end
  end.

(** Lines 719-770; [verbose]: the -v option; [data]: whether some tile has
    elevation data.  KeyError stands for NoSectionError and NoOptionError. *)
Definition start (w : world) (verbose data : bool) (f : fsys) : fsys * option exn :=
  match w_get w (lit "inputValues") (lit "root") with None => (f, Some KeyError) | Some _ =>
  match w_get w (lit "inputValues") (lit "upwind_length") with None => (f, Some KeyError) | Some u =>
  if negb (w_float w u) then (f, Some ValueError) else
  match w_get w (lit "Logging") (lit "LogFile") with None => (f, Some KeyError) | Some l =>
  let '(f, lf) := log_place w l f in
  match w_get w (lit "Logging") (lit "LogLevel") with None => (f, Some KeyError) | Some lv =>
  match (if verbose then None
         else match w_get w (lit "Logging") (lit "Verbose") with
              | None => Some KeyError
              | Some v => if w_bool w v then None else Some ValueError end) with
  | Some e => (f, Some e)
  | None =>
  match w_level w lv with
  | Some e => (f, Some e)
  | None =>
  match open_log f lf with
  | Err e => (f, Some e)
  | Ok f =>
  match w_get w (lit "inputValues") (lit "terrain_data") with None => (f, Some KeyError) | Some lcv =>
  match w_get w (lit "inputValues") (lit "dem_data") with None => (f, Some KeyError) | Some dem =>
  match w_get w (lit "Output") (lit "output_dir") with None => (f, Some KeyError) | Some out =>
  match do_output_directory_creation f (w_path w out) with
  | Err e => (f, Some e)
  | Ok f =>
  match check_raster w f (w_path w dem) with
  | Some e => (f, Some e)
  | None => if data then (f, first_tile w f lcv) else (f, None)
  end end end end end end end end end end end end.
