(** * Vocabulary for the start of a run. *)
From Verif Require Import Base PyStr RunModel RunSpec StartModel.
Open Scope Z_scope.

(** The configuration gives every setting looked up before the output folder is
    touched, in an acceptable form: the names of the log file, the land-cover
    map, the elevation raster and the output folder. *)
Definition complete (w : world) (verbose : bool) (log lcv dem out : str) : Prop :=
  w_get w (lit "inputValues") (lit "root") <> None /\
  (exists u, w_get w (lit "inputValues") (lit "upwind_length") = Some u /\ w_float w u = true) /\
  w_get w (lit "Logging") (lit "LogFile") = Some log /\
  (exists l, w_get w (lit "Logging") (lit "LogLevel") = Some l /\ w_level w l = None) /\
  (verbose = true \/ exists v, w_get w (lit "Logging") (lit "Verbose") = Some v /\ w_bool w v = true) /\
  w_get w (lit "inputValues") (lit "terrain_data") = Some lcv /\
  w_get w (lit "inputValues") (lit "dem_data") = Some dem /\
  w_get w (lit "Output") (lit "output_dir") = Some out.

(** Nothing that was there is gone or has changed its kind. *)
Definition keeps (f f' : fsys) : Prop := forall p, f p <> None -> f' p = f p.

(** The log file can be opened where the configuration puts it and does not
    stand in the way of the output folder; the output folder can be made. *)
Definition log_ready (f : fsys) (log out : list str) : Prop :=
  f (removelast log) = Some DirE /\ f log <> Some DirE /\ log <> out /\ ~ above out log.
Definition out_ready (f : fsys) (out : list str) : Prop :=
  out <> [] /\ f out <> Some FileE /\ forall q, above out q -> f q <> Some FileE.

(** A file that is there before the run and is not below the output folder. *)
Definition safe_file (f : fsys) (out p : list str) : Prop := f p = Some FileE /\ ~ at_or_below out p.
Definition safe_raster (w : world) (f : fsys) (out p : list str) : Prop := safe_file f out p /\ w_raster w p = true.

(** Everything that was below the output folder is gone: only the five empty
    folders are there. *)
Definition emptied (f' : fsys) (out : list str) : Prop :=
  f' out = Some DirE /\ forall p, at_or_below out p -> p <> out -> f' p <> None -> stage_folder out p /\ f' p = Some DirE.
