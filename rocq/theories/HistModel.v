(** * Complete and interrupted runs on the disk (all_multipliers.py:672-770).

    The disk is a map from paths to rasters.  The elevation raster is not on
    it: it is open throughout a run and [clip] is its content (PipeModel).
    Log files and the virtual rasters (mpi_runner.py:44-53) are left out. *)
From Verif Require Import Base TileModel PyStr NameModel NameSpec SchedModel SchedSpec PipeModel PipeSpec DistModel ConvModel ConvRunSpec.
Open Scope Z_scope.

(** Is [p] below the folder [out]?  Paths are compared as text: links and ".." are left out. *)
Fixpoint starts (a p : str) : bool :=
  match a, p with
  | [], _ => true
  | x :: a', y :: p' => Ascii.eqb x y && starts a' p'
  | _, [] => false
  end.
Definition under (out p : str) : bool := starts (pjoin out []) p.

(** do_output_directory_creation, all_multipliers.py:557-584, on files:
    shutil.rmtree deletes what is below [out]; see RunModel for the folders. *)
Definition prepare {G} (out : str) (f : rstore G) : rstore G := fun p => if under out p then None else f p.

(** The processes start without local variables. *)
Definition boot {V} (f : str -> option V) : @store cell V :=
  fun c => match c with File p => f p | Local _ => None end.

(** What one run is given: the tiles, their names, the output folder, the land
    cover file, the stages, and the number of worker processes ([0]: a single
    process, else [workers + 1] processes). *)
Record job G := Job {
  tile_type : Type; names : tile_type -> str; outd : str; lcvf : str;
  stg : stages tile_type (raster G); todo : list tile_type; workers : nat }.
Arguments Job {G}. Arguments tile_type {G}. Arguments names {G}. Arguments outd {G}. Arguments lcvf {G}.
Arguments stg {G}. Arguments todo {G}. Arguments workers {G}.

Section Hist.
  Context {G : Type} (mul : Q -> Q -> Q) (stats_ok : grid num -> bool).
  Notation fstore := (@store cell (raster G)).

  Definition jcut (j : job G) := cut_dem (names j) (outd j) (stg j).
  Definition jwork (j : job G) := multipliers_calculate (names j) (outd j) (lcvf j) (stg j).

  (** States during parallelise_on_tiles, 429-499: of the master and the
      workers, or of the single process after [ops] of a tile [t] that follows
      the tiles [before]. *)
  Inductive tiles_state (j : job G) (f0 : fstore) : fstore -> Prop :=
  | ts_parallel s : (1 <= workers j)%nat -> reach (jcut j) (jwork j) (todo j) (workers j) f0 s ->
      tiles_state j f0 (fs s)
  | ts_between before after f : workers j = 0%nat -> todo j = before ++ after ->
      serial (jcut j) (jwork j) before f0 = Ok f -> tiles_state j f0 f
  | ts_within before t after f ops rest f' : workers j = 0%nat -> todo j = before ++ t :: after ->
      serial (jcut j) (jwork j) before f0 = Ok f -> jwork j t = ops ++ rest ->
      run_actions ops (jcut j t f) = Ok f' -> tiles_state j f0 f'.

  (** The end of parallelise_on_tiles. *)
  Inductive tiles_end (j : job G) (f0 : fstore) : fstore -> Prop :=
  | te_parallel s : (1 <= workers j)%nat -> reach (jcut j) (jwork j) (todo j) (workers j) f0 s ->
      m s = MDone -> tiles_end j f0 (fs s)
  | te_serial f : workers j = 0%nat -> serial (jcut j) (jwork j) (todo j) f0 = Ok f -> tiles_end j f0 f.

  (** parallelise_convert_on_tiles, mpi_runner.py:15-54: [ops] is an order in
      which the processes may do their operations. *)
  Definition convert_ops (out : str) (size : Z) (f : rstore G) (ops : list cop) : Prop :=
    exists listing ctiles,
      (forall x, In x listing <-> ~ In slash x /\ exists v, f (pjoin (pjoin out (lit "shielding")) x) = Some v) /\
      tile_list listing ctiles /\ interleaving (map cops (split_tiles size ctiles)) ops.
  Definition conversion (out : str) (size : Z) (f : rstore G) (r : res (rstore G)) : Prop :=
    exists ops, convert_ops out size f ops /\ foldM (cop_run mul stats_ok out) ops f = r.

  Definition nprocs (j : job G) : Z := Z.of_nat (workers j) + 1.

  (** run, 672-770, when the tile phase ends. *)
  Definition complete (j : job G) (f : rstore G) (r : res (rstore G)) : Prop :=
    exists f1, tiles_end j (boot (prepare (outd j) f)) f1 /\ conversion (outd j) (nprocs j) (fun p => f1 (File p)) r.

  (** [f'] is what [f] may look like when the power fails: files below [out]
      that were being written hold anything. *)
  Definition torn (out : str) (f f' : rstore G) : Prop := forall p, under out p = false -> f' p = f p.

  (** What a run stopped at any point may leave on the disk. *)
  Inductive interrupted (j : job G) (f : rstore G) : rstore G -> Prop :=
  | in_before : interrupted j f f                     (* before line 745, or an input is missing *)
  | in_emptying f' : (forall p, f' p = f p \/ (under (outd j) p = true /\ f' p = None)) -> interrupted j f f'
  | in_tiles s f' : tiles_state j (boot (prepare (outd j) f)) s -> torn (outd j) (fun p => s (File p)) f' ->
      interrupted j f f'
  | in_convert f1 ops rest g f' : tiles_end j (boot (prepare (outd j) f)) f1 ->
      convert_ops (outd j) (nprocs j) (fun p => f1 (File p)) (ops ++ rest) ->
      foldM (cop_run mul stats_ok (outd j)) ops (fun p => f1 (File p)) = Ok g -> torn (outd j) g f' ->
      interrupted j f f'.

  (** Any number of runs into the folder [out], each stopped somewhere or
      complete, one after the other. *)
  Inductive history (out : str) (f0 : rstore G) : rstore G -> Prop :=
  | h_start : history out f0 f0
  | h_interrupted j f f' : history out f0 f -> outd j = out ->
      run_ok (names j) (outd j) (lcvf j) (todo j) -> interrupted j f f' -> history out f0 f'.
End Hist.
