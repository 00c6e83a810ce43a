(** * The converter as several processes (utilities/mpi_runner.py:14-69).

    From the parsed command line to the two mosaics.  scatter leaves a part for
    every process, gather leaves what a process returns for rank 0, and only
    waiting for these blocks; with the serial communicator (parallel.py:76-80)
    there is rank 0 alone.  A process that raises takes no further step and
    tells nobody.  Log messages other than the warning of line 54 are left out. *)
From Verif Require Import Base PyStr NameModel DistModel ConvModel.
Open Scope Z_scope.

(** Where a process is. *)
Inductive proc :=
| Begin                                                        (* rank 0, line 67 *)
| Listing                                                      (* rank 0, line 24 *)
| Waiting                                                      (* in scatter, line 30 *)
| Converting (ops : list cop) (res : list str * list str)      (* in Converter.run, line 35, or in gather, line 38 *)
| Building (files max_files : list str)                        (* rank 0, line 47 *)
| BuildingMax (max_files : list str)                           (* rank 0, line 50 *)
| Ended
| Raised (e : exn).
Record world G := World {
  procs : nat -> proc;
  inbox : nat -> option (list str);                            (* parts of scatter *)
  outbox : nat -> option (list str * list str);                (* contributions to gather *)
  folders : bool;                                              (* M3 and M3_max were made *)
  disk : rstore G;
  mosaics : str -> option (list str);                          (* the sources of each virtual raster *)
  warned : bool }.
Arguments World {G}. Arguments procs {G}. Arguments inbox {G}. Arguments outbox {G}. Arguments folders {G}.
Arguments disk {G}. Arguments mosaics {G}. Arguments warned {G}.

Definition put {A} (r : nat) (a : A) (f : nat -> A) : nat -> A := fun i => if Nat.eqb i r then a else f i.
Definition write_mosaic (name : str) (l : list str) (m : str -> option (list str)) : str -> option (list str) :=
  fun x => if list_eq_dec ascii_dec x name then Some l else m x.
Fixpoint all_some {A} (l : list (option A)) : option (list A) :=
  match l with
  | [] => Some []
  | None :: _ => None
  | Some a :: l => match all_some l with Some l => Some (a :: l) | None => None end
  end.

Section Mos.
  Context {G : Type} (mul : Q -> Q -> Q) (stats_ok : grid num -> bool).
  (** gdal.BuildVRT raises for these sources. *)
  Variable vrt_raises : list str -> bool.
  (** args.path; os.makedirs raises; os.listdir of the folder shielding ([None]: it raises). *)
  Variables (path : option str) (mkdir_raises : bool) (listing : option (list str)).
  (** comm.size *)
  Variable size : nat.

  Definition at_proc (r : nat) (q : proc) (s : world G) : world G :=
    World (put r q (procs s)) (inbox s) (outbox s) (folders s) (disk s) (mosaics s) (warned s).
  (** convert.py:77 and 162: the names a process notes. *)
  Definition noted (p : str) (o : cop) (res : list str * list str) : list str * list str :=
    match o with
    | OpTile t => (fst res ++ [m3_path p t], snd res)
    | OpMax t => (fst res, snd res ++ [m3max_path p t])
    end.
  (** gather, seen from rank 0, which contributes [own]. *)
  Definition gathered (s : world G) (own : list str * list str) : option (list (list str * list str)) :=
    match all_some (map (outbox s) (seq 1 (size - 1))) with Some l => Some (own :: l) | None => None end.
  (** lines 47 and 50 *)
  Definition vrt_path (p d : str) : str := pjoin (pjoin p d) (lit "wind-multipliers.vrt").

  Inductive step (s : world G) : world G -> Prop :=
  (* create_sub_dirs_for_convert, convert.py:173-175: os.path.join(None, ...) raises TypeError *)
  | st_no_path : path = None -> procs s 0 = Begin -> step s (at_proc 0 (Raised TypeError) s)
  | st_mkdir_raises p : path = Some p -> procs s 0 = Begin -> mkdir_raises = true -> step s (at_proc 0 (Raised OSError) s)
  | st_mkdir p : path = Some p -> procs s 0 = Begin -> mkdir_raises = false ->
      step s (World (put 0 Listing (procs s)) (inbox s) (outbox s) true (disk s) (mosaics s) (warned s))
  (* lines 24-30 *)
  | st_list_raises : procs s 0 = Listing -> listing = None -> step s (at_proc 0 (Raised OSError) s)
  | st_list l tiles : procs s 0 = Listing -> listing = Some l -> tile_list l tiles ->
      step s (World (put 0 Waiting (procs s)) (fun r => nth_error (split_tiles (Z.of_nat size) tiles) r)
                (outbox s) (folders s) (disk s) (mosaics s) (warned s))
  | st_scatter r part : (r < size)%nat -> procs s r = Waiting -> inbox s r = Some part ->
      step s (at_proc r (Converting (cops part) ([], [])) s)
  (* line 35 *)
  | st_convert r p o ops res f : (r < size)%nat -> path = Some p -> procs s r = Converting (o :: ops) res ->
      cop_run mul stats_ok p (disk s) o = Ok f ->
      step s (World (put r (Converting ops (noted p o res)) (procs s)) (inbox s) (outbox s) (folders s) f (mosaics s) (warned s))
  | st_convert_raises r p o ops res e : (r < size)%nat -> path = Some p -> procs s r = Converting (o :: ops) res ->
      cop_run mul stats_ok p (disk s) o = Err e -> step s (at_proc r (Raised e) s)
  (* line 38 *)
  | st_gather r res : (0 < r < size)%nat -> procs s r = Converting [] res ->
      step s (World (put r Ended (procs s)) (inbox s) (put r (Some res) (outbox s)) (folders s) (disk s) (mosaics s) (warned s))
  | st_gather_root res results : procs s 0 = Converting [] res -> gathered s res = Some results ->
      step s (if (0 <? zlen results)
              then at_proc 0 (Building (concat_fst results) (concat_snd results)) s
              else World (put 0 Ended (procs s)) (inbox s) (outbox s) (folders s) (disk s) (mosaics s) true)
  (* lines 47-52 *)
  | st_vrt p a b : path = Some p -> procs s 0 = Building a b -> vrt_raises a = false ->
      step s (World (put 0 (BuildingMax b) (procs s)) (inbox s) (outbox s) (folders s) (disk s)
                (write_mosaic (vrt_path p (lit "M3")) a (mosaics s)) (warned s))
  | st_vrt_raises a b : procs s 0 = Building a b -> vrt_raises a = true -> step s (at_proc 0 (Raised RuntimeError) s)
  | st_vrt_max p b : path = Some p -> procs s 0 = BuildingMax b -> vrt_raises b = false ->
      step s (World (put 0 Ended (procs s)) (inbox s) (outbox s) (folders s) (disk s)
                (write_mosaic (vrt_path p (lit "M3_max")) b (mosaics s)) (warned s))
  | st_vrt_max_raises b : procs s 0 = BuildingMax b -> vrt_raises b = true -> step s (at_proc 0 (Raised RuntimeError) s).

  (** lines 56-69: every process parses the command line; then rank 0 makes the
      folders and the others wait for their parts. *)
  Definition first (f : rstore G) (m : str -> option (list str)) : world G :=
    World (put 0 Begin (fun _ => Waiting)) (fun _ => None) (fun _ => None) false f m false.
  (** [n] steps of any processes in any order. *)
  Inductive steps (s0 : world G) : nat -> world G -> Prop :=
  | steps_first : steps s0 0 s0
  | steps_next n s s' : steps s0 n s -> step s s' -> steps s0 (S n) s'.
End Mos.
