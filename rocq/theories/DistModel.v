(** * Model of the distribution of conversion work (utilities/mpi_runner.py:14-54)
    and of the communicators (utilities/parallel.py). *)
From Verif Require Import Base PyStr NameModel.
Open Scope Z_scope.

(** l[i::n] for i >= 0, n > 0. *)
Definition stride {A} (i n : Z) (l : list A) : list A :=
  flat_map (fun k => match nth_error l (Z.to_nat k) with Some a => [a] | None => [] end) (range3 i (zlen l) n).

(** mpi_runner.py:26 *)
Definition split_tiles {A} (size : Z) (tiles : list A) : list (list A) :=
  map (fun i => stride i size tiles) (zrange size).

(** MPI: scatter hands sendobj[r] to process r and requires one entry per
    process; gather hands the root the list of contributions in rank order. *)
Definition mpi_scatter {A} (size : Z) (sendobj : list A) (r : Z) : res A :=
  if zlen sendobj =? size then pyget sendobj r else Err ValueError.
Definition mpi_gather {A} (size : Z) (contrib : Z -> A) : list A := map contrib (zrange size).

(** DummyCommWorld, parallel.py:45-80. *)
Definition dummy_rank : Z := 0.
Definition dummy_size : Z := 1.
Definition dummy_scatter {A} (sendobj : list A) : res A := pyget sendobj 0.
Definition dummy_gather {A} (sendobj : A) : list A := [sendobj].

(** disable_on_workers, parallel.py:122-137: does the wrapped function run? *)
Definition runs_on (size rank : Z) : bool := negb ((1 <? size) && (0 <? rank)).

(** mpi_runner.py:43-46: reduce(lambda total, element: total + element[i], results, []). *)
Definition concat_fst {A B} (results : list (list A * B)) : list A :=
  fold_left (fun total e => total ++ fst e) results [].
Definition concat_snd {A B} (results : list (B * list A)) : list A :=
  fold_left (fun total e => total ++ snd e) results [].

(** Lines 23-46 seen from outside: what rank 0 hands to BuildVRT, when process
    [r] returns [conv r tiles]. *)
Definition convert_lists {A B} (size : Z) (tiles : list A) (conv : Z -> list A -> list B * list B)
  : res (list B * list B) :=
  let parts := split_tiles size tiles in
  let* contrib := mapM (fun r => let* ts := mpi_scatter size parts r in Ok (conv r ts)) (zrange size) in
  let results := mpi_gather size (fun r => nth (Z.to_nat r) contrib ([], [])) in
  Ok (concat_fst results, concat_snd results).

(** Line 24: list({file.split('_')[0] for file in listing}); the order of a set
    is not specified, so this is a relation. *)
Definition tile_list (listing tiles : list str) : Prop :=
  NoDup tiles /\ forall t, In t tiles <-> exists f, In f listing /\ t = tile_of_file f.
