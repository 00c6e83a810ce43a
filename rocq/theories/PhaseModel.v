(** * Model of the phases of a run (all_multipliers.py:673-779) under MPI.

    Each of the [n] processes executes its own instruction list; comm.barrier
    (lines 767, 772, 777) is a collective: it completes for all processes when
    all have reached it.  Everything a process does between two barriers is a
    list of events; events of different processes interleave freely.  Messages
    inside the tile phase are the subject of SchedModel. *)
From Verif Require Import Base.
Open Scope nat_scope.

Inductive instr (E : Type) := Do (e : E) | Barrier.
Arguments Do {E} e. Arguments Barrier {E}.

Section Phase.
  Context {E : Type} (n : nat) (prog : nat -> list (instr E)).

  (** [pc r]: number of instructions process [r] has completed; [trace]: events
      executed so far as (process, instruction number), oldest first. *)
  Record pstate := PS { pc : nat -> nat; trace : list (nat * nat) }.

  Definition pinit : pstate := PS (fun _ => 0) [].

  Inductive pstep : pstate -> pstate -> Prop :=
  | p_do s r e : r < n -> nth_error (prog r) (pc s r) = Some (Do e) ->
      pstep s (PS (fun x => if Nat.eqb x r then S (pc s r) else pc s x) (trace s ++ [(r, pc s r)]))
  | p_barrier s : 0 < n -> (forall r, r < n -> nth_error (prog r) (pc s r) = Some Barrier) ->
      pstep s (PS (fun x => S (pc s x)) (trace s)).

  Inductive preach : pstate -> Prop :=
  | pr_init : preach pinit
  | pr_step s s' : preach s -> pstep s s' -> preach s'.
End Phase.

(** Events of a run. *)
Inductive event :=
| MkDirs        (* do_output_directory_creation, line 760 *)
| ReadGrid      (* TileGrid, get_tiles, lines 763-764 *)
| TileWork      (* parallelise_on_tiles, lines 769-770 *)
| Convert.      (* parallelise_convert_on_tiles, line 776 *)

(** The program of rank [r] among [n] processes: disable_on_workers
    (parallel.py:122-137) skips the directory creation on workers. *)
Definition run_prog (n r : nat) : list (instr event) :=
  (if (1 <? n) && (0 <? r) then [] else [Do MkDirs]) ++
  [Do ReadGrid; Barrier; Do TileWork; Barrier; Do Convert; Barrier].
