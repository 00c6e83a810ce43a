From Verif Require Import Base PhaseModel.
Open Scope nat_scope.
Section PhaseSpec.
  Context {E : Type} (n : nat) (prog : nat -> list (instr E)).
  Definition bars (l : list (instr E)) : nat :=
    length (filter (fun i => match i with Barrier => true | _ => false end) l).

  (** The number of barriers before instruction [i] of process [r]. *)
  Definition phase_of (r i : nat) : nat := bars (firstn i (prog r)).

  (** All processes are at the end of their programs. *)
  Definition all_done (s : pstate) : Prop := forall r, r < n -> pc s r = length (prog r).
End PhaseSpec.

(** Event [e] of process [r] is executed in [s] before position [a] of the trace. *)
Definition happened (n : nat) (a : list (nat * nat)) (r : nat) (e : event) : Prop :=
  exists i, nth_error (run_prog n r) i = Some (Do e) /\ In (r, i) a.
