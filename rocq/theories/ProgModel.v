(** * Progress reports (all_multipliers.py:429-499, the argument progress_callback).

    SchedModel leaves the callback out.  It does not raise here. *)
From Verif Require Import Base SchedModel.
Open Scope nat_scope.

Section Prog.
  Context {T St : Type}.
  Variable cut : T -> St -> St.
  Variable work : T -> list (action St).
  Variable tiles : list T.
  Variable k : nat.

  (** Lines 478-479: the master calls back at the end of each round of its second
      loop, after the send, with its tile counter. *)
  Definition report (s s' : sys T St) : list nat :=
    match m s, m s' with
    | MSend _ _ false, MWait => [w s']
    | _, _ => []
    end.
  (** States with the numbers reported so far. *)
  Inductive preach (s0 : St) : list nat -> sys T St -> Prop :=
  | pr_start : preach s0 [] (init k s0)
  | pr_step b r s s' : preach s0 r s -> step cut work tiles k b s s' -> preach s0 (r ++ report s s') s'.

  (** Lines 489-499: the numbers reported by a single process, and how it ends. *)
  Fixpoint serial_from (i : nat) (l : list T) (s : St) : list nat * res St :=
    match l with
    | [] => ([], Ok s)
    | t :: l' =>
        match run_actions (work t) (cut t s) with
        | Err e => ([], Err e)
        | Ok s' => let (r, o) := serial_from (S i) l' s' in (i :: r, o)
        end
    end.
  Definition serial_reports (s0 : St) : list nat * res St := serial_from 0 tiles s0.
End Prog.
