(** * The protocol when the master raises (all_multipliers.py:283-305, 429-499).

    SchedModel leaves out that opening the elevation data (lines 440-441,
    491-492) and cutting a tile from it (446, 466, 494) may raise.  Here both may.
    A cut that raises leaves the files as they were (a partly written file of
    the tile is read by nobody).  The exception ends the master's loop; run()
    does not catch it, and nothing tells the workers. *)
From Verif Require Import Base SchedModel.
Open Scope nat_scope.

Section Fail.
  Context {T St : Type}.
  Variable open_raises : bool.
  Variable cut_raises : T -> St -> bool.
  Variable cut : T -> St -> St.
  Variable work : T -> list (action St).
  Variable tiles : list T.
  Variable k : nat.

  (** The master is about to cut tile [t]: lines 446 and 466. *)
  Definition cutting (s : sys T St) (t : T) : Prop :=
    (exists d, (m s = MInit d /\ d <= k) \/ m s = MGot d) /\ nth_error tiles (w s) = Some t.

  (** States of the processes; [true] once the master has raised.  From then on
      only steps that leave the master alone are possible. *)
  Inductive mreach (s0 : St) : bool -> sys T St -> Prop :=
  | mr_start : open_raises = false -> mreach s0 false (init k s0)
  | mr_open : open_raises = true -> mreach s0 true (init k s0)
  | mr_step b s s' : mreach s0 false s -> step cut work tiles k b s s' ->
      (forall t, cutting s t -> m s' <> m s -> cut_raises t (fs s) = false) -> mreach s0 false s'
  | mr_raise s t : mreach s0 false s -> cutting s t -> cut_raises t (fs s) = true -> mreach s0 true s
  | mr_dead b s s' : mreach s0 true s -> step cut work tiles k b s s' -> m s' = m s -> mreach s0 true s'.

  (** The single-process branch, lines 489-499; open_dem raises OSError
      (IOError is the same class), and so, in this model, does a failing cut. *)
  Definition serial_fail (s0 : St) : res St :=
    if open_raises then Err OSError
    else foldM (fun s t => if cut_raises t s then Err OSError else run_actions (work t) (cut t s)) tiles s0.
End Fail.
