(** * Model of the master/worker protocol
    (all_multipliers.py:429-499, Multipliers.parallelise_on_tiles).

    Rank 0 is the master, ranks 1..k are the workers (comm.size = k + 1).
    [T] is the type of tile descriptors, [St] the type of everything outside
    the processes (the file system).  [cut t] is self.cut_dem(t) (it does not
    raise in the model), [work t] the sequence of atomic file operations of
    self.multipliers_calculate on tile [t]; each may raise.

    Messages: the network keeps, per worker, the queue of work messages sent
    and not yet received, and the collection of results sent and not yet
    received (the master receives with MPI.ANY_SOURCE, so any of them may be
    next).  comm.send may return at once with the message buffered, or only
    when the receiver takes it; both are possible at every send.  Logging and
    progress_callback are left out. *)
From Verif Require Import Base.
Open Scope nat_scope.

Section Sched.
  Context {T St : Type}.
  Definition action := St -> res St.
  Variable cut : T -> St -> St.
  Variable work : T -> list action.
  Variable tiles : list T.
  Variable k : nat.

  (** Worker program points: 483 (about to receive), 486 (processing, with the
      operations still to do), 487 (about to send the result), 485 (left the
      loop), and dead because the processing raised. *)
  Inductive wst := WRecv | WBusy (t : T) (todo : list action) | WSend | WDone | WFail (t : T).

  (** Master program points: 444 (initial loop, next destination d), 462
      (result received from d), 447/452/467/472 (about to send [msg] to d;
      [init] tells which of the two loops), 457 (head of the while loop), 479
      (finished). *)
  Inductive mst :=
  | MInit (d : nat) | MGot (d : nat) | MSend (d : nat) (msg : option T) (init : bool)
  | MWait | MDone.

  Record sys := Sys {
    m : mst;             (* master program point *)
    w : nat;             (* next tile number *)
    p : nat;             (* number of workers to wait for *)
    term : nat;          (* workers told to stop in the second loop *)
    wk : nat -> wst;     (* worker program points *)
    ch : nat -> list (option T);  (* work messages in transit to worker d *)
    rs : list nat;       (* results in transit to the master, by source *)
    log : list (nat * T);(* (worker, tile) processed so far, latest first *)
    fs : St }.           (* file system *)

  Definition upd {A} (f : nat -> A) (d : nat) (v : A) : nat -> A :=
    fun x => if Nat.eqb x d then v else f x.

  (** Lines 442-444: w = 0, p = comm.size - 1. *)
  Definition init (s0 : St) : sys :=
    Sys (MInit 1) 0 k 0 (fun _ => WRecv) (fun _ => []) [] [] s0.

  Definition set_m s v := Sys v (w s) (p s) (term s) (wk s) (ch s) (rs s) (log s) (fs s).
  Definition set_wk s d v := Sys (m s) (w s) (p s) (term s) (upd (wk s) d v) (ch s) (rs s) (log s) (fs s).
  Definition set_ch s d v := Sys (m s) (w s) (p s) (term s) (wk s) (upd (ch s) d v) (rs s) (log s) (fs s).
  Definition set_rs s v := Sys (m s) (w s) (p s) (term s) (wk s) (ch s) v (log s) (fs s).
  Definition set_fs s v := Sys (m s) (w s) (p s) (term s) (wk s) (ch s) (rs s) (log s) v.
  Definition add_log s e := Sys (m s) (w s) (p s) (term s) (wk s) (ch s) (rs s) (e :: log s) (fs s).

  (** Lines 445-446 and 465-466: choose what to send next; cut the DEM of the
      tile first. *)
  Definition pick (d : nat) (i : bool) (s : sys) : sys :=
    match nth_error tiles (w s) with
    | Some t => set_m (set_fs s (cut t (fs s))) (MSend d (Some t) i)
    | None => set_m s (MSend d None i)
    end.

  (** Lines 450, 453, 470, 473: what the master does right after a send. *)
  Definition after_send (d : nat) (msg : option T) (i : bool) (s : sys) : sys :=
    let nxt := if i then MInit (S d) else MWait in
    match msg with
    | Some _ => Sys nxt (S (w s)) (p s) (term s) (wk s) (ch s) (rs s) (log s) (fs s)
    | None => if i then Sys nxt (w s) (w s) (term s) (wk s) (ch s) (rs s) (log s) (fs s)
              else Sys nxt (w s) (p s) (S (term s)) (wk s) (ch s) (rs s) (log s) (fs s)
    end.

  (** Lines 483-486: what a worker does with a received message. *)
  Definition accept (d : nat) (msg : option T) (s : sys) : sys :=
    match msg with None => set_wk s d WDone | Some t => set_wk s d (WBusy t (work t)) end.

  (** [buf = true]: a send that returned before the message was received. *)
  Inductive step : bool -> sys -> sys -> Prop :=
  | st_init s d : m s = MInit d -> d <= k -> step false s (pick d true s)
  | st_init_end s d : m s = MInit d -> k < d -> step false s (set_m s MWait)
  | st_end s : m s = MWait -> p s <= term s -> step false s (set_m s MDone)
  | st_recv s l d l' : m s = MWait -> term s < p s -> rs s = l ++ d :: l' ->
      step false s (set_m (set_rs s (l ++ l')) (MGot d))
  | st_pick s d : m s = MGot d -> step false s (pick d false s)
  | st_send_buffered s d msg i : m s = MSend d msg i ->
      step true s (after_send d msg i (set_ch s d (ch s d ++ [msg])))
  | st_send_direct s d msg i : m s = MSend d msg i -> wk s d = WRecv -> ch s d = [] ->
      step false s (accept d msg (after_send d msg i s))
  | w_recv s d msg q : 1 <= d <= k -> wk s d = WRecv -> ch s d = msg :: q ->
      step false s (accept d msg (set_ch s d q))
  | w_ok s d t a r f : 1 <= d <= k -> wk s d = WBusy t (a :: r) -> a (fs s) = Ok f ->
      step false s (set_fs (set_wk s d (WBusy t r)) f)
  | w_raise s d t a r e : 1 <= d <= k -> wk s d = WBusy t (a :: r) -> a (fs s) = Err e ->
      step false s (set_wk s d (WFail t))
  | w_done s d t : 1 <= d <= k -> wk s d = WBusy t [] ->
      step false s (add_log (set_wk s d WSend) (d, t))
  | w_send_buffered s d : 1 <= d <= k -> wk s d = WSend ->
      step true s (set_rs (set_wk s d WRecv) (rs s ++ [d]))
  | w_send_direct s d : 1 <= d <= k -> wk s d = WSend -> m s = MWait -> term s < p s ->
      step false s (set_m (set_wk s d WRecv) (MGot d)).

  Inductive steps : nat -> sys -> sys -> Prop :=
  | steps_0 s : steps 0 s s
  | steps_S n b s s' s'' : steps n s s' -> step b s' s'' -> steps (S n) s s''.

  (** The single-process branch, lines 489-499. *)
  Definition run_actions (l : list action) (s : St) : res St := foldM (fun s a => a s) l s.
  Definition serial (s0 : St) : res St :=
    foldM (fun s t => run_actions (work t) (cut t s)) tiles s0.
End Sched.
Arguments action : clear implicits.
Arguments wst : clear implicits.
Arguments mst : clear implicits.
Arguments sys : clear implicits.
