(** * Theorems about the master/worker protocol (C10-C13). *)
From Verif Require Import Base BaseLemmas SchedModel SchedSpec SchedProofs SchedStoreProofs.
Open Scope nat_scope.

(** ** C10: when the master finishes, the tiles processed are exactly the tile
    list, each once, and every one by a worker process; at every earlier moment
    none has been processed twice. *)
Theorem C10_exactly_once {T St} (cut : T -> St -> St) work tiles k s0 s :
  1 <= k -> reach cut work tiles k s0 s -> m s = MDone ->
  Permutation (map snd (log s)) tiles /\ (forall d t, In (d, t) (log s) -> 1 <= d <= k).
Proof. exact (fun Hk => exactly_once cut work tiles k Hk s0 s). Qed.
Print Assumptions C10_exactly_once.

Theorem C10_at_most_once {T St} (cut : T -> St -> St) work tiles k s0 s :
  reach cut work tiles k s0 s -> exists rest, Permutation (map snd (log s) ++ rest) tiles.
Proof. exact (at_most_once cut work tiles k s0 s). Qed.
Print Assumptions C10_at_most_once.

(** ** C11: no reachable state is blocked before the end, even if no send is
    ever buffered; runs have bounded length; and in the end no message is
    left. *)
Theorem C11_no_deadlock {T St} (cut : T -> St -> St) work tiles k s0 s :
  1 <= k -> (forall t, In t tiles -> never_raises work t) -> reach cut work tiles k s0 s ->
  finished k s \/ exists s', step cut work tiles k false s s'.
Proof. exact (fun Hk => no_deadlock cut work tiles k Hk s0 s). Qed.
Print Assumptions C11_no_deadlock.

Theorem C11_terminates {T St} (cut : T -> St -> St) work tiles k s0 n s :
  1 <= k -> reach_n cut work tiles k s0 n s ->
  n <= list_sum (map (fun t => 10 + length (work t)) tiles) + 3 * k + 3.
Proof. exact (fun Hk => bounded cut work tiles k Hk s0 n s). Qed.
Print Assumptions C11_terminates.

Theorem C11_clean_end {T St} (cut : T -> St -> St) work tiles k s0 s :
  1 <= k -> reach cut work tiles k s0 s -> finished k s -> quiet k s.
Proof. exact (fun Hk => finished_quiet cut work tiles k Hk s0 s). Qed.
Print Assumptions C11_clean_end.

(** Every execution can be continued until nothing can move. *)
Theorem C11_runs_to_end {T St} (cut : T -> St -> St) work tiles k s0 s :
  1 <= k -> reach cut work tiles k s0 s ->
  exists s', reach cut work tiles k s0 s' /\ stuck cut work tiles k s'.
Proof. exact (fun Hk => run_to_end cut work tiles k Hk s0 s). Qed.
Print Assumptions C11_runs_to_end.

(** ** C12: if nothing written for one tile is read for another, every parallel
    run that finishes leaves the same files as the single-process run, and if
    the single-process run succeeds no parallel run can block. *)
Theorem C12_parallel_eq_serial {T K V} reads writes (cut : T -> @store K V -> store) work tiles k s0 g s :
  NoDup tiles -> independent reads writes tiles ->
  (forall t, In t tiles -> local_total reads writes t (cut t)) ->
  (forall t a, In t tiles -> In a (work t) -> local_action reads writes t a) ->
  1 <= k -> serial cut work tiles s0 = Ok g ->
  reach cut work tiles k s0 s ->
  (finished k s \/ exists s', step cut work tiles k false s s') /\
  (m s = MDone -> forall x, fs s x = g x).
Proof.
  intros H1 H2 H3 H4 H5 H6 H7. split.
  - exact (serial_ok_finishes reads writes cut work tiles k H1 H2 H3 H4 s0 g s H6 H7).
  - exact (parallel_serial reads writes cut work tiles k H1 H2 H3 H4 H5 s0 g s H6 H7).
Qed.
Print Assumptions C12_parallel_eq_serial.

(** If the single-process run raises, no parallel run ever finishes. *)
Theorem C12_serial_fails {T K V} reads writes (cut : T -> @store K V -> store) work tiles k s0 e s :
  NoDup tiles -> independent reads writes tiles ->
  (forall t, In t tiles -> local_total reads writes t (cut t)) ->
  (forall t a, In t tiles -> In a (work t) -> local_action reads writes t a) ->
  1 <= k -> serial cut work tiles s0 = Err e ->
  reach cut work tiles k s0 s -> m s <> MDone.
Proof.
  intros H1 H2 H3 H4 H5 H6 H7.
  exact (serial_err_never reads writes cut work tiles k H1 H2 H3 H4 H5 s0 e s H6 H7).
Qed.
Print Assumptions C12_serial_fails.

(** ** C13: a tile whose processing always raises keeps the master from ever
    finishing; every run ends in a blocked state in which the master waits for
    a message nobody will send, and the tiles not processed are the lost ones
    or all workers are dead. *)
Theorem C13_failing_tile_stalls {T St} (cut : T -> St -> St) work tiles k s0 s t :
  1 <= k -> In t tiles -> always_raises work t -> reach cut work tiles k s0 s ->
  m s <> MDone /\
  exists s', reach cut work tiles k s0 s' /\ stuck cut work tiles k s' /\ m s' = MWait /\ quiet k s'.
Proof.
  intros Hk It Ha R. split; [exact (failing_never_done cut work tiles k Hk s0 s t It Ha R)|].
  destruct (run_to_end cut work tiles k Hk s0 s R) as (s' & R' & St').
  exists s'. split; [exact R'|]. split; [exact St'|].
  destruct (blocked_state cut work tiles k Hk s0 s' R' (St' false)) as (H1 & H2 & _); [|auto].
  intros [F _]. exact (failing_never_done cut work tiles k Hk s0 s' t It Ha R' F).
Qed.
Print Assumptions C13_failing_tile_stalls.

Theorem C13_blocked_state {T St} (cut : T -> St -> St) work tiles k s0 s :
  1 <= k -> reach cut work tiles k s0 s -> (forall s', ~ step cut work tiles k false s s') -> ~ finished k s ->
  m s = MWait /\ quiet k s /\
  (exists d t, 1 <= d <= k /\ wk s d = WFail t /\ In t tiles) /\
  ((forall d, 1 <= d <= k -> exists t, wk s d = WFail t) \/
   (exists lost, Permutation (map snd (log s) ++ lost) tiles /\
      forall t, In t lost -> exists a g e, In a (work t) /\ a g = Err e)).
Proof. exact (fun Hk => blocked_state cut work tiles k Hk s0 s). Qed.
Print Assumptions C13_blocked_state.

(** ** A concrete system: three tiles, two workers.  Path 0 is an input that
    all tiles read, path t belongs to tile t; cutting writes the input value
    plus t there, the processing doubles it. *)
Definition ex_put (f : store) (x v : nat) : store (K:=nat) (V:=nat) :=
  fun y => if Nat.eqb y x then Some v else f y.
Definition ex_get (f : store (K:=nat) (V:=nat)) x := match f x with Some v => v | None => 0 end.
Definition ex_cut (t : nat) (f : store) := ex_put f t (ex_get f 0 + t).
Definition ex_work (t : nat) : list (action store) :=
  [fun f => Ok (ex_put f t (2 * ex_get f t)); fun f => Ok (ex_put f t (1 + ex_get f t))].
Definition ex_tiles := [1; 2; 3].
Definition ex_s0 : store (K:=nat) (V:=nat) := fun x => if Nat.eqb x 0 then Some 10 else None.
Definition ex_reads (t x : nat) := Nat.eqb x t || Nat.eqb x 0.
Definition ex_writes (t x : nat) := Nat.eqb x t.

Example C10_ex : exists s, reach ex_cut ex_work ex_tiles 2 ex_s0 s /\ finished 2 s.
Proof.
  destruct (C11_runs_to_end ex_cut ex_work ex_tiles 2 ex_s0 (init 2 ex_s0)) as (s & R & St'); [lia|exists 0; constructor|].
  exists s. split; [exact R|].
  destruct (C11_no_deadlock ex_cut ex_work ex_tiles 2 ex_s0 s) as [F|(s' & H)]; auto.
  - intros t _ a f [<-|[<-|[]]]; eexists; reflexivity.
  - exfalso. exact (St' false s' H).
Qed.

Example C12_ex : NoDup ex_tiles /\ independent ex_reads ex_writes ex_tiles /\
  (forall t, In t ex_tiles -> local_total ex_reads ex_writes t (ex_cut t)) /\
  (forall t a, In t ex_tiles -> In a (ex_work t) -> local_action ex_reads ex_writes t a) /\
  exists g, serial ex_cut ex_work ex_tiles ex_s0 = Ok g /\ map g [0;1;2;3;4] = [Some 10; Some 23; Some 25; Some 27; None].
Proof.
  assert (G : forall t f g, agree ex_reads t f g -> ex_get f t = ex_get g t /\ ex_get f 0 = ex_get g 0).
  { intros t f g H. unfold ex_get. rewrite (H t), (H 0); auto; unfold ex_reads; rewrite Nat.eqb_refl; auto using orb_true_r. }
  assert (P : forall t f g v v', agree ex_reads t f g -> v = v' -> agree ex_reads t (ex_put f t v) (ex_put g t v')).
  { intros t f g v v' H <- x Hx. unfold ex_put. destruct (Nat.eqb x t); auto. }
  assert (W : forall t f x v, ex_writes t x = false -> ex_put f t v x = f x).
  { intros t f x v H. unfold ex_put. unfold ex_writes in H. rewrite H. reflexivity. }
  split; [repeat constructor; simpl; intuition lia|]. split.
  { split; unfold ex_reads, ex_writes, ex_tiles.
    - intros t x _ ->. reflexivity.
    - intros t t' x H H' E1 E2. apply Nat.eqb_eq in E1. apply orb_true_iff in E2. rewrite !Nat.eqb_eq in E2.
      simpl in *. intuition lia. }
  split.
  { intros t _. split; [intros; apply W; assumption|]. intros f g H. apply P; auto. destruct (G t f g H). congruence. }
  split.
  { intros t a _ [<-|[<-|[]]]; (split; [intros f f' x E H; inversion E; apply W; assumption|]);
      intros f g H; apply P; auto; destruct (G t f g H); congruence. }
  eexists. split; [reflexivity|reflexivity].
Qed.

(** A failing tile: tile 2 raises. *)
Example C13_ex : always_raises (fun t => if Nat.eqb t 2 then [fun f : store (K:=nat) (V:=nat) => Err OSError] else ex_work t) 2.
Proof. eexists. split; [left; reflexivity|]. intros f. eexists. reflexivity. Qed.
