(** * Theorems about progress reports (C79). *)
From Verif Require Import Base BaseLemmas SchedModel SchedSpec SchedProofs SchedProps ProgModel ProgProofs.
Open Scope nat_scope.

(** Reporting changes nothing else: the executions are those of C10 to C13. *)
Theorem C79_executions {T St} (cut : T -> St -> St) work tiles k s0 s :
  reach cut work tiles k s0 s <-> exists r, preach cut work tiles k s0 r s.
Proof. split; [apply reach_preach|intros (r & H); exact (preach_reach _ _ _ _ _ _ _ H)]. Qed.
Print Assumptions C79_executions.

(** With n tiles and k workers the i-th report is min n (min n k + i), whatever the order of events;
    by then at least i tiles have been processed. *)
Theorem C79_reports {T St} (cut : T -> St -> St) work tiles k s0 r s :
  let n := length tiles in
  preach cut work tiles k s0 r s ->
  r = map (fun i => Nat.min n (Nat.min n k + i)) (seq 1 (length r)) /\
  length r <= length (log s) /\ length (log s) <= n.
Proof.
  intros n H. split; [exact (reports_shape _ _ _ _ _ _ _ H)|]. split; [exact (reports_bound _ _ _ _ _ _ _ H)|].
  destruct (at_most_once cut work tiles k s0 s (preach_reach _ _ _ _ _ _ _ H)) as (rest & P).
  apply Permutation_length in P. rewrite app_length, map_length in P. fold n in P. lia.
Qed.
Print Assumptions C79_reports.

(** In the end there has been one report per tile, the last one of all tiles. *)
Theorem C79_end {T St} (cut : T -> St -> St) work tiles k s0 r s :
  let n := length tiles in
  1 <= k -> preach cut work tiles k s0 r s -> m s = MDone ->
  r = map (fun i => Nat.min n (Nat.min n k + i)) (seq 1 n) /\ (n <> 0 -> last r 0 = n).
Proof.
  intros n Hk H M. pose proof (reports_end cut work tiles k s0 r s Hk H M) as L. fold n in L.
  assert (E : r = map (fun i => Nat.min n (Nat.min n k + i)) (seq 1 n)) by (pose proof (reports_shape _ _ _ _ _ _ _ H) as S1; rewrite L in S1; exact S1).
  split; [exact E|]. intros N. destruct n as [|n'] eqn:En; [congruence|]. rewrite E, seq_S, map_app. cbn [map]. rewrite last_last. lia.
Qed.
Print Assumptions C79_end.

(** A single process reports 0, 1, ..., one number after each tile, up to the tile that fails. *)
Theorem C79_serial {T St} (cut : T -> St -> St) work tiles s0 :
  exists j, fst (serial_reports cut work tiles s0) = seq 0 j /\ snd (serial_reports cut work tiles s0) = serial cut work tiles s0 /\
    j <= length tiles /\ (j = length tiles <-> exists s, serial cut work tiles s0 = Ok s) /\
    forall s, serial cut work (firstn j tiles) s0 = Ok s -> j < length tiles ->
      exists t e, nth_error tiles j = Some t /\ run_actions (work t) (cut t s) = Err e.
Proof.
  destruct (serial_from_spec cut work 0 tiles s0) as (j & L & F1 & F2 & F3 & F4). exists j. unfold serial_reports.
  split; [exact F1|]. split; [exact F2|]. split; [exact L|]. split; [|exact F4]. rewrite F3, F2. reflexivity.
Qed.
Print Assumptions C79_serial.

(** "The report of all tiles means that they are done" is false: with two workers and two tiles it comes
    when one tile has been processed; with as many workers as tiles every report says so. *)
Theorem C79_all_refuted : exists r s, preach (fun (_ : nat) (f : unit) => f) (fun _ => []) [10; 20] 2 tt r s /\ r = [2] /\ log s = [(1, 10)].
Proof.
  set (cut := fun (_ : nat) (f : unit) => f). set (work := fun _ : nat => @nil (action unit)). set (tiles := [10; 20]).
  assert (P0 : preach cut work tiles 2 tt [] (init 2 tt)) by constructor.
  eassert (P1 : preach cut work tiles 2 tt _ _) by (eapply pr_step; [exact P0|apply (st_init cut work tiles 2 _ 1); [reflexivity|lia]]). cbv -[Nat.eqb cut work tiles] in P1. clear P0.
  eassert (P2 : preach cut work tiles 2 tt _ _) by (eapply pr_step; [exact P1|apply (st_send_buffered cut work tiles 2 _ 1 (Some 10) true); [reflexivity]]). cbv -[Nat.eqb cut work tiles] in P2. clear P1.
  eassert (P3 : preach cut work tiles 2 tt _ _) by (eapply pr_step; [exact P2|apply (st_init cut work tiles 2 _ 2); [reflexivity|lia]]). cbv -[Nat.eqb cut work tiles] in P3. clear P2.
  eassert (P4 : preach cut work tiles 2 tt _ _) by (eapply pr_step; [exact P3|apply (st_send_buffered cut work tiles 2 _ 2 (Some 20) true); [reflexivity]]). cbv -[Nat.eqb cut work tiles] in P4. clear P3.
  eassert (P5 : preach cut work tiles 2 tt _ _) by (eapply pr_step; [exact P4|apply (st_init_end cut work tiles 2 _ 3); [reflexivity|lia]]). cbv -[Nat.eqb cut work tiles] in P5. clear P4.
  eassert (P6 : preach cut work tiles 2 tt _ _) by (eapply pr_step; [exact P5|apply (w_recv cut work tiles 2 _ 1 (Some 10) []); [lia|reflexivity|reflexivity]]). cbv -[Nat.eqb cut work tiles] in P6. clear P5.
  eassert (P7 : preach cut work tiles 2 tt _ _) by (eapply pr_step; [exact P6|apply (w_done cut work tiles 2 _ 1 10); [lia|reflexivity]]). cbv -[Nat.eqb cut work tiles] in P7. clear P6.
  eassert (P8 : preach cut work tiles 2 tt _ _) by (eapply pr_step; [exact P7|apply (w_send_buffered cut work tiles 2 _ 1); [lia|reflexivity]]). cbv -[Nat.eqb cut work tiles] in P8. clear P7.
  eassert (P9 : preach cut work tiles 2 tt _ _) by (eapply pr_step; [exact P8|apply (st_recv cut work tiles 2 _ [] 1 []); [reflexivity|cbn; lia|reflexivity]]). cbv -[Nat.eqb cut work tiles] in P9. clear P8.
  eassert (P10 : preach cut work tiles 2 tt _ _) by (eapply pr_step; [exact P9|apply (st_pick cut work tiles 2 _ 1); [reflexivity]]). cbv -[Nat.eqb cut work tiles] in P10. clear P9.
  eassert (P11 : preach cut work tiles 2 tt _ _) by (eapply pr_step; [exact P10|apply (st_send_buffered cut work tiles 2 _ 1 None false); [reflexivity]]). cbv -[Nat.eqb cut work tiles] in P11. clear P10.
  eexists. eexists. split; [exact P11|]. split; reflexivity.
Qed.
Print Assumptions C79_all_refuted.

Theorem C79_at_once {T St} (cut : T -> St -> St) work tiles k s0 r s :
  length tiles <= k -> preach cut work tiles k s0 r s -> forall x, In x r -> x = length tiles.
Proof.
  intros L H x I. rewrite (proj1 (C79_reports cut work tiles k s0 r s H)) in I. apply in_map_iff in I. destruct I as (i & <- & _). lia.
Qed.
Print Assumptions C79_at_once.

(** "The last report is the number of tiles" is false of a single process: it is one less. *)
Theorem C79_serial_refuted {T St} (cut : T -> St -> St) work tiles s0 s :
  serial cut work tiles s0 = Ok s -> tiles <> [] -> last (fst (serial_reports cut work tiles s0)) 0 = length tiles - 1.
Proof.
  intros E N. destruct (C79_serial cut work tiles s0) as (j & F1 & _ & _ & F3 & _). rewrite F1. assert (J : j = length tiles) by (apply F3; eauto). subst j.
  destruct tiles as [|t l]; [congruence|]. cbn [length]. rewrite seq_S, last_last. lia.
Qed.
Print Assumptions C79_serial_refuted.

(** Three tiles: a run of two workers ends with the reports 3, 3, 3; one process reports 0, 1, 2. *)
Example C79_example : (exists r s, preach (fun (_ : nat) (f : unit) => f) (fun _ => []) [10; 20; 30] 2 tt r s /\ m s = MDone /\ r = [3; 3; 3]) /\
  fst (serial_reports (fun (_ : nat) (f : unit) => f) (fun _ => []) [10; 20; 30] tt) = [0; 1; 2].
Proof.
  split; [|reflexivity]. set (cut := fun (_ : nat) (f : unit) => f). set (work := fun _ : nat => @nil (action unit)). set (tiles := [10; 20; 30]).
  destruct (C11_runs_to_end cut work tiles 2 tt (init 2 tt)) as (s & R & S1); [lia|exists 0; constructor|].
  destruct (C11_no_deadlock cut work tiles 2 tt s) as [Fin|(s' & S2)]; [lia|intros t _ a f []|exact R| |destruct (S1 _ _ S2)].
  destruct (proj1 (C79_executions cut work tiles 2 tt s) R) as (r & H). exists r, s. split; [exact H|]. split; [exact (proj1 Fin)|].
  exact (proj1 (C79_end cut work tiles 2 tt r s ltac:(lia) H (proj1 Fin))).
Qed.
