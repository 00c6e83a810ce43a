(** * Theorems about the phases of a run (C14). *)
From Verif Require Import Base PhaseModel PhaseSpec PhaseProofs.
Open Scope nat_scope.

(** ** C14: whenever a process starts tile work, the output folders have been
    created and every process has read the grid; whenever a process starts
    converting, every process has finished its tile work. *)
Theorem C14_phase_order n s a r i b : preach n (run_prog n) s -> trace s = a ++ (r, i) :: b ->
  (nth_error (run_prog n r) i = Some (Do TileWork) ->
     happened n a 0 MkDirs /\ forall r', r' < n -> happened n a r' ReadGrid) /\
  (nth_error (run_prog n r) i = Some (Do Convert) ->
     happened n a 0 MkDirs /\ forall r', r' < n -> happened n a r' TileWork).
Proof. exact (fun R => run_phases n s R a r i b). Qed.
Print Assumptions C14_phase_order.

(** The folders are created once, by rank 0 only. *)
Theorem C14_mkdirs_once n s : preach n (run_prog n) s ->
  NoDup (trace s) /\
  (forall r i, In (r, i) (trace s) -> nth_error (run_prog n r) i = Some (Do MkDirs) -> r = 0 /\ i = 0).
Proof.
  intros R. split; [exact (phase_once n (run_prog n) s R)|]. intros r i H E.
  assert (r = 0) by exact (run_mkdirs_only_root n s R r i H E). subst. split; [reflexivity|].
  revert E. unfold run_prog. rewrite Nat.ltb_irrefl, Bool.andb_false_r. cbn [app].
  do 8 (destruct i as [|i]; [cbn; try discriminate; try reflexivity|]). cbn. destruct i; discriminate.
Qed.
Print Assumptions C14_mkdirs_once.

(** No process waits for ever at a barrier. *)
Theorem C14_no_deadlock n s : 0 < n -> preach n (run_prog n) s ->
  all_done n (run_prog n) s \/ exists s', pstep n (run_prog n) s s'.
Proof. intros Hn. exact (phase_progress n (run_prog n) s Hn (fun r r' _ _ => run_bars n r r')). Qed.
Print Assumptions C14_no_deadlock.

(** Nothing orders the reading of the grid by a worker after the creation of
    the folders by rank 0: both orders are possible. *)
Theorem C14_grid_read_race : exists s s',
  preach 2 (run_prog 2) s /\ trace s = [(1, 0); (0, 0)] /\
  preach 2 (run_prog 2) s' /\ trace s' = [(0, 0); (1, 0)] /\
  nth_error (run_prog 2 1) 0 = Some (Do ReadGrid) /\ nth_error (run_prog 2 0) 0 = Some (Do MkDirs).
Proof.
  assert (A : forall r1 r2, (r1 = 0 /\ r2 = 1) \/ (r1 = 1 /\ r2 = 0) ->
     exists s, preach 2 (run_prog 2) s /\ trace s = [(r1, 0); (r2, 0)]).
  { intros r1 r2 H. eexists. split.
    - eapply pr_step; [eapply pr_step; [constructor|]|].
      + eapply p_do with (r := r1) (e := if Nat.eqb r1 0 then MkDirs else ReadGrid); destruct H as [[-> ->]|[-> ->]]; [lia|lia| |]; reflexivity.
      + eapply p_do with (r := r2) (e := if Nat.eqb r2 0 then MkDirs else ReadGrid); destruct H as [[-> ->]|[-> ->]]; [lia|lia| |]; reflexivity.
    - destruct H as [[-> ->]|[-> ->]]; reflexivity. }
  destruct (A 1 0) as (s & R & E); [auto|]. destruct (A 0 1) as (s' & R' & E'); [auto|].
  exists s, s'. repeat split; assumption.
Qed.
Print Assumptions C14_grid_read_race.

(** Concrete case: two processes, a complete run. *)
Example C14_ex : exists s, preach 2 (run_prog 2) s /\ all_done 2 (run_prog 2) s /\
  trace s = [(0, 0); (0, 1); (1, 0); (1, 2); (0, 3); (0, 5); (1, 4)].
Proof.
  pose (at_ a b t := exists s, preach 2 (run_prog 2) s /\ pc s 0 = a /\ pc s 1 = b /\ trace s = t).
  assert (D0 : forall a b t e, at_ a b t -> nth_error (run_prog 2 0) a = Some (Do e) -> at_ (S a) b (t ++ [(0, a)])).
  { intros a b t e (s & R & <- & <- & <-) H. eexists. split; [eapply pr_step; [exact R|eapply p_do with (r := 0); [lia|exact H]]|].
    cbn [pc trace Nat.eqb]. auto. }
  assert (D1 : forall a b t e, at_ a b t -> nth_error (run_prog 2 1) b = Some (Do e) -> at_ a (S b) (t ++ [(1, b)])).
  { intros a b t e (s & R & <- & <- & <-) H. eexists. split; [eapply pr_step; [exact R|eapply p_do with (r := 1); [lia|exact H]]|].
    cbn [pc trace Nat.eqb]. auto. }
  assert (B : forall a b t, at_ a b t -> nth_error (run_prog 2 0) a = Some Barrier -> nth_error (run_prog 2 1) b = Some Barrier ->
    at_ (S a) (S b) t).
  { intros a b t (s & R & <- & <- & <-) H H'. eexists. split; [eapply pr_step; [exact R|apply p_barrier; [lia|]]|].
    - intros [|[|r]] Hr; [exact H|exact H'|lia].
    - cbn [pc trace]. auto. }
  assert (R : at_ 0 0 []) by (eexists; split; [constructor|]; auto).
  apply (D0 _ _ _ MkDirs) in R; [|reflexivity]. apply (D0 _ _ _ ReadGrid) in R; [|reflexivity].
  apply (D1 _ _ _ ReadGrid) in R; [|reflexivity]. apply B in R; [|reflexivity|reflexivity].
  apply (D1 _ _ _ TileWork) in R; [|reflexivity]. apply (D0 _ _ _ TileWork) in R; [|reflexivity].
  apply B in R; [|reflexivity|reflexivity].
  apply (D0 _ _ _ Convert) in R; [|reflexivity]. apply (D1 _ _ _ Convert) in R; [|reflexivity].
  apply B in R; [|reflexivity|reflexivity].
  destruct R as (s & R & E0 & E1 & Et). exists s. split; [exact R|]. split; [|exact Et].
  intros [|[|r]] Hr; [exact E0|exact E1|lia].
Qed.
