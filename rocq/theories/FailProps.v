(** * Theorems about the protocol when the master raises (C75). *)
From Verif Require Import Base BaseLemmas SchedModel SchedSpec SchedProofs FailModel FailProofs.
Open Scope nat_scope.

(** If nothing can raise in the master, the executions are those of C10-C13. *)
Theorem C75_conservative {T St} (cut : T -> St -> St) work tiles k s0 s :
  mreach false (fun _ _ => false) cut work tiles k s0 false s <-> reach cut work tiles k s0 s.
Proof.
  split; [apply mreach_reach|]. intros (n & R). unfold reach_n in R. remember (init k s0) as i eqn:Ei. induction R; subst.
  - apply mr_start. reflexivity.
  - eapply mr_step; eauto.
Qed.
Print Assumptions C75_conservative.

(** If the elevation data cannot be opened, the master has raised from the start; if nothing
    raises, it never has. *)
Theorem C75_open {T St} open_raises cut_raises (cut : T -> St -> St) work tiles k s0 :
  (open_raises = true -> mreach open_raises cut_raises cut work tiles k s0 true (init k s0) /\
     forall b s, mreach open_raises cut_raises cut work tiles k s0 b s -> b = true) /\
  (open_raises = false -> (forall t g, cut_raises t g = false) ->
     forall b s, mreach open_raises cut_raises cut work tiles k s0 b s -> b = false).
Proof.
  split.
  - intros O. split; [apply mr_open; exact O|]. intros b s R. induction R; congruence.
  - intros O C b s R. induction R; congruence.
Qed.
Print Assumptions C75_open.

(** A tile that can never be cut, or elevation data that cannot be opened: the master never
    gets to the end of its loop. *)
Theorem C75_never_done {T St} open_raises cut_raises (cut : T -> St -> St) work tiles k s0 b s t :
  1 <= k -> open_raises = true \/ (In t tiles /\ forall g, cut_raises t g = true) ->
  mreach open_raises cut_raises cut work tiles k s0 b s -> m s <> MDone.
Proof.
  intros Hk H R M. destruct b.
  - destruct (dead_master _ _ _ _ _ _ _ _ R) as [E|(t' & (d & [[E _]|E]) & _)]; congruence.
  - destruct H as [H|[It H]].
    + clear - R H. remember false as b eqn:Eb. induction R; congruence.
    + destruct (alive_could _ _ _ _ _ _ _ _ _ R eq_refl) as [C _].
      pose proof (mreach_reach _ _ _ _ _ _ _ _ _ R) as R'.
      destruct (reach_inv cut work tiles k s0 s R') as (f & I).
      destruct (exactly_once cut work tiles k Hk s0 s R' M) as [P _].
      pose proof (Permutation_length (i_perm _ _ _ _ I)) as L. rewrite app_length, (Permutation_length P), firstn_length in L.
      destruct (C t) as (g & G); [rewrite firstn_all2 by lia; exact It|]. rewrite H in G. discriminate.
Qed.
Print Assumptions C75_never_done.

(** Once the master has raised, no worker ever leaves its loop. *)
Theorem C75_no_worker_ends {T St} open_raises cut_raises (cut : T -> St -> St) work tiles k s0 s :
  mreach open_raises cut_raises cut work tiles k s0 true s -> forall d, 1 <= d <= k -> wk s d <> WDone.
Proof.
  intros R d Hd E. destruct (dead_inv _ _ _ _ _ _ _ _ R) as (f & I & NX).
  pose proof (i_shape _ _ _ _ I d Hd) as Sh. specialize (NX d Hd). destruct (f d); unfold shape in Sh; rewrite E in Sh.
  - destruct Sh as (_ & C & _). discriminate.
  - destruct Sh as [(t & _ & C & _)|[(_ & C & _)|[(_ & C & _)|(_ & C & _)]]]; try discriminate. exact C.
  - congruence.
Qed.
Print Assumptions C75_no_worker_ends.

(** From there the run comes to rest, with every worker waiting for a message nobody will send or
    dead.  The tiles handed out before are processed, apart from those whose worker died. *)
Theorem C75_waits_forever {T St} open_raises cut_raises (cut : T -> St -> St) work tiles k s0 s :
  mreach open_raises cut_raises cut work tiles k s0 true s ->
  (exists s', mreach open_raises cut_raises cut work tiles k s0 true s' /\ forall b s'', step cut work tiles k b s' s'' -> m s'' <> m s') /\
  ((forall b s', step cut work tiles k b s s' -> m s' <> m s) ->
   (forall d, 1 <= d <= k -> (wk s d = WRecv /\ ch s d = []) \/ exists t, wk s d = WFail t) /\
   (exists lost, Permutation (map snd (log s) ++ lost) (firstn (w s) tiles) /\ forall t, In t lost -> exists d, 1 <= d <= k /\ wk s d = WFail t) /\
   ((forall t, In t tiles -> never_raises work t) -> Permutation (map snd (log s)) (firstn (w s) tiles) /\ forall d, 1 <= d <= k -> wk s d = WRecv)).
Proof.
  intros R. split; [exact (dead_halts _ _ _ _ _ _ _ _ R)|]. intros H.
  pose proof (halted_worker cut work tiles k s H) as W.
  destruct (dead_inv _ _ _ _ _ _ _ _ R) as (f & I & NX).
  assert (W' : forall d, 1 <= d <= k -> (wk s d = WRecv /\ ch s d = []) \/ exists t, wk s d = WFail t).
  { intros d Hd. destruct (W d Hd) as [A|[A|A]]; auto. exfalso. exact (C75_no_worker_ends _ _ _ _ _ _ _ _ R d Hd A). }
  assert (CE : forall d, 1 <= d <= k -> ch s d = []).
  { intros d Hd. destruct (W' d Hd) as [[_ A]|[t A]]; [exact A|]. pose proof (i_shape _ _ _ _ I d Hd) as Sh. specialize (NX d Hd).
    destruct (f d); unfold shape in Sh; rewrite A in Sh; [tauto| |congruence].
    destruct Sh as [(u & _ & C & _)|[(C & _)|[(C & _)|(C & _)]]]; [discriminate|assumption..]. }
  assert (HL : forall t, In t (flat_map (held s) (seq 1 k)) -> exists d, 1 <= d <= k /\ wk s d = WFail t).
  { intros t Ht. apply in_flat_map in Ht as (d & Id & Ht). apply in_seq in Id. assert (Hd : 1 <= d <= k) by lia.
    unfold held in Ht. rewrite (CE d Hd) in Ht. cbn in Ht. exists d. split; [exact Hd|].
    destruct (W' d Hd) as [[A _]|[u A]]; rewrite A in Ht; cbn in Ht; [contradiction|]. destruct Ht as [->|[]]. exact A. }
  split; [exact W'|]. split.
  - exists (flat_map (held s) (seq 1 k)). split; [symmetry; apply (i_perm _ _ _ _ I)|exact HL].
  - intros NR. pose proof (reach_aux cut work tiles k s0 s (mreach_reach _ _ _ _ _ _ _ _ _ R)) as AX.
    assert (IT : forall t, In t (flat_map (held s) (seq 1 k)) -> In t tiles).
    { intros t Ht. rewrite <- (firstn_skipn (w s) tiles). apply in_app_iff. left. eapply Permutation_in; [symmetry; apply (i_perm _ _ _ _ I)|]. apply in_app_iff. right. exact Ht. }
    assert (NF : forall d t, 1 <= d <= k -> wk s d <> WFail t).
    { intros d t Hd E. destruct (a_fail _ _ _ AX d t E) as (a & g & e & Ia & Ea).
      assert (Ht : In t tiles).
      { apply IT. apply in_flat_map. exists d. split; [apply in_seq; lia|]. unfold held. rewrite (CE d Hd), E. left. reflexivity. }
      destruct (NR t Ht a g Ia) as (g' & C). congruence. }
    assert (Z : flat_map (held s) (seq 1 k) = []).
    { destruct (flat_map (held s) (seq 1 k)) as [|t l] eqn:E; [reflexivity|]. exfalso.
      destruct (HL t) as (d & Hd & C); [left; reflexivity|]. exact (NF d t Hd C). }
    split; [symmetry; rewrite <- (app_nil_r (map snd (log s))), <- Z; apply (i_perm _ _ _ _ I)|].
    intros d Hd. destruct (W' d Hd) as [[A _]|[t A]]; [exact A|]. exfalso. exact (NF d t Hd A).
Qed.
Print Assumptions C75_waits_forever.

(** In a single process the same failures end the run with an error, the tiles before having been
    processed. *)
Theorem C75_serial {T St} cut_raises (cut : T -> St -> St) work before t after (s0 g : St) :
  serial_fail true cut_raises cut work (before ++ t :: after) s0 = Err OSError /\
  (serial_fail false cut_raises cut work before s0 = Ok g -> cut_raises t g = true ->
   serial_fail false cut_raises cut work (before ++ t :: after) s0 = Err OSError) /\
  ((forall u f, cut_raises u f = false) -> serial_fail false cut_raises cut work before s0 = serial cut work before s0).
Proof.
  split; [reflexivity|]. unfold serial_fail, serial. split.
  - revert s0. induction before as [|u before IH]; intros s0 H C; cbn in *.
    + injection H as ->. rewrite C. reflexivity.
    + destruct (cut_raises u s0); [discriminate|]. destruct (run_actions _ _) as [s1|e]; cbn in *; [|discriminate]. apply IH; assumption.
  - intros H. revert s0. induction before as [|u before IH]; intros s0; cbn; [reflexivity|]. rewrite H.
    destruct (run_actions _ _); cbn; [apply IH|reflexivity].
Qed.
Print Assumptions C75_serial.

(** Two workers, three tiles, the third cannot be cut: the master raises when the first worker
    comes back. *)
Example C75_example : exists s, mreach false (fun t (_ : list nat) => t =? 7) (fun t l => l) (fun t => [fun l => Ok (t :: l)]) [5; 6; 7] 2 [] true s /\
  map snd (log s) = [5] /\ w s = 2.
Proof.
  eexists. split.
  - assert (G : forall s s' : sys nat (list nat), w s <> 2 -> forall t, cutting [5; 6; 7] 2 s t -> m s' <> m s -> (t =? 7) = false).
    { intros s s' H t [_ N] _. destruct (w s) as [|[|[|n]]]; cbn in N; try congruence; [injection N as <-; reflexivity..|destruct n; discriminate]. }
    assert (G' : forall s s' : sys nat (list nat), (forall d, m s <> MInit d) -> (forall d, m s <> MGot d) -> forall t, cutting [5; 6; 7] 2 s t -> m s' <> m s -> (t =? 7) = false).
    { intros s s' H1 H2 t [(d & [[E _]|E]) _] _; [destruct (H1 d E)|destruct (H2 d E)]. }
    assert (G2 : forall s s' : sys nat (list nat), m s = MInit 3 -> forall t, cutting [5; 6; 7] 2 s t -> m s' <> m s -> (t =? 7) = false).
    { intros s s' H t [(d & [[E D]|E]) _] _; [assert (d = 3) by congruence; lia|congruence]. }
    eapply mr_raise with (t := 7).
    + eapply mr_step; [eapply mr_step; [eapply mr_step; [eapply mr_step; [eapply mr_step; [eapply mr_step; [eapply mr_step; [eapply mr_step; [eapply mr_step; [apply mr_start; reflexivity|..]|..]|..]|..]|..]|..]|..]|..]|..].
      * apply (st_init _ _ _ _ _ 1); [reflexivity|lia].
      * apply G; cbn; lia.
      * apply (st_send_direct _ _ _ _ _ 1 (Some 5) true); reflexivity.
      * apply G; cbn; lia.
      * apply (st_init _ _ _ _ _ 2); [reflexivity|lia].
      * apply G; cbn; lia.
      * apply (st_send_direct _ _ _ _ _ 2 (Some 6) true); reflexivity.
      * apply G; cbn; lia.
      * apply (st_init_end _ _ _ _ _ 3); [reflexivity|lia].
      * apply G2. reflexivity.
      * eapply (w_ok _ _ _ _ _ 1 5); [lia|reflexivity|reflexivity].
      * apply G'; discriminate.
      * apply (w_done _ _ _ _ _ 1 5); [lia|reflexivity].
      * apply G'; discriminate.
      * apply (w_send_buffered _ _ _ _ _ 1); [lia|reflexivity].
      * apply G'; discriminate.
      * eapply (st_recv _ _ _ _ _ [] 1 []); [reflexivity|cbn; lia|reflexivity].
      * apply G'; discriminate.
    + split; [exists 1; right; reflexivity|reflexivity].
    + reflexivity.
  - split; reflexivity.
Qed.
