(** * Lemmas about the protocol when the master raises (C75). *)
From Verif Require Import Base BaseLemmas SchedModel SchedSpec SchedProofs FailModel.
Open Scope nat_scope.

Section P.
  Context {T St : Type} (open_raises : bool) (cut_raises : T -> St -> bool) (cut : T -> St -> St)
          (work : T -> list (action St)) (tiles : list T) (k : nat).
  Notation mreach := (mreach open_raises cut_raises cut work tiles k).
  Notation step := (step cut work tiles k).

  Lemma mreach_reach s0 b s : mreach s0 b s -> reach cut work tiles k s0 s.
  Proof.
    induction 1 as [H|H|b s s' R [n IH] St1 G|s t R IH C E|b s s' R [n IH] St1 G]; auto.
    - exists 0. constructor.
    - exists 0. constructor.
    - exists (S n). econstructor; eauto.
    - exists (S n). econstructor; eauto.
  Qed.

  (** Steps that leave the master alone leave its tile counter alone. *)
  Lemma worker_step b s s' : step b s s' -> m s' = m s -> w s' = w s.
  Proof.
    intros H E. destruct H; try reflexivity;
      try (unfold pick; destruct (nth_error _ _); reflexivity);
      try (unfold accept; destruct msg; reflexivity);
      exfalso; revert E; unfold accept, after_send; destruct msg, i; cbn; congruence.
  Qed.

  Lemma dead_master s0 s : mreach s0 true s -> m s = MInit 1 \/ exists t, cutting tiles k s t.
  Proof.
    intros H. remember true as b eqn:E. induction H as [H|H|b s s' R IH St1 G|s t R IH C F|b s s' R IH St1 G]; try discriminate.
    - left. reflexivity.
    - right. eauto.
    - specialize (IH E). pose proof (worker_step _ _ _ St1 G) as W. unfold cutting in *. rewrite G, W. exact IH.
  Qed.

  Lemma dead_inv s0 s : mreach s0 true s -> exists f, inv tiles k f s /\ forall d, 1 <= d <= k -> f d <> X.
  Proof.
    intros H. destruct (reach_inv cut work tiles k s0 s (mreach_reach _ _ _ H)) as (f & I). exists f. split; [exact I|].
    intros d Hd E. destruct (dead_master _ _ H) as [M|(t & _ & N)].
    - pose proof (i_stage _ _ _ _ I) as S1. unfold stage in S1. rewrite M in S1. destruct S1 as (_ & F1 & _).
      assert (f d = F) by (apply F1; lia). congruence.
    - pose proof (i_x _ _ _ _ I d Hd E) as L. assert (nth_error tiles (w s) <> None) as NN by congruence. apply nth_error_Some in NN. lia.
  Qed.

  Definition halted (s : sys T St) : Prop := forall b s', step b s s' -> m s' <> m s.

  Lemma halted_worker s : halted s -> forall d, 1 <= d <= k ->
    (wk s d = WRecv /\ ch s d = []) \/ wk s d = WDone \/ exists t, wk s d = WFail t.
  Proof.
    intros H d Hd. destruct (wk s d) as [|t r| | |t] eqn:E.
    - destruct (ch s d) as [|msg q] eqn:C; [auto|]. exfalso.
      apply (H _ _ (w_recv cut work tiles k s d msg q Hd E C)). unfold accept. destruct msg; reflexivity.
    - exfalso. destruct r as [|a r].
      + apply (H _ _ (w_done cut work tiles k s d t Hd E)). reflexivity.
      + destruct (a (fs s)) as [f|e] eqn:A.
        * apply (H _ _ (w_ok cut work tiles k s d t a r f Hd E A)). reflexivity.
        * apply (H _ _ (w_raise cut work tiles k s d t a r e Hd E A)). reflexivity.
    - exfalso. apply (H _ _ (w_send_buffered cut work tiles k s d Hd E)). reflexivity.
    - auto.
    - eauto.
  Qed.

  Lemma halted_or s : halted s \/ exists b s', step b s s' /\ m s' = m s.
  Proof.
    set (go := fun d => match wk s d with WRecv => negb (match ch s d with [] => true | _ => false end) | WBusy _ _ | WSend => true | _ => false end).
    destruct (dec_ex k go) as [(d & Hd & G)|N].
    - right. unfold go in G. destruct (wk s d) as [|t r| | |t] eqn:E; try discriminate.
      + destruct (ch s d) as [|msg q] eqn:C; [discriminate|].
        do 2 eexists. split; [eapply w_recv; eauto|]. unfold accept. destruct msg; reflexivity.
      + destruct r as [|a r]; [do 2 eexists; split; [eapply w_done; eauto|reflexivity]|].
        destruct (a (fs s)) eqn:A; do 2 eexists; (split; [first [eapply w_ok; eassumption|eapply w_raise; eassumption]|reflexivity]).
      + do 2 eexists. split; [eapply w_send_buffered; eauto|reflexivity].
    - left. intros b s' St1 E. destruct St1; revert E;
        try (unfold accept, after_send; destruct msg, i; cbn; congruence);
        try (unfold pick; destruct (nth_error _ _); cbn; congruence);
        try (cbn; congruence); intros _;
        match goal with Hd : 1 <= ?d <= k |- _ => specialize (N d Hd); unfold go in N end;
        repeat match goal with Hw : wk s _ = _ |- _ => rewrite Hw in N | Hc : ch s _ = _ |- _ => rewrite Hc in N end; discriminate.
  Qed.

  Lemma dead_halts s0 s : mreach s0 true s -> exists s', mreach s0 true s' /\ halted s'.
  Proof.
    intros R. remember (measure work tiles k s) as n eqn:En. revert s R En.
    induction n as [n IH] using lt_wf_ind. intros s R En.
    destruct (halted_or s) as [H|(b & s' & St1 & M)]; [eauto|].
    destruct (reach_inv cut work tiles k s0 s (mreach_reach _ _ _ R)) as (f & I).
    pose proof (measure_step cut work tiles k b f s s' I St1).
    apply (IH (measure work tiles k s') ltac:(lia) s'); [|reflexivity]. eapply mr_dead; eauto.
  Qed.

  (** Tiles the master has gone past could be cut. *)
  Definition could (t : T) : Prop := exists g, cut_raises t g = false.
  Lemma alive_could s0 b s : mreach s0 b s -> b = false ->
    (forall t, In t (firstn (w s) tiles) -> could t) /\
    (forall d t i, m s = MSend d (Some t) i -> could t /\ nth_error tiles (w s) = Some t).
  Proof.
    induction 1 as [H|H|b s s' R IH St1 G|s t R IH C F|b s s' R IH St1 G]; intros Eb; try discriminate.
    - split; [cbn; contradiction|]. cbn. discriminate.
    - specialize (IH eq_refl). destruct IH as [I1 I2].
      assert (PK : forall d i, (exists d, (m s = MInit d /\ d <= k) \/ m s = MGot d) -> (forall x, m s <> MSend d x i) ->
                (forall t, cutting tiles k s t -> m (pick cut tiles d i s) <> m s -> cut_raises t (fs s) = false) ->
                (forall t, In t (firstn (w (pick cut tiles d i s)) tiles) -> could t) /\
                (forall d' t i', m (pick cut tiles d i s) = MSend d' (Some t) i' -> could t /\ nth_error tiles (w (pick cut tiles d i s)) = Some t)).
      { intros d i HM HN HG. unfold pick in *. destruct (nth_error tiles (w s)) as [t|] eqn:N; cbn in *; (split; [exact I1|]); intros d' t' i' E'.
        - injection E' as <- <- <-. split; [|exact N]. exists (fs s). apply HG; [split; assumption|]. intros C. apply (HN (Some t)). congruence.
        - discriminate. }
      assert (SN : forall d msg i, m s = MSend d msg i -> forall t, In t (firstn (w (after_send d msg i s)) tiles) -> could t).
      { intros d msg i E t Ht. unfold after_send in Ht. destruct msg as [t'|]; [|destruct i; cbn in Ht; auto].
        destruct (I2 _ _ _ E) as [C N]. cbn [w] in Ht. rewrite (firstn_S_nth tiles _ t' N) in Ht. apply in_app_iff in Ht as [Ht|[<-|[]]]; auto. }
      destruct St1; try (split; [exact I1|exact I2]); try (split; [exact I1|cbn; discriminate]).
      + apply PK; [eauto|intros x E; congruence|exact G].
      + apply PK; [eauto|intros x E; congruence|exact G].
      + split; [|unfold after_send; destruct msg, i; cbn; discriminate].
        intros t Ht. apply (SN _ _ _ H t). unfold after_send in *. destruct msg, i; exact Ht.
      + split; [|unfold accept, after_send; destruct msg, i; cbn; discriminate].
        intros t Ht. apply (SN _ _ _ H t). unfold accept, after_send in *. destruct msg, i; exact Ht.
      + unfold accept. destruct msg; (split; [exact I1|exact I2]).
  Qed.
End P.
