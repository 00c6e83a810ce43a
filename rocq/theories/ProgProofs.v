(** * Lemmas about progress reports (C79). *)
From Verif Require Import Base BaseLemmas SchedModel SchedSpec SchedProofs ProgModel.
Open Scope nat_scope.

Section P.
  Context {T St : Type} (cut : T -> St -> St) (work : T -> list (action St)) (tiles : list T) (k : nat).
  Notation n := (length tiles).
  Notation sys := (sys T St).
  Notation step := (step cut work tiles k).
  Notation preach := (preach cut work tiles k).

  Lemma preach_reach s0 r s : preach s0 r s -> reach cut work tiles k s0 s.
  Proof.
    induction 1 as [|b r s s' R [i IH] H]; [exists 0; constructor|]. exists (S i). econstructor; eauto.
  Qed.
  Lemma reach_preach s0 s : reach cut work tiles k s0 s -> exists r, preach s0 r s.
  Proof.
    intros (i & R). unfold reach_n in R. remember (init k s0) as i0 eqn:E. induction R as [s|i b s s' s'' R IH H]; subst.
    - exists []. constructor.
    - destruct (IH eq_refl) as (r & P). eexists. econstructor; eauto.
  Qed.

  Definition w0 := Nat.min n k.
  Definition told (q : nat) : list nat := map (fun i => Nat.min n (w0 + i)) (seq 1 q).
  Definition started (s : sys) (d : nat) : Prop :=
    1 <= d <= S k /\ w s = Nat.min n (d - 1) /\ term s = 0 /\ p s = if d - 1 <=? n then k else n.
  Definition looping (r : list nat) (s : sys) : Prop :=
    exists q, r = told q /\ w s = Nat.min n (w0 + q) /\ term s + (w s - w0) = q /\ p s = w0.
  Definition has (s : sys) (msg : option T) : Prop := match msg with Some _ => w s < n | None => n <= w s end.
  Definition pinv (r : list nat) (s : sys) : Prop :=
    match m s with
    | MInit d => r = [] /\ started s d
    | MSend d msg true => r = [] /\ d <= k /\ started s d /\ has s msg
    | MSend d msg false => looping r s /\ has s msg
    | _ => looping r s
    end.

  Lemma told_S q : told (S q) = told q ++ [Nat.min n (w0 + S q)].
  Proof. unfold told. rewrite seq_S, map_app. reflexivity. Qed.

  (** Steps of the workers keep the master's variables. *)
  Lemma pinv_same r s s' : m s' = m s -> w s' = w s -> term s' = term s -> p s' = p s -> pinv r s -> pinv r s'.
  Proof. unfold pinv, started, looping, has. intros -> -> -> ->. auto. Qed.

  Lemma pick_pinv r s d i : (m s = MInit d /\ d <= k /\ i = true) \/ (m s = MGot d /\ i = false) -> pinv r s -> pinv r (pick cut tiles d i s).
  Proof.
    unfold pick. intros C I. destruct (nth_error tiles (w s)) as [t|] eqn:E.
    - assert (w s < n) by (apply nth_error_Some; congruence).
      destruct C as [(M & D & ->)|(M & ->)]; unfold pinv in *; rewrite M in I; cbn; [|split; [exact I|exact H]].
      destruct I as [R I]. repeat (split; [assumption|]). exact H.
    - apply nth_error_None in E.
      destruct C as [(M & D & ->)|(M & ->)]; unfold pinv in *; rewrite M in I; cbn; [|split; [exact I|exact E]].
      destruct I as [R I]. repeat (split; [assumption|]). exact E.
  Qed.

  (** A send, seen from the master: only its own variables matter. *)
  Lemma send_pinv r s s' d msg i : m s = MSend d msg i -> pinv r s ->
    m s' = m (after_send d msg i s) -> w s' = w (after_send d msg i s) -> p s' = p (after_send d msg i s) -> term s' = term (after_send d msg i s) ->
    pinv (r ++ report s s') s'.
  Proof.
    intros M I E1 E2 E3 E4. unfold pinv in I. rewrite M in I. destruct i.
    - destruct I as (-> & D & (D1 & W & Tm & P) & H). assert (R : [] ++ report s s' = []) by (unfold report; rewrite M; destruct (m s'); reflexivity). rewrite R.
      assert (E1' : m s' = MInit (S d)) by (rewrite E1; destruct msg; reflexivity). unfold pinv. rewrite E1'. split; [reflexivity|]. unfold started.
      replace (S d - 1) with d by lia. destruct msg as [t|]; cbn in *.
      + rewrite E2, E3, E4. split; [lia|]. split; [lia|]. split; [exact Tm|]. rewrite P.
        destruct (Nat.leb_spec (d - 1) n), (Nat.leb_spec d n); lia.
      + rewrite E2, E3, E4. split; [lia|]. split; [lia|]. split; [exact Tm|]. destruct (Nat.leb_spec d n); lia.
    - destruct I as ((q & -> & W & Tm & P) & H). assert (E1' : m s' = MWait) by (rewrite E1; destruct msg; reflexivity).
      assert (R : report s s' = [w s']) by (unfold report; rewrite M, E1'; reflexivity). rewrite R. unfold pinv. rewrite E1'.
      exists (S q). assert (W0 : w0 <= n) by (unfold w0; lia). rewrite told_S. destruct msg as [t|]; cbn in *; rewrite E2, E3, E4.
      + split; [f_equal; f_equal; lia|]. repeat split; first [exact P|lia].
      + split; [f_equal; f_equal; lia|]. repeat split; first [exact P|lia].
  Qed.

  Lemma pinv_step b r s s' : pinv r s -> step b s s' -> pinv (r ++ report s s') s'.
  Proof.
    intros I H.
    assert (Q : forall s1, m s1 <> MWait \/ (forall d msg, m s <> MSend d msg false) -> report s s1 = []).
    { intros s1 C. unfold report. destruct (m s) as [|? |d msg [|]| |] eqn:M; try reflexivity. destruct (m s1); try reflexivity. destruct C as [C|C]; [destruct (C eq_refl)|destruct (C d msg eq_refl)]. }
    assert (Q0 : forall s1, m s1 = m s -> report s s1 = []) by (intros s1 E; unfold report; rewrite E; destruct (m s) as [|? |d msg [|]| |]; reflexivity).
    destruct H as [s d M D|s d M D|s M L|s l d l' M L E|s d M|s d msg i M|s d msg i M W1 C|s d msg q D W1 C|s d t a l f D W1 E|s d t a l e D W1 E|s d t D W1|s d D W1|s d D W1 M L].
    - rewrite Q by (right; rewrite M; discriminate). rewrite app_nil_r. apply pick_pinv; auto.
    - rewrite Q by (right; rewrite M; discriminate). rewrite app_nil_r. unfold pinv in *. rewrite M in I. cbn. destruct I as (-> & (D1 & W & Tm & P)).
      exists 0. split; [reflexivity|]. assert (d = S k) by lia. subst d. replace (S k - 1) with k in * by lia. cbn. unfold w0. rewrite W, Tm, P. destruct (Nat.leb_spec k n); repeat split; lia.
    - rewrite Q by (right; rewrite M; discriminate). rewrite app_nil_r. unfold pinv in *. rewrite M in I. cbn. exact I.
    - rewrite Q by (right; rewrite M; discriminate). rewrite app_nil_r. unfold pinv in *. rewrite M in I. cbn. exact I.
    - rewrite Q by (right; rewrite M; discriminate). rewrite app_nil_r. apply pick_pinv; auto.
    - apply (send_pinv r s _ d msg i M I); destruct msg, i; reflexivity.
    - apply (send_pinv r s _ d msg i M I); destruct msg, i; reflexivity.
    - rewrite Q0 by (destruct msg; reflexivity). rewrite app_nil_r. apply (pinv_same r s); auto; destruct msg; reflexivity.
    - rewrite Q0 by reflexivity. rewrite app_nil_r. apply (pinv_same r s); auto.
    - rewrite Q0 by reflexivity. rewrite app_nil_r. apply (pinv_same r s); auto.
    - rewrite Q0 by reflexivity. rewrite app_nil_r. apply (pinv_same r s); auto.
    - rewrite Q0 by reflexivity. rewrite app_nil_r. apply (pinv_same r s); auto.
    - rewrite Q by (right; rewrite M; discriminate). rewrite app_nil_r. unfold pinv in *. rewrite M in I. cbn. exact I.
  Qed.

  Lemma preach_pinv s0 r s : preach s0 r s -> pinv r s.
  Proof.
    induction 1 as [|b r s s' R IH H].
    - cbn. split; [reflexivity|]. unfold started. cbn. split; [lia|]. split; [lia|]. auto.
    - eapply pinv_step; eauto.
  Qed.

  (** Tiles held by workers, each by one that is still expected to answer. *)
  Lemma held_le (f : nat -> ph) (s : sys) l : (forall d, In d l -> shape s d (f d)) ->
    length (flat_map (held s) l) <= length (filter (fun d => isA (f d)) l).
  Proof.
    induction l as [|d l IH]; intros H; [cbn; lia|]. cbn [flat_map filter]. rewrite app_length. specialize (IH (fun x I => H x (or_intror I))).
    pose proof (H d (or_introl eq_refl)) as S1.
    assert (L : length (held s d) <= if isA (f d) then 1 else 0).
    { unfold held. destruct (f d); cbn in *.
      - destruct S1 as (-> & -> & _). cbn. lia.
      - destruct S1 as [(t & -> & -> & _)|[(-> & B & _)|[(-> & -> & _)|(-> & -> & _)]]]; cbn; try lia. destruct (wk s d); cbn; lia.
      - destruct S1 as (_ & _ & [(-> & ->)|(-> & ->)]); cbn; lia. }
    destruct (isA (f d)); cbn [length]; lia.
  Qed.

  Lemma reports_bound s0 r s : preach s0 r s -> length r <= length (log s).
  Proof.
    intros H. pose proof (preach_pinv _ _ _ H) as I. destruct (reach_inv cut work tiles k s0 s (preach_reach _ _ _ H)) as (f & J).
    pose proof (Permutation_length (i_perm _ _ _ _ J)) as L. rewrite firstn_length, app_length, map_length in L.
    pose proof (i_w _ _ _ _ J) as Lw. rewrite Nat.min_l in L by exact Lw.
    assert (B : length (flat_map (held s) (seq 1 k)) <= act k f) by (apply held_le; intros d Hd; apply in_seq in Hd; apply (i_shape _ _ _ _ J); lia).
    pose proof (i_stage _ _ _ _ J) as S1. unfold pinv in I. unfold stage in S1.
    assert (Z : forall q, told q = r -> length r = q) by (intros q <-; unfold told; rewrite map_length, seq_length; reflexivity).
    assert (W0 : w0 <= n) by (unfold w0; lia).
    destruct (m s) as [d|d|d msg [|]| |].
    - destruct I as [-> _]. cbn. lia.
    - destruct I as (q & E & W & Tm & P). rewrite (Z q (eq_sym E)). destruct S1 as (_ & _ & A1). lia.
    - destruct I as [-> _]. cbn. lia.
    - destruct I as ((q & E & W & Tm & P) & _). rewrite (Z q (eq_sym E)). destruct S1 as (_ & (_ & A1) & _). lia.
    - destruct I as (q & E & W & Tm & P). rewrite (Z q (eq_sym E)). destruct S1 as (_ & A1). lia.
    - destruct I as (q & E & W & Tm & P). rewrite (Z q (eq_sym E)). destruct S1 as ((_ & A1) & _). lia.
  Qed.

  Lemma reports_shape s0 r s : preach s0 r s -> r = told (length r).
  Proof.
    intros H. pose proof (preach_pinv _ _ _ H) as I. unfold pinv in I.
    assert (Z : looping r s -> r = told (length r)) by (intros (q & -> & _); f_equal; unfold told; rewrite map_length, seq_length; reflexivity).
    destruct (m s) as [d|d|d msg [|]| |]; try (apply Z; exact I); try (destruct I as [-> _]; reflexivity). destruct I as [I _]. exact (Z I).
  Qed.

  Lemma reports_end s0 r s : 1 <= k -> preach s0 r s -> m s = MDone -> length r = n.
  Proof.
    intros Hk H M. pose proof (preach_pinv _ _ _ H) as I. unfold pinv in I. rewrite M in I. destruct I as (q & -> & W & Tm & P).
    unfold told. rewrite map_length, seq_length. pose proof (preach_reach _ _ _ H) as R.
    destruct (reach_inv cut work tiles k s0 s R) as (f & J). pose proof (i_stage _ _ _ _ J) as S1. unfold stage in S1. rewrite M in S1. destruct S1 as ((NF & A1) & L).
    assert (Z : act k f = 0) by lia.
    assert (F1 : f 1 = X). { pose proof (cnt_zero _ _ Z 1 ltac:(lia)) as Na. specialize (NF 1 ltac:(lia)). cbv beta in Na. destruct (f 1); cbn in *; congruence. }
    pose proof (i_x _ _ _ _ J 1 ltac:(lia) F1) as Wn. unfold w0 in *. lia.
  Qed.

  Lemma serial_from_spec i l s : exists j, j <= length l /\ fst (serial_from cut work i l s) = seq i j /\
    snd (serial_from cut work i l s) = foldM (fun s t => run_actions (work t) (cut t s)) l s /\
    (j = length l <-> exists s', snd (serial_from cut work i l s) = Ok s') /\
    forall s', foldM (fun s t => run_actions (work t) (cut t s)) (firstn j l) s = Ok s' -> j < length l ->
      exists t e, nth_error l j = Some t /\ run_actions (work t) (cut t s') = Err e.
  Proof.
    revert i s. induction l as [|t l IH]; intros i s; cbn [serial_from foldM].
    - exists 0. cbn. repeat split; auto; try lia. intros _. eauto.
    - destruct (run_actions (work t) (cut t s)) as [s1|e] eqn:E; cbn [bind].
      + destruct (IH (S i) s1) as (j & L & F1 & F2 & F3 & F4). destruct (serial_from cut work (S i) l s1) as [r o]. cbn [fst snd] in *. exists (S j). cbn [length].
        split; [lia|]. split; [rewrite F1; reflexivity|]. split; [exact F2|]. split; [rewrite <- F3; lia|].
        intros s' H Lt. cbn [firstn foldM] in H. rewrite E in H. cbn [bind] in H. cbn [nth_error]. apply F4; [exact H|lia].
      + exists 0. cbn. split; [lia|]. split; [reflexivity|]. split; [reflexivity|]. split; [split; [lia|intros (s' & H); discriminate]|].
        intros s' H _. injection H as <-. exists t, e. auto.
  Qed.
End P.
