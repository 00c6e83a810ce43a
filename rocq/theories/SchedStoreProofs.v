From Verif Require Import Base BaseLemmas SchedModel SchedSpec SchedProofs.
Open Scope nat_scope.

Lemma NoDup_app_remove_l {B} (a b : list B) : NoDup (a ++ b) -> NoDup b.
Proof. induction a as [|x a IH]; simpl; [auto|]. intros H. inversion H; auto. Qed.
Lemma NoDup_app_remove_r {B} (a b : list B) : NoDup (a ++ b) -> NoDup a.
Proof.
  induction a as [|x a IH]; simpl; [constructor|]. intros H. inversion H; subst. constructor; auto.
  intros C. apply H2. apply in_app_iff. auto.
Qed.

Lemma nth_error_skipn {B} n : forall (l : list B) j, nth_error (skipn n l) j = nth_error l (n + j).
Proof. induction n as [|n IH]; intros [|x l] j; simpl; auto. destruct j; reflexivity. Qed.

Section Store.
  Context {T K V : Type} (reads writes : T -> K -> bool).
  Notation store := (store (K:=K) (V:=V)).
  Variables (cut : T -> store -> store) (work : T -> list (action store)) (tiles : list T) (k : nat).
  Notation sys := (sys T store).
  Notation step := (step cut work tiles k).
  Notation agree := (agree reads).
  Notation run := (@run_actions store).

  Hypothesis ND : NoDup tiles.
  Hypothesis DJ : independent reads writes tiles.
  Hypothesis LC : forall t, In t tiles -> local_total reads writes t (cut t).
  Hypothesis LW : forall t a, In t tiles -> In a (work t) -> local_action reads writes t a.

  Lemma run_app l l' (f : store) : run (l ++ l') f = bind (run l f) (fun g => run l' g).
  Proof.
    unfold run_actions. revert f. induction l as [|a l IH]; intros f; simpl; [reflexivity|].
    destruct (a f); simpl; [apply IH|reflexivity].
  Qed.

  Lemma run_local t l : (forall a, In a l -> local_action reads writes t a) ->
    forall f g, agree t f g ->
    match run l f, run l g with
    | Ok f', Ok g' => agree t f' g' | Err e, Err e' => e = e' | _, _ => False end.
  Proof.
    induction l as [|a l IH]; intros HL f g Hg; simpl; [exact Hg|].
    destruct (HL a (or_introl eq_refl)) as [_ L2]. specialize (L2 f g Hg). unfold run_actions; simpl.
    destruct (a f), (a g); simpl in *; try contradiction; auto.
    apply IH; [intros b Hb; apply HL; right; exact Hb|exact L2].
  Qed.

  Lemma run_frame t l : (forall a, In a l -> local_action reads writes t a) ->
    forall f g x, run l f = Ok g -> writes t x = false -> g x = f x.
  Proof.
    induction l as [|a l IH]; intros HL f g x E Hx; unfold run_actions in E; simpl in E.
    - inversion E. reflexivity.
    - destruct (a f) as [f'|e] eqn:Ea; [|discriminate]. simpl in E.
      rewrite (IH (fun a H => HL a (or_intror H)) f' g x E Hx).
      destruct (HL a (or_introl eq_refl)) as [L1 _]. apply (L1 f f' x Ea Hx).
  Qed.

  Lemma agree_frame t t' (f g : store) : In t tiles -> In t' tiles -> t <> t' ->
    (forall x, writes t' x = false -> g x = f x) -> agree t g f.
  Proof.
    intros I1 I2 N H x Hx. apply H. destruct (writes t' x) eqn:E; [|reflexivity].
    exfalso. apply N. symmetry. eapply (proj2 DJ); eauto.
  Qed.

  Lemma agree_trans t (f g h : store) : agree t f g -> agree t g h -> agree t f h.
  Proof. intros H1 H2 x Hx. rewrite H1, H2; auto. Qed.
  Lemma agree_sym t (f g : store) : agree t f g -> agree t g f.
  Proof. intros H x Hx. symmetry. auto. Qed.

  Definition sending (s : sys) (t : T) : Prop := exists d i, m s = MSend d (Some t) i.

  Record sinv (s0 : store) (s : sys) : Prop := SInv {
    v_new : forall j t, nth_error tiles j = Some t -> w s <= j -> ~ sending s t -> agree t (fs s) s0;
    v_snd : forall t, sending s t -> agree t (fs s) (cut t s0);
    v_ch : forall d t, 1 <= d <= k -> In (Some t) (ch s d) -> agree t (fs s) (cut t s0);
    v_busy : forall d t r, 1 <= d <= k -> wk s d = WBusy t r ->
       exists dn g, work t = dn ++ r /\ run dn (cut t s0) = Ok g /\ agree t (fs s) g;
    v_fail : forall d t, 1 <= d <= k -> wk s d = WFail t -> exists e, run (work t) (cut t s0) = Err e;
    v_log : forall t, In t (map snd (log s)) -> exists g, run (work t) (cut t s0) = Ok g /\ agree t (fs s) g;
    v_out : forall x, (forall t, In t tiles -> writes t x = false) -> fs s x = s0 x }.

  Lemma uniq f (s : sys) : inv tiles k f s -> NoDup (map snd (log s) ++ flat_map (held s) (seq 1 k)).
  Proof.
    intros I. eapply Permutation_NoDup; [apply (i_perm _ _ _ _ I)|].
    rewrite <- (firstn_skipn (w s) tiles) in ND. apply NoDup_app_remove_r in ND. exact ND.
  Qed.

  Lemma nodup_app_disj {B} (a b : list B) x : NoDup (a ++ b) -> In x a -> In x b -> False.
  Proof.
    induction a as [|y a IH]; intros H Ha Hb; [contradiction|].
    simpl in H. inversion H; subst. destruct Ha as [->|Ha].
    - apply H2. apply in_app_iff. auto.
    - eapply IH; eauto.
  Qed.

  Lemma nodup_flat_map {B} (h : nat -> list B) l x d d' : NoDup (flat_map h l) -> NoDup l ->
    In d l -> In d' l -> In x (h d) -> In x (h d') -> d = d'.
  Proof.
    induction l as [|y l IH]; intros H Hl Hd Hd' Hx Hx'; [contradiction|].
    simpl in H. inversion Hl; subst.
    destruct Hd as [->|Hd]; destruct Hd' as [->|Hd']; auto.
    - exfalso. eapply nodup_app_disj; [exact H|exact Hx|apply in_flat_map; eauto].
    - exfalso. eapply nodup_app_disj; [exact H|exact Hx'|apply in_flat_map; eauto].
    - apply IH; auto. apply NoDup_app_remove_l in H. exact H.
  Qed.

  Lemma nodup_app_r {B} (a b : list B) : NoDup (a ++ b) -> NoDup b.
  Proof. apply NoDup_app_remove_l. Qed.

  (** A tile being worked on is nowhere else. *)
  Lemma held_uniq f (s : sys) d d' t : inv tiles k f s -> 1 <= d <= k -> 1 <= d' <= k ->
    In t (held s d) -> In t (held s d') -> d = d'.
  Proof.
    intros I Hd Hd' H H'. pose proof (uniq f s I) as U. apply nodup_app_r in U.
    eapply nodup_flat_map; eauto using seq_NoDup; apply in_seq; lia.
  Qed.
  Lemma held_log f (s : sys) d t : inv tiles k f s -> 1 <= d <= k -> In t (held s d) -> ~ In t (map snd (log s)).
  Proof.
    intros I Hd H C. pose proof (uniq f s I) as U. eapply nodup_app_disj; eauto.
    apply in_flat_map. exists d. split; [apply in_seq; lia|exact H].
  Qed.
  Lemma nth_firstn (l : list T) j t : nth_error l j = Some t -> forall n, j < n -> In t (firstn n l).
  Proof.
    revert j. induction l as [|x l IH]; intros [|j] H n Hn; simpl in H; try discriminate; destruct n; try lia; simpl.
    - left. congruence.
    - right. eapply IH; eauto. lia.
  Qed.
  Lemma new_not_old j t n : nth_error tiles j = Some t -> n <= j -> ~ In t (firstn n tiles).
  Proof.
    intros H Hn C. assert (I : In t (skipn n tiles)).
    { apply nth_error_In with (n := j - n). rewrite nth_error_skipn. replace (n + (j - n)) with j by lia. exact H. }
    pose proof ND as N2. rewrite <- (firstn_skipn n tiles) in N2. eapply nodup_app_disj; eauto.
  Qed.
  Lemma old_in f (s : sys) t : inv tiles k f s -> In t (map snd (log s)) -> In t (firstn (w s) tiles).
  Proof. intros I H. rewrite (i_perm _ _ _ _ I). apply in_app_iff. auto. Qed.

  Lemma held_in0 f (s : sys) d t : inv tiles k f s -> 1 <= d <= k -> In t (held s d) -> In t (firstn (w s) tiles).
  Proof.
    intros I Hd H. rewrite (i_perm _ _ _ _ I). apply in_app_iff. right. apply in_flat_map.
    exists d. split; [apply in_seq; lia|exact H].
  Qed.
  Lemma in_firstn0 n (t : T) l : In t (firstn n l) -> In t l.
  Proof. intros H. rewrite <- (firstn_skipn n l). apply in_app_iff. auto. Qed.

  Lemma held_chan (s : sys) d t : In (Some t) (ch s d) -> In t (held s d).
  Proof. intros H. unfold held. apply in_app_iff. left. apply in_flat_map. exists (Some t). split; [exact H|left; reflexivity]. Qed.
  Lemma held_busy (s : sys) d t r : wk s d = WBusy t r -> In t (held s d).
  Proof. intros H. unfold held. apply in_app_iff. right. rewrite H. left. reflexivity. Qed.

  Lemma sinv_init s0 : sinv s0 (init k s0).
  Proof.
    split; simpl; try discriminate; try contradiction.
    - intros. intros x _. reflexivity.
    - intros t (d & i & E). discriminate.
    - intros. reflexivity.
  Qed.

  Ltac sysred := cbn [set_m set_wk set_ch set_rs set_fs add_log m w p term wk ch rs log fs] in *.

  (** Moves that touch neither the file system nor what is known about it. *)
  Lemma sinv_pick s0 f s d i : inv tiles k f s -> sinv s0 s ->
    (forall t, ~ sending s t) -> sinv s0 (pick cut tiles d i s).
  Proof.
    intros I [V1 V2 V3 V4 V5 V6 V7] NS. unfold pick. destruct (nth_error tiles (w s)) as [t|] eqn:E.
    - assert (It : In t tiles) by (eapply nth_error_In; eauto).
      assert (FR : forall t', In t' tiles -> t' <> t -> agree t' (cut t (fs s)) (fs s)).
      { intros t' It' N. eapply (agree_frame t' t); eauto. intros x Hx. apply (LC t It). exact Hx. }
      assert (OLD : forall t', In t' (firstn (w s) tiles) -> t' <> t).
      { intros t' H ->. eapply new_not_old; eauto. }
      split; sysred.
      + intros j t' Ej Hj Hn. assert (N : t' <> t).
        { intros ->. apply Hn. exists d, i. reflexivity. }
        eapply agree_trans; [apply FR; [eapply nth_error_In; eauto|exact N]|]. eapply V1; eauto.
      + intros t' (d' & i' & Es). sysred. inversion Es; subst.
        apply (LC t' It). eapply V1; eauto.
      + intros d' t' Hd' H. assert (O : In t' (firstn (w s) tiles)) by (eapply held_in0; [exact I|exact Hd'|apply held_chan; exact H]).
        eapply agree_trans; [apply FR; [eapply in_firstn0; eauto|auto]|eauto].
      + intros d' t' r Hd' H. assert (O : In t' (firstn (w s) tiles)) by (eapply held_in0; [exact I|exact Hd'|eapply held_busy; exact H]).
        destruct (V4 d' t' r Hd' H) as (dn & g & E1 & E2 & E3). exists dn, g. split; [exact E1|]. split; [exact E2|].
        eapply agree_trans; [apply FR; [eapply in_firstn0; eauto|auto]|exact E3].
      + exact V5.
      + intros t' H. assert (O : In t' (firstn (w s) tiles)) by (eapply old_in; eauto).
        destruct (V6 t' H) as (g & E1 & E2). exists g. split; [exact E1|].
        eapply agree_trans; [apply FR; [eapply in_firstn0; eauto|auto]|exact E2].
      + intros x Hx. rewrite <- (V7 x Hx). apply (LC t It). apply Hx. exact It.
    - split; sysred; auto.
      + intros j t' Ej Hj Hn. eapply V1; eauto.
      + intros t' (d' & i' & Es). discriminate.
  Qed.

  Lemma sinv_send s0 f s d msg i cs ws : inv tiles k f s -> sinv s0 s -> m s = MSend d msg i ->
    (forall t, In (Some t) cs -> Some t = msg \/ In (Some t) (ch s d)) ->
    (ws = wk s d \/ ws = match msg with None => WDone | Some t => WBusy t (work t) end) ->
    let s1 := after_send d msg i s in
    sinv s0 (Sys (m s1) (w s1) (p s1) (term s1) (upd (wk s1) d ws) (upd (ch s1) d cs) (rs s1) (log s1) (fs s1)).
  Proof.
    intros I [V1 V2 V3 V4 V5 V6 V7] Em Hcs Hws s1.
    pose proof (i_stage _ _ _ _ I) as St1. unfold stage in St1. rewrite Em in St1.
    assert (Hok : msgok tiles s msg) by (destruct i; apply St1).
    assert (SND : forall t, msg = Some t -> agree t (fs s) (cut t s0)).
    { intros t ->. apply V2. exists d, i. exact Em. }
    assert (NS : forall t, ~ sending s1 t).
    { intros t (d' & i' & E). subst s1. destruct msg, i; discriminate. }
    assert (FS : fs s1 = fs s) by (subst s1; destruct msg, i; reflexivity).
    assert (LOG : log s1 = log s) by (subst s1; destruct msg, i; reflexivity).
    assert (WK : wk s1 = wk s) by (subst s1; destruct msg, i; reflexivity).
    assert (CH : ch s1 = ch s) by (subst s1; destruct msg, i; reflexivity).
    assert (W1 : w s <= w s1) by (subst s1; destruct msg, i; simpl; lia).
    split; sysred; rewrite ?FS, ?LOG, ?WK, ?CH.
    - intros j t Ej Hj _. apply (V1 j t Ej); [lia|].
      intros (d' & i' & E). rewrite Em in E. inversion E; subst.
      simpl in Hok. subst s1. simpl in Hj.
      assert (w s = j).
      { apply (NoDup_nth_error tiles); [exact ND| |congruence].
        apply nth_error_Some. congruence. }
      lia.
    - intros t (d' & i' & E). sysred. exfalso. apply (NS t). exists d', i'. exact E.
    - intros d' t Hd' H. destruct (Nat.eq_dec d' d) as [->|Ne].
      + rewrite upd_eq in H. destruct (Hcs t H) as [E|E]; [apply SND; auto|eauto].
      + rewrite upd_ne in H by exact Ne. eauto.
    - intros d' t r Hd' H. destruct (Nat.eq_dec d' d) as [->|Ne].
      + rewrite upd_eq in H. destruct Hws as [->| ->]; [eauto|].
        destruct msg as [t0|]; [|discriminate]. inversion H; subst.
        exists [], (cut t s0). split; [reflexivity|]. split; [reflexivity|auto].
      + rewrite upd_ne in H by exact Ne. eauto.
    - intros d' t Hd' H. destruct (Nat.eq_dec d' d) as [->|Ne].
      + rewrite upd_eq in H. destruct Hws as [->| ->]; [eauto|]. destruct msg; discriminate.
      + rewrite upd_ne in H by exact Ne. eauto.
    - exact V6.
    - exact V7.
  Qed.

  Lemma sinv_ext s0 s s' : m s = m s' -> w s = w s' -> (forall d, wk s d = wk s' d) -> (forall d, ch s d = ch s' d) ->
    log s = log s' -> fs s = fs s' -> sinv s0 s -> sinv s0 s'.
  Proof.
    intros E1 E2 E3 E4 E5 E6 [V1 V2 V3 V4 V5 V6 V7].
    assert (SE : forall t, sending s' t <-> sending s t) by (intros t; unfold sending; rewrite E1; reflexivity).
    split; rewrite <- ?E2, <- ?E5, <- ?E6; auto.
    - intros j t Ej Hj Hn. eapply V1; eauto. rewrite <- SE. exact Hn.
    - intros t Ht. apply V2. apply SE. exact Ht.
    - intros d t Hd H. rewrite <- E4 in H. eauto.
    - intros d t r Hd H. rewrite <- E3 in H. eauto.
    - intros d t Hd H. rewrite <- E3 in H. eauto.
  Qed.

  Lemma sinv_m s0 s v : sinv s0 s -> (forall t, ~ sending s t) -> (forall d t i, v <> MSend d (Some t) i) ->
    sinv s0 (set_m s v).
  Proof.
    intros [V1 V2 V3 V4 V5 V6 V7] NS NV. split; sysred; auto.
    - intros j t Ej Hj _. eapply V1; eauto.
    - intros t (d & i & E). exfalso. eapply NV; eauto.
  Qed.

  Lemma not_sending (s : sys) : (forall d t i, m s <> MSend d (Some t) i) -> forall t, ~ sending s t.
  Proof. intros H t (d & i & E). eapply H; eauto. Qed.

  Lemma sinv_step s0 b f s s' : inv tiles k f s -> sinv s0 s -> step b s s' -> sinv s0 s'.
  Proof.
    intros I J Hs. destruct Hs.
    - eapply sinv_pick; eauto. apply not_sending. congruence.
    - apply sinv_m; [exact J|apply not_sending; congruence|discriminate].
    - apply sinv_m; [exact J|apply not_sending; congruence|discriminate].
    - apply (sinv_m s0 (set_rs s (l ++ l'))); [|apply not_sending; sysred; congruence|discriminate].
      eapply sinv_ext; [..|exact J]; reflexivity.
    - eapply sinv_pick; eauto. apply not_sending. congruence.
    - pose proof (sinv_send s0 f s d msg i (ch s d ++ [msg]) (wk s d) I J H) as G. cbv zeta in G.
      eapply sinv_ext; [..|apply G]; destruct msg, i; sysred; try reflexivity; try (left; reflexivity);
        try (intros d'; apply upd_same; reflexivity);
        try (intros t0 Ht; apply in_app_iff in Ht; destruct Ht as [Ht|[Ht|[]]]; auto).
    - pose proof (sinv_send s0 f s d msg i [] (match msg with None => WDone | Some t => WBusy t (work t) end) I J H) as G. cbv zeta in G.
      eapply sinv_ext; [..|apply G]; destruct msg, i; sysred; try reflexivity; try (right; reflexivity);
        try (intros d'; apply upd_same; assumption);
        try (intros t0 []).
    - destruct J as [V1 V2 V3 V4 V5 V6 V7].
      assert (G : sinv s0 (Sys (m s) (w s) (p s) (term s) (upd (wk s) d (match msg with None => WDone | Some t => WBusy t (work t) end)) (upd (ch s) d q) (rs s) (log s) (fs s))).
      { split; sysred; auto.
        - intros d' t Hd' Ht. destruct (Nat.eq_dec d' d) as [->|Ne].
          + rewrite upd_eq in Ht. apply (V3 d); [exact H|]. rewrite H1. right. exact Ht.
          + rewrite upd_ne in Ht by exact Ne. eauto.
        - intros d' t r Hd' Ht. destruct (Nat.eq_dec d' d) as [->|Ne].
          + rewrite upd_eq in Ht. destruct msg as [t0|]; [|discriminate]. inversion Ht; subst.
            exists [], (cut t s0). split; [reflexivity|]. split; [reflexivity|]. apply (V3 d); [exact H|]. rewrite H1. left. reflexivity.
          + rewrite upd_ne in Ht by exact Ne. eauto.
        - intros d' t Hd' Ht. destruct (Nat.eq_dec d' d) as [->|Ne].
          + rewrite upd_eq in Ht. destruct msg; discriminate.
          + rewrite upd_ne in Ht by exact Ne. eauto. }
      eapply sinv_ext; [..|exact G]; destruct msg; reflexivity.
    - (* action succeeds *)
      destruct J as [V1 V2 V3 V4 V5 V6 V7].
      assert (Hh : In t (held s d)) by (eapply held_busy; eauto).
      assert (Old : In t (firstn (w s) tiles)) by (eapply held_in0; eauto).
      assert (It : In t tiles) by (eapply in_firstn0; eauto).
      destruct (V4 d t _ H H0) as (dn & g & E1 & E2 & E3).
      assert (La : local_action reads writes t a) by (apply LW; [exact It|rewrite E1; apply in_elt]).
      destruct La as [La1 La2].
      assert (FR : forall t', In t' tiles -> t' <> t -> agree t' f0 (fs s)).
      { intros t' It' N. eapply (agree_frame t' t); eauto. }
      split; sysred.
      + intros j t' Ej Hj Hn. assert (N : t' <> t) by (intros ->; eapply new_not_old; eauto).
        eapply agree_trans; [apply FR; [eapply nth_error_In; eauto|exact N]|]. eapply V1; eauto.
      + intros t' Ht'. assert (X : nth_error tiles (w s) = Some t').
        { destruct Ht' as (d' & i' & E). sysred. pose proof (i_stage _ _ _ _ I) as St1. unfold stage in St1. rewrite E in St1.
          destruct i'; apply St1. }
        assert (N : t' <> t) by (intros ->; eapply (new_not_old (w s)); eauto).
        eapply agree_trans; [apply FR; [eapply nth_error_In; eauto|exact N]|]. apply V2. exact Ht'.
      + intros d' t' Hd' Ht'. assert (N : t' <> t).
        { intros ->. assert (d' = d) by (eapply held_uniq; eauto using held_chan). subst d'.
          destruct (busy_shape s d (f d) (i_shape _ _ _ _ I d H)) as (_ & C & _); [rewrite H0; exact Logic.I|].
          rewrite C in Ht'. contradiction. }
        eapply agree_trans; [apply FR; [|exact N]|eauto].
        eapply in_firstn0. eapply held_in0; eauto using held_chan.
      + intros d' t' r' Hd' Ht'. destruct (Nat.eq_dec d' d) as [->|Ne].
        * rewrite upd_eq in Ht'. inversion Ht'; subst t' r'. exists (dn ++ [a]).
          specialize (La2 _ _ E3). rewrite H1 in La2. destruct (a g) as [g'|e] eqn:Eg; [|contradiction].
          exists g'. split; [rewrite <- app_assoc; exact E1|]. split; [|exact La2].
          rewrite run_app, E2. unfold run_actions; simpl. rewrite Eg. reflexivity.
        * rewrite upd_ne in Ht' by exact Ne.
          assert (N : t' <> t).
          { intros ->. apply Ne. eapply held_uniq; eauto using held_busy. }
          destruct (V4 d' t' r' Hd' Ht') as (dn' & g' & F1 & F2 & F3). exists dn', g'. split; [exact F1|]. split; [exact F2|].
          eapply agree_trans; [apply FR; [|exact N]|exact F3].
          eapply in_firstn0. eapply held_in0; eauto using held_busy.
      + intros d' t' Hd' Ht'. destruct (Nat.eq_dec d' d) as [->|Ne].
        * rewrite upd_eq in Ht'. discriminate.
        * rewrite upd_ne in Ht' by exact Ne. eauto.
      + intros t' Ht'. assert (N : t' <> t) by (intros ->; eapply held_log; eauto).
        destruct (V6 t' Ht') as (g' & F1 & F2). exists g'. split; [exact F1|].
        eapply agree_trans; [apply FR; [|exact N]|exact F2]. eapply in_firstn0. eapply old_in; eauto.
      + intros x Hx. rewrite <- (V7 x Hx). eapply La1; eauto.
    - (* action raises *)
      destruct J as [V1 V2 V3 V4 V5 V6 V7].
      assert (It : In t tiles) by (eapply in_firstn0; eapply held_in0; eauto using held_busy).
      destruct (V4 d t _ H H0) as (dn & g & E1 & E2 & E3).
      assert (La : local_action reads writes t a) by (apply LW; [exact It|rewrite E1; apply in_elt]).
      destruct La as [La1 La2].
      split; sysred; auto.
      + intros d' t' r' Hd' Ht'. destruct (Nat.eq_dec d' d) as [->|Ne].
        * rewrite upd_eq in Ht'. discriminate.
        * rewrite upd_ne in Ht' by exact Ne. eauto.
      + intros d' t' Hd' Ht'. destruct (Nat.eq_dec d' d) as [->|Ne].
        * rewrite upd_eq in Ht'. inversion Ht'; subst t'. specialize (La2 _ _ E3). rewrite H1 in La2.
          destruct (a g) as [g'|e'] eqn:Eg; [contradiction|]. exists e'.
          rewrite E1, run_app, E2. unfold run_actions; simpl. rewrite Eg. reflexivity.
        * rewrite upd_ne in Ht' by exact Ne. eauto.
    - destruct J as [V1 V2 V3 V4 V5 V6 V7].
      destruct (V4 d t _ H H0) as (dn & g & E1 & E2 & E3). rewrite app_nil_r in E1.
      split; sysred; auto.
      + intros d' t' r' Hd' Ht'. destruct (Nat.eq_dec d' d) as [->|Ne].
        * rewrite upd_eq in Ht'. discriminate.
        * rewrite upd_ne in Ht' by exact Ne. eauto.
      + intros d' t' Hd' Ht'. destruct (Nat.eq_dec d' d) as [->|Ne].
        * rewrite upd_eq in Ht'. discriminate.
        * rewrite upd_ne in Ht' by exact Ne. eauto.
      + cbn [map snd]. intros t' [<-|Ht']; [|auto]. exists g. rewrite E1. auto.
    - assert (G : sinv s0 (set_wk s d WRecv)).
      { destruct J as [V1 V2 V3 V4 V5 V6 V7]. split; sysred; auto.
        + intros d' t' r' Hd' Ht'. destruct (Nat.eq_dec d' d) as [->|Ne].
          * rewrite upd_eq in Ht'. discriminate.
          * rewrite upd_ne in Ht' by exact Ne. eauto.
        + intros d' t' Hd' Ht'. destruct (Nat.eq_dec d' d) as [->|Ne].
          * rewrite upd_eq in Ht'. discriminate.
          * rewrite upd_ne in Ht' by exact Ne. eauto. }
      eapply sinv_ext; [..|exact G]; reflexivity.
    - assert (G : sinv s0 (set_wk s d WRecv)).
      { destruct J as [V1 V2 V3 V4 V5 V6 V7]. split; sysred; auto.
        + intros d' t' r' Hd' Ht'. destruct (Nat.eq_dec d' d) as [->|Ne].
          * rewrite upd_eq in Ht'. discriminate.
          * rewrite upd_ne in Ht' by exact Ne. eauto.
        + intros d' t' Hd' Ht'. destruct (Nat.eq_dec d' d) as [->|Ne].
          * rewrite upd_eq in Ht'. discriminate.
          * rewrite upd_ne in Ht' by exact Ne. eauto. }
      apply sinv_m; [exact G|apply not_sending; sysred; congruence|discriminate].
  Qed.

  Lemma reach_sinv s0 s : reach cut work tiles k s0 s -> sinv s0 s.
  Proof.
    intros (n & R). unfold reach_n in R. remember (init k s0) as i eqn:Ei. induction R.
    - subst. apply sinv_init.
    - destruct (reach_inv cut work tiles k s0 s') as (f & I); [exists n; subst; exact R|].
      eapply sinv_step; eauto.
  Qed.

  (** ** The serial run *)
  Definition one (f : store) (t : T) : res store := run (work t) (cut t f).

  Lemma one_local t f g : In t tiles -> agree t f g ->
    match one f t, one g t with Ok f', Ok g' => agree t f' g' | Err e, Err e' => e = e' | _, _ => False end.
  Proof.
    intros It H. unfold one. apply run_local; [intros a Ha; apply LW; auto|]. apply (LC t It). exact H.
  Qed.
  Lemma one_frame t f g x : In t tiles -> one f t = Ok g -> writes t x = false -> g x = f x.
  Proof.
    intros It E Hx. unfold one in E. rewrite (run_frame t (work t) (fun a Ha => LW t a It Ha) _ _ _ E Hx).
    apply (LC t It). exact Hx.
  Qed.

  Lemma serial_spec l : NoDup l -> (forall t, In t l -> In t tiles) -> forall f,
    match foldM one l f with
    | Ok g => (forall t, In t l -> exists h, one f t = Ok h /\ agree t g h) /\
              (forall x, (forall t, In t l -> writes t x = false) -> g x = f x)
    | Err e => exists t, In t l /\ exists e', one f t = Err e'
    end.
  Proof.
    induction l as [|t l IH]; intros Hn Hl f; simpl.
    - split; [contradiction|reflexivity].
    - inversion Hn; subst. assert (It : In t tiles) by (apply Hl; left; reflexivity).
      destruct (one f t) as [f1|e] eqn:E1; simpl.
      2:{ exists t. split; [left; reflexivity|eauto]. }
      assert (LE : forall t', In t' l -> agree t' f1 f).
      { intros t' H'. eapply (agree_frame t' t); eauto; [apply Hl; right; exact H'|intros ->; contradiction|].
        intros x Hx. eapply one_frame; eauto. }
      specialize (IH H2 (fun t' H' => Hl t' (or_intror H')) f1).
      destruct (foldM one l f1) as [g|e] eqn:E2.
      + destruct IH as [IH1 IH2]. split.
        * intros t' [<-|H'].
          -- exists f1. split; [exact E1|]. intros x Hx. apply IH2. intros t' H'.
             destruct (writes t' x) eqn:Eo; [|reflexivity]. exfalso. assert (t' = t) by (eapply (proj2 DJ); eauto; apply Hl; right; exact H').
             subst. contradiction.
          -- destruct (IH1 t' H') as (h & F1 & F2).
             pose proof (one_local t' f1 f (Hl t' (or_intror H')) (LE t' H')) as OL. rewrite F1 in OL.
             destruct (one f t') as [h'|] eqn:F3; [|contradiction]. exists h'. split; [reflexivity|].
             eapply agree_trans; eauto.
        * intros x Hx. rewrite IH2 by (intros t' H'; apply Hx; right; exact H').
          apply (one_frame t f f1 x It E1). apply Hx. left. reflexivity.
      + destruct IH as (t' & H' & e' & F1). exists t'. split; [right; exact H'|].
        pose proof (one_local t' f1 f (Hl t' (or_intror H')) (LE t' H')) as OL. rewrite F1 in OL.
        destruct (one f t') as [h'|e2]; [contradiction|]. eauto.
  Qed.

  Hypothesis Hk : 1 <= k.

  Lemma parallel_serial s0 g s : serial cut work tiles s0 = Ok g ->
    reach cut work tiles k s0 s -> m s = MDone -> forall x, fs s x = g x.
  Proof.
    intros Sr R Em x. pose proof (serial_spec tiles ND (fun t H => H) s0) as SP.
    change (serial cut work tiles s0) with (foldM one tiles s0) in Sr. rewrite Sr in SP. destruct SP as [S1 S2].
    destruct (exactly_once cut work tiles k Hk s0 s R Em) as [P _].
    pose proof (reach_sinv s0 s R) as [V1 V2 V3 V4 V5 V6 V7].
    destruct (existsb (fun t => writes t x) tiles) eqn:E.
    - apply existsb_exists in E. destruct E as (t & It & Ho).
      destruct (S1 t It) as (h & F1 & F2). destruct (V6 t) as (h' & F3 & F4); [rewrite P; exact It|].
      unfold one in F1. rewrite F1 in F3. inversion F3; subst h'. rewrite F4, F2 by (apply (proj1 DJ t x It); exact Ho). reflexivity.
    - assert (N : forall t, In t tiles -> writes t x = false).
      { intros t It. destruct (writes t x) eqn:Eo; [|reflexivity]. exfalso.
        assert (existsb (fun t => writes t x) tiles = true) by (apply existsb_exists; eauto). congruence. }
      rewrite V7, S2 by exact N. reflexivity.
  Qed.

  (** If the serial run succeeds no worker ever fails; if it raises, no parallel run finishes. *)
  Lemma serial_ok_no_fail s0 g s d t : serial cut work tiles s0 = Ok g ->
    reach cut work tiles k s0 s -> 1 <= d <= k -> wk s d <> WFail t.
  Proof.
    intros Sr R Hd C. pose proof (serial_spec tiles ND (fun t H => H) s0) as SP.
    change (serial cut work tiles s0) with (foldM one tiles s0) in Sr. rewrite Sr in SP. destruct SP as [S1 _].
    pose proof (reach_sinv s0 s R) as [V1 V2 V3 V4 V5 V6 V7].
    destruct (V5 d t Hd C) as (e & E). destruct (reach_inv cut work tiles k s0 s R) as (f & I).
    assert (It : In t tiles).
    { eapply in_firstn0. eapply held_in0; eauto. unfold held. rewrite C. apply in_app_iff. right. left. reflexivity. }
    destruct (S1 t It) as (h & F1 & _). unfold one in F1. congruence.
  Qed.

  Lemma serial_ok_finishes s0 g s : serial cut work tiles s0 = Ok g ->
    reach cut work tiles k s0 s -> finished k s \/ exists s', step false s s'.
  Proof.
    intros Sr R. destruct (reach_inv cut work tiles k s0 s R) as (f & I).
    destruct (progress_or_fail cut work tiles k f s I) as [H|[H|(d & t & Hd & H)]]; auto.
    exfalso. eapply serial_ok_no_fail; eauto.
  Qed.

  Lemma serial_err_never s0 e s : serial cut work tiles s0 = Err e ->
    reach cut work tiles k s0 s -> m s <> MDone.
  Proof.
    intros Sr R Em. pose proof (serial_spec tiles ND (fun t H => H) s0) as SP.
    change (serial cut work tiles s0) with (foldM one tiles s0) in Sr. rewrite Sr in SP.
    destruct SP as (t & It & e' & E). destruct (exactly_once cut work tiles k Hk s0 s R Em) as [P _].
    pose proof (reach_sinv s0 s R) as [V1 V2 V3 V4 V5 V6 V7].
    destruct (V6 t) as (h & F & _); [rewrite P; exact It|]. unfold one in E. congruence.
  Qed.
End Store.
