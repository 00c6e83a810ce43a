From Verif Require Import Base BaseLemmas SchedModel SchedSpec.
Open Scope nat_scope.

(** ** Sums over workers with one worker updated *)

Lemma upd_eq {A} (f : nat -> A) d v : upd f d v d = v.
Proof. unfold upd. rewrite Nat.eqb_refl. reflexivity. Qed.
Lemma upd_ne {A} (f : nat -> A) d v x : x <> d -> upd f d v x = f x.
Proof. unfold upd. intros H. apply Nat.eqb_neq in H. rewrite H. reflexivity. Qed.

Lemma split_at d k : 1 <= d <= k -> exists l, Permutation (seq 1 k) (d :: l) /\ ~ In d l.
Proof.
  intros H. assert (I : In d (seq 1 k)) by (apply in_seq; lia).
  apply in_split in I. destruct I as (a & b & E).
  exists (a ++ b). split.
  - rewrite E. symmetry. apply Permutation_middle.
  - assert (N := seq_NoDup k 1). rewrite E in N. apply NoDup_remove_2 in N. exact N.
Qed.

Lemma flat_map_ext_in' {A B} (f g : A -> list B) l : (forall x, In x l -> f x = g x) -> flat_map f l = flat_map g l.
Proof.
  induction l as [|x l IH]; intros H; simpl; [reflexivity|].
  rewrite (H x), IH; auto; [intros; apply H; right; assumption|left; reflexivity].
Qed.

(** Replacing the contribution of worker d. *)
Lemma flat_map_upd {B} (f g : nat -> list B) d k : 1 <= d <= k ->
  (forall x, x <> d -> f x = g x) ->
  exists r, Permutation (flat_map f (seq 1 k)) (f d ++ r) /\ Permutation (flat_map g (seq 1 k)) (g d ++ r).
Proof.
  intros Hd H. destruct (split_at d k Hd) as (l & P & N).
  exists (flat_map f l). split.
  - rewrite P. reflexivity.
  - rewrite P. simpl. rewrite (flat_map_ext_in' f g); [reflexivity|].
    intros x Hx. apply H. intros ->. contradiction.
Qed.

Definition cnt (f : nat -> bool) (k : nat) : nat := length (filter f (seq 1 k)).

Lemma filter_perm_length {A} (f : A -> bool) l l' : Permutation l l' -> length (filter f l) = length (filter f l').
Proof.
  induction 1; simpl; auto.
  - destruct (f x); simpl; congruence.
  - destruct (f x), (f y); reflexivity.
  - congruence.
Qed.

Lemma cnt_upd f g d k : 1 <= d <= k -> (forall x, x <> d -> f x = g x) ->
  cnt f k + (if g d then 1 else 0) = cnt g k + (if f d then 1 else 0).
Proof.
  intros Hd H. destruct (split_at d k Hd) as (l & P & N). unfold cnt.
  rewrite !(filter_perm_length _ _ _ P). simpl.
  assert (E : filter f l = filter g l).
  { apply filter_ext_in. intros x Hx. apply H. intros ->. contradiction. }
  rewrite E. destruct (f d), (g d); simpl; lia.
Qed.

Lemma cnt_pos f k : 0 < cnt f k -> exists d, 1 <= d <= k /\ f d = true.
Proof.
  unfold cnt. intros H. destruct (filter f (seq 1 k)) as [|d l] eqn:E; [simpl in H; lia|].
  assert (I : In d (filter f (seq 1 k))) by (rewrite E; left; reflexivity).
  apply filter_In in I. destruct I as [I1 I2]. apply in_seq in I1. exists d. split; [lia|exact I2].
Qed.

Lemma cnt_zero f k : cnt f k = 0 -> forall d, 1 <= d <= k -> f d = false.
Proof.
  unfold cnt. intros H d Hd. destruct (f d) eqn:E; [|reflexivity]. exfalso.
  assert (I : In d (filter f (seq 1 k))) by (apply filter_In; split; [apply in_seq; lia|exact E]).
  destruct (filter f (seq 1 k)); [contradiction|discriminate].
Qed.

Section Proofs.
  Context {T St : Type} (cut : T -> St -> St) (work : T -> list (action St)) (tiles : list T) (k : nat).
  Notation sys := (sys T St).
  Notation step := (step cut work tiles k).
  Notation len := (length tiles).

  Inductive ph := F | A | X.
  Definition isA (x : ph) : bool := match x with A => true | _ => false end.

  (** The master has taken a result of d and not yet answered it. *)
  Definition owed (s : sys) (d : nat) : bool :=
    match m s with MGot d' => d' =? d | MSend d' _ false => d' =? d | _ => false end.

  Definition busy (x : wst T St) : Prop :=
    match x with WBusy _ _ | WFail _ | WSend => True | _ => False end.

  Definition shape (s : sys) (d : nat) (x : ph) : Prop :=
    match x with
    | F => ch s d = [] /\ wk s d = WRecv /\ ~ In d (rs s) /\ owed s d = false
    | A => (exists t, ch s d = [Some t] /\ wk s d = WRecv /\ ~ In d (rs s) /\ owed s d = false) \/
           (ch s d = [] /\ busy (wk s d) /\ ~ In d (rs s) /\ owed s d = false) \/
           (ch s d = [] /\ wk s d = WRecv /\ In d (rs s) /\ owed s d = false) \/
           (ch s d = [] /\ wk s d = WRecv /\ ~ In d (rs s) /\ owed s d = true)
    | X => ~ In d (rs s) /\ owed s d = false /\
           ((ch s d = [None] /\ wk s d = WRecv) \/ (ch s d = [] /\ wk s d = WDone))
    end.

  Definition held_msg (x : option T) : list T := match x with Some t => [t] | None => [] end.
  Definition held_wk (x : wst T St) : list T := match x with WBusy t _ | WFail t => [t] | _ => [] end.
  Definition held (s : sys) (d : nat) : list T := flat_map held_msg (ch s d) ++ held_wk (wk s d).

  Definition act (f : nat -> ph) : nat := cnt (fun d => isA (f d)) k.
  Definition msgok (s : sys) (msg : option T) : Prop :=
    match msg with Some t => nth_error tiles (w s) = Some t | None => len <= w s end.

  Definition in_init (f : nat -> ph) (s : sys) (d : nat) : Prop :=
    1 <= d <= S k /\ (forall d', 1 <= d' <= k -> (f d' = F <-> d <= d')) /\
    term s = 0 /\ act f = w s /\ ((p s = k /\ w s = d - 1) \/ (p s = w s /\ w s = len)).
  Definition in_loop (f : nat -> ph) (s : sys) : Prop :=
    (forall d', 1 <= d' <= k -> f d' <> F) /\ act f + term s = p s.

  Definition stage (f : nat -> ph) (s : sys) : Prop :=
    match m s with
    | MInit d => in_init f s d
    | MSend d msg true => d <= k /\ in_init f s d /\ msgok s msg
    | MSend d msg false => 1 <= d <= k /\ in_loop f s /\ msgok s msg
    | MGot d => 1 <= d <= k /\ in_loop f s
    | MWait => in_loop f s
    | MDone => in_loop f s /\ p s <= term s
    end.

  Record inv (f : nat -> ph) (s : sys) : Prop := Inv {
    i_nodup : NoDup (rs s);
    i_rs : forall d, In d (rs s) -> 1 <= d <= k;
    i_shape : forall d, 1 <= d <= k -> shape s d (f d);
    i_stage : stage f s;
    i_x : forall d, 1 <= d <= k -> f d = X -> w s = len;
    i_w : w s <= len;
    i_perm : Permutation (firstn (w s) tiles) (map snd (log s) ++ flat_map (held s) (seq 1 k)) }.

  Lemma inv_init s0 : inv (fun _ => F) (init k s0).
  Proof.
    split; simpl.
    - constructor.
    - contradiction.
    - intros d _. repeat split; auto.
    - repeat split; try lia; auto.
      unfold act, cnt. induction (seq 1 k); simpl; auto.
    - discriminate.
    - lia.
    - induction (seq 1 k); simpl; auto.
  Qed.

  Lemma firstn_S_nth (l : list T) n t : nth_error l n = Some t -> firstn (S n) l = firstn n l ++ [t].
  Proof.
    revert n. induction l as [|x l IH]; intros [|n] H; simpl in *; try discriminate.
    - inversion H. reflexivity.
    - rewrite (IH n) by assumption. reflexivity.
  Qed.

  Lemma act_upd f d x : 1 <= d <= k ->
    act (upd f d x) + (if isA (f d) then 1 else 0) = act f + (if isA x then 1 else 0).
  Proof.
    intros Hd. pose proof (cnt_upd (fun y => isA (upd f d x y)) (fun y => isA (f y)) d k Hd) as C.
    cbv beta in C. rewrite upd_eq in C. apply C. intros y Hy. rewrite upd_ne; auto.
  Qed.

  Ltac sysred := cbn [set_m set_wk set_ch set_rs set_fs add_log m w p term wk ch rs log fs] in *.

  (** Sending to d, buffered or direct, in terms of the resulting queue and
      worker state. *)
  Lemma send_inv f s d msg i cs ws :
    inv f s -> m s = MSend d msg i ->
    (cs = [msg] /\ ws = WRecv \/
     cs = [] /\ ws = match msg with None => WDone | Some t => WBusy t (work t) end) ->
    let s1 := after_send d msg i s in
    exists f', inv f' (Sys (m s1) (w s1) (p s1) (term s1) (upd (wk s1) d ws) (upd (ch s1) d cs) (rs s1) (log s1) (fs s1)).
  Proof.
    intros I Hm Hcs s1.
    pose proof (i_stage f s I) as Hst. unfold stage in Hst. rewrite Hm in Hst.
    set (x := match msg with Some _ => A | None => X end).
    assert (Hd : 1 <= d <= k /\ msgok s msg).
    { destruct i; [destruct Hst as (H1 & (H2 & _) & H3)|destruct Hst as (H1 & _ & H3)]; split; auto; lia. }
    destruct Hd as [Hd Hok].
    pose proof (i_shape f s I d Hd) as Hsh.
    assert (Hold : ch s d = [] /\ wk s d = WRecv /\ ~ In d (rs s)).
    { destruct i.
      - destruct Hst as (_ & (_ & HF & _) & _). assert (E : f d = F) by (apply HF; auto).
        rewrite E in Hsh. destruct Hsh as (? & ? & ? & _). auto.
      - assert (O : owed s d = true) by (unfold owed; rewrite Hm; apply Nat.eqb_refl).
        destruct (f d) eqn:E; simpl in Hsh.
        + destruct Hsh as (_ & _ & _ & C). congruence.
        + destruct Hsh as [(t & _ & _ & _ & C)|[(_ & _ & _ & C)|[(_ & _ & _ & C)|(? & ? & ? & _)]]]; try congruence. auto.
        + destruct Hsh as (_ & C & _). congruence. }
    destruct Hold as (Hch & Hwk & Hrs).
    assert (Fd : f d = if i then F else A).
    { destruct i.
      - destruct Hst as (_ & (_ & HF & _) & _). apply HF; auto.
      - destruct Hst as (_ & (HF & _) & _). destruct (f d) eqn:E; auto.
        + exfalso. eapply HF; eauto.
        + exfalso. simpl in Hsh. destruct Hsh as (_ & C & _). unfold owed in C. rewrite Hm, Nat.eqb_refl in C. discriminate. }
    exists (upd f d x).
    assert (W1 : w s1 <= len).
    { pose proof (i_w f s I). subst s1 x. destruct msg; simpl in *.
      - assert (nth_error tiles (w s) <> None) by congruence. apply nth_error_Some in H0. lia.
      - destruct i; simpl; lia. }
    assert (RS : rs s1 = rs s) by (subst s1; destruct msg, i; reflexivity).
    assert (LOG : log s1 = log s) by (subst s1; destruct msg, i; reflexivity).
    assert (WK : wk s1 = wk s) by (subst s1; destruct msg, i; reflexivity).
    assert (CH : ch s1 = ch s) by (subst s1; destruct msg, i; reflexivity).
    assert (MM : m s1 = if i then MInit (S d) else MWait) by (subst s1; destruct msg, i; reflexivity).
    split; sysred; rewrite ?RS, ?LOG, ?WK, ?CH, ?MM.
    - apply (i_nodup f s I).
    - apply (i_rs f s I).
    - intros d' Hd'.
      assert (OW : forall d'', owed (Sys (if i then MInit (S d) else MWait) (w s1) (p s1) (term s1) (upd (wk s) d ws) (upd (ch s) d cs) (rs s) (log s) (fs s1)) d'' = false).
      { intros d''. unfold owed; simpl. destruct i; reflexivity. }
      destruct (Nat.eq_dec d' d) as [->|Ne].
      + rewrite upd_eq. subst x. unfold shape. rewrite OW. cbn [ch wk rs]. rewrite !upd_eq.
        destruct Hcs as [[-> ->]|[-> ->]]; destruct msg as [t|].
        * left. exists t. auto.
        * auto.
        * right. left. simpl. auto.
        * auto.
      + rewrite upd_ne by exact Ne.
        pose proof (i_shape f s I d' Hd') as Sh.
        assert (O' : owed s d' = false).
        { unfold owed. rewrite Hm. destruct i; [reflexivity|]. apply Nat.eqb_neq. auto. }
        unfold shape in *. rewrite OW. cbn [ch wk rs]. rewrite !upd_ne by exact Ne. rewrite O' in Sh. exact Sh.
    - unfold stage. cbn [m]. destruct i.
      + destruct Hst as (H1 & (H2 & HF & HT & HA & HP) & H3).
        assert (AC := act_upd f d x Hd). rewrite Fd in AC. simpl in AC.
        unfold in_init. subst s1 x. destruct msg as [t|]; cbn [after_send w p term isA] in *.
        * split; [lia|]. split.
          { intros d' Hd'. destruct (Nat.eq_dec d' d) as [->|Ne].
            - rewrite upd_eq. split; [discriminate|lia].
            - rewrite upd_ne by exact Ne. rewrite HF by exact Hd'. lia. }
          split; [exact HT|]. split; [lia|].
          assert (nth_error tiles (w s) <> None) as NN by (simpl in Hok; congruence). apply nth_error_Some in NN. lia.
        * split; [lia|]. split.
          { intros d' Hd'. destruct (Nat.eq_dec d' d) as [->|Ne].
            - rewrite upd_eq. split; [discriminate|lia].
            - rewrite upd_ne by exact Ne. rewrite HF by exact Hd'. lia. }
          split; [exact HT|]. split; [lia|]. right. simpl in Hok. lia.
      + destruct Hst as (H1 & (HF & HA) & H3).
        assert (AC := act_upd f d x Hd). rewrite Fd in AC. simpl in AC.
        unfold in_loop. subst s1 x. destruct msg as [t|]; cbn [after_send w p term isA] in *.
        * split; [|lia]. intros d' Hd'. destruct (Nat.eq_dec d' d) as [->|Ne]; [rewrite upd_eq; discriminate|rewrite upd_ne; auto].
        * split; [|lia]. intros d' Hd'. destruct (Nat.eq_dec d' d) as [->|Ne]; [rewrite upd_eq; discriminate|rewrite upd_ne; auto].
    - intros d' Hd' E. pose proof (i_w f s I).
      destruct msg as [t|].
      + exfalso. simpl in Hok. assert (NN : nth_error tiles (w s) <> None) by congruence. apply nth_error_Some in NN.
        destruct (Nat.eq_dec d' d) as [->|Ne]; [rewrite upd_eq in E; subst x; discriminate|].
        rewrite upd_ne in E by exact Ne. pose proof (i_x f s I d' Hd' E). lia.
      + simpl in Hok. subst s1. destruct i; simpl; lia.
    - exact W1.
    - pose proof (i_perm f s I) as P.
      set (h' := held (Sys _ _ _ _ _ _ _ _ _)).
      destruct (flat_map_upd (held s) h' d k Hd) as (r & R1 & R2).
      { intros y Hy. unfold h', held. simpl. rewrite !upd_ne by exact Hy. reflexivity. }
      assert (E0 : held s d = []) by (unfold held; rewrite Hch, Hwk; reflexivity).
      assert (E1 : h' d = held_msg msg).
      { unfold h', held. cbn [ch wk]. rewrite !upd_eq. destruct Hcs as [[-> ->]|[-> ->]]; destruct msg; reflexivity. }
      rewrite R1, E0 in P. rewrite R2, E1. simpl in P.
      subst s1. destruct msg as [t|]; cbn [after_send w held_msg].
      + rewrite (firstn_S_nth _ _ t) by exact Hok. rewrite P. rewrite <- app_assoc.
        apply Permutation_app_head. apply Permutation_app_comm.
      + destruct i; simpl; exact P.
  Qed.

  Lemma upd_same {B} (g : nat -> B) d v : g d = v -> forall x, upd g d v x = g x.
  Proof. intros E x. destruct (Nat.eq_dec x d) as [->|N]; [rewrite upd_eq; auto|apply upd_ne; exact N]. Qed.

  (** States that differ by pointwise equal functions. *)
  Lemma inv_ext f s s' : m s = m s' -> w s = w s' -> p s = p s' -> term s = term s' ->
    (forall d, wk s d = wk s' d) -> (forall d, ch s d = ch s' d) -> rs s = rs s' -> log s = log s' ->
    inv f s -> inv f s'.
  Proof.
    intros E1 E2 E3 E4 E5 E6 E7 E8 [H1 H2 H3 H4 H5 H6 H7].
    assert (O : forall d, owed s' d = owed s d) by (intros; unfold owed; rewrite E1; reflexivity).
    split.
    - rewrite <- E7; exact H1.
    - rewrite <- E7; exact H2.
    - intros d Hd. specialize (H3 d Hd). unfold shape in *. rewrite O, <- E5, <- E6, <- E7. exact H3.
    - unfold stage, in_init, in_loop, msgok in *. rewrite <- E1, <- E2, <- E3, <- E4. exact H4.
    - rewrite <- E2; exact H5.
    - rewrite <- E2; exact H6.
    - rewrite <- E2, <- E8.
      rewrite (flat_map_ext_in' (held s') (held s)); [exact H7|].
      intros x _. unfold held. rewrite E5, E6. reflexivity.
  Qed.

  (** A master move that only changes its program point. *)
  Lemma inv_m f s v : inv f s -> stage f (set_m s v) ->
    (forall d, owed (set_m s v) d = owed s d) -> inv f (set_m s v).
  Proof.
    intros [H1 H2 H3 H4 H5 H6 H7] St1 O. split; sysred; auto.
    intros d Hd. specialize (H3 d Hd). unfold shape in *. rewrite O. exact H3.
  Qed.

  Lemma inv_fs f s v : inv f s -> inv f (set_fs s v).
  Proof. apply inv_ext; reflexivity. Qed.

  Lemma busy_shape s d x : shape s d x -> busy (wk s d) ->
    x = A /\ ch s d = [] /\ ~ In d (rs s) /\ owed s d = false.
  Proof.
    intros Sh B. destruct x; simpl in Sh.
    - destruct Sh as (_ & E & _). rewrite E in B. contradiction.
    - destruct Sh as [(t & _ & E & _)|[(E1 & _ & E3 & E4)|[(_ & E & _)|(_ & E & _)]]];
        try (rewrite E in B; contradiction). auto.
    - destruct Sh as (_ & _ & [[_ E]|[_ E]]); rewrite E in B; contradiction.
  Qed.

  Lemma inv_step b s s' : (exists f, inv f s) -> step b s s' -> exists f', inv f' s'.
  Proof.
    intros (f & I) Hs. destruct Hs.
    - (* init pick *)
      exists f. pose proof (i_stage f s I) as St1. unfold stage in St1. rewrite H in St1.
      unfold pick. destruct (nth_error tiles (w s)) as [t|] eqn:E.
      + apply (inv_m f (set_fs s (cut t (fs s)))).
        * apply inv_fs. exact I.
        * split; [exact H0|]. split; [exact St1|exact E].
        * intros d'. unfold owed; sysred. rewrite H. reflexivity.
      + apply inv_m; [exact I| |].
        * apply nth_error_None in E. split; [exact H0|]. split; [exact St1|exact E].
        * intros d'. unfold owed; sysred. rewrite H. reflexivity.
    - exists f. pose proof (i_stage f s I) as St1. unfold stage in St1. rewrite H in St1.
      apply inv_m; [exact I| |].
      + unfold stage, in_loop; sysred. destruct St1 as (D1 & D2 & D3 & D4 & D5).
        split; [intros d' Hd' C; apply D2 in C; lia|].
        destruct D5 as [[-> ?]|[-> ?]]; lia.
      + intros d'. unfold owed; sysred. rewrite H. reflexivity.
    - exists f. pose proof (i_stage f s I) as St1. unfold stage in St1. rewrite H in St1.
      apply inv_m; [exact I| |].
      + unfold stage; sysred. split; [exact St1|exact H0].
      + intros d'. unfold owed; sysred. rewrite H. reflexivity.
    - (* receive result *)
      exists f. pose proof (i_stage f s I) as St1. unfold stage in St1. rewrite H in St1.
      pose proof (i_nodup f s I) as ND. rewrite H1 in ND.
      assert (Dr : 1 <= d <= k) by (apply (i_rs f s I); rewrite H1; apply in_elt).
      destruct I as [J1 J2 J3 J4 J5 J6 J7].
      split; sysred; auto.
      + apply NoDup_remove_1 in ND. exact ND.
      + intros d' Hd'. apply J2. rewrite H1. apply in_app_iff in Hd'. apply in_app_iff. simpl. tauto.
      + intros d' Hd'. specialize (J3 d' Hd').
        assert (O : forall x, owed s x = false) by (intros; unfold owed; rewrite H; reflexivity).
        assert (InR : In d' (l ++ l') <-> In d' (rs s) /\ d' <> d).
        { rewrite H1. rewrite !in_app_iff. simpl. apply NoDup_remove_2 in ND. rewrite in_app_iff in ND.
          split.
          - intros C. split; [tauto|]. intros ->. tauto.
          - intros [[C|[C|C]] N]; try tauto. congruence. }
        unfold shape in *. rewrite O in J3.
        unfold owed at 1 2 3 4 5 6; sysred.
        destruct (Nat.eq_dec d' d) as [->|Ne].
        * rewrite Nat.eqb_refl.
          assert (In d (rs s)) by (rewrite H1; apply in_elt).
          destruct (f d); [tauto| |tauto].
          right; right; right. destruct J3 as [(t & ? & ? & ? & ?)|[J3|[J3|J3]]]; try tauto; intuition congruence.
        * replace (d =? d') with false by (symmetry; apply Nat.eqb_neq; auto).
          assert (InR' : In d' (l ++ l') <-> In d' (rs s)) by tauto.
          destruct (f d'); setoid_rewrite InR'; exact J3.
      + unfold stage; sysred. split; [exact Dr|exact St1].
    - (* pick in loop *)
      exists f. pose proof (i_stage f s I) as St1. unfold stage in St1. rewrite H in St1.
      unfold pick. destruct (nth_error tiles (w s)) as [t|] eqn:E.
      + apply (inv_m f (set_fs s (cut t (fs s)))).
        * apply inv_fs. exact I.
        * split; [apply St1|]. split; [apply St1|exact E].
        * intros d'. unfold owed; sysred. rewrite H. reflexivity.
      + apply inv_m; [exact I| |].
        * apply nth_error_None in E. split; [apply St1|]. split; [apply St1|exact E].
        * intros d'. unfold owed; sysred. rewrite H. reflexivity.
    - (* buffered send *)
      assert (C : ch s d = [] /\ wk s d = WRecv).
      { pose proof (i_stage f s I) as St1. unfold stage in St1. rewrite H in St1. destruct i.
        - destruct St1 as (D0 & (D1 & D2 & _) & _).
          pose proof (i_shape f s I d ltac:(lia)) as Sh.
          rewrite (proj2 (D2 d ltac:(lia)) ltac:(lia)) in Sh. simpl in Sh. tauto.
        - destruct St1 as (D0 & (D1 & _) & _).
          pose proof (i_shape f s I d D0) as Sh.
          assert (O : owed s d = true) by (unfold owed; rewrite H; apply Nat.eqb_refl).
          destruct (f d) eqn:Ef; simpl in Sh; rewrite O in Sh.
          + exfalso. eapply D1; eauto.
          + destruct Sh as [(t & ? & ? & ? & ?)|[Sh|[Sh|Sh]]]; try (exfalso; intuition congruence); tauto.
          + exfalso. intuition congruence. }
      destruct C as [C1 C2].
      destruct (send_inv f s d msg i [msg] WRecv I H) as (f' & I').
      { left. auto. }
      exists f'. eapply inv_ext; [..|exact I']; destruct msg, i; sysred; try reflexivity; intros d';
        sysred; rewrite ?C1; cbn [after_send set_ch wk ch app]; rewrite ?C1; try reflexivity; apply upd_same; assumption.
    - (* direct send *)
      destruct (send_inv f s d msg i [] (match msg with None => WDone | Some t => WBusy t (work t) end) I H) as (f' & I').
      { right. auto. }
      exists f'. eapply inv_ext; [..|exact I']; destruct msg, i; sysred; try reflexivity; intros d';
        cbn [accept after_send set_wk wk ch]; try reflexivity; apply upd_same; assumption.
    - (* worker receives *)
      exists f. destruct I as [J1 J2 J3 J4 J5 J6 J7].
      pose proof (J3 d H) as Sh.
      assert (Q : q = []).
      { unfold shape in Sh. rewrite H1 in Sh. destruct (f d).
        - destruct Sh; discriminate.
        - destruct Sh as [(t & E & _)|[[E _]|[[E _]|[E _]]]]; try discriminate. congruence.
        - destruct Sh as (_ & _ & [[E _]|[E _]]); [congruence|discriminate]. }
      subst q.
      assert (OW : forall d', owed (accept work d msg (set_ch s d [])) d' = owed s d') by (intros; destruct msg; reflexivity).
      assert (WKE : wk (accept work d msg (set_ch s d [])) = upd (wk s) d (match msg with None => WDone | Some t => WBusy t (work t) end)) by (destruct msg; reflexivity).
      assert (CHE : ch (accept work d msg (set_ch s d [])) = upd (ch s) d []) by (destruct msg; reflexivity).
      assert (ME : m (accept work d msg (set_ch s d [])) = m s) by (destruct msg; reflexivity).
      assert (WE : w (accept work d msg (set_ch s d [])) = w s) by (destruct msg; reflexivity).
      assert (PE : p (accept work d msg (set_ch s d [])) = p s) by (destruct msg; reflexivity).
      assert (TE : term (accept work d msg (set_ch s d [])) = term s) by (destruct msg; reflexivity).
      assert (RE : rs (accept work d msg (set_ch s d [])) = rs s) by (destruct msg; reflexivity).
      assert (LE : log (accept work d msg (set_ch s d [])) = log s) by (destruct msg; reflexivity).
      split.
      + rewrite RE; exact J1.
      + rewrite RE; exact J2.
      + intros d' Hd'. unfold shape. rewrite OW, WKE, CHE, RE.
        destruct (Nat.eq_dec d' d) as [->|Ne].
        * rewrite !upd_eq. unfold shape in Sh. rewrite H1, H0 in Sh. destruct (f d).
          -- destruct Sh; discriminate.
          -- destruct Sh as [(t & E & _ & N & O)|[[E _]|[[E _]|[E _]]]]; try discriminate.
             inversion E; subst msg. right. left. simpl. auto.
          -- destruct Sh as (N & O & [[E _]|[E _]]); [|discriminate]. inversion E; subst msg. auto.
        * rewrite !upd_ne by exact Ne. apply (J3 d' Hd').
      + unfold stage, in_init, in_loop, msgok in *. rewrite ME, WE, PE, TE. exact J4.
      + rewrite WE; exact J5.
      + rewrite WE; exact J6.
      + rewrite WE, LE. rewrite J7. apply Permutation_app_head.
        destruct (flat_map_upd (held s) (held (accept work d msg (set_ch s d []))) d k H) as (r & R1 & R2).
        { intros y Hy. unfold held. rewrite WKE, CHE, !upd_ne by exact Hy. reflexivity. }
        rewrite R1, R2. unfold held. rewrite WKE, CHE, !upd_eq, H0, H1. destruct msg; reflexivity.
    - (* action succeeds *)
      exists f. destruct I as [J1 J2 J3 J4 J5 J6 J7]. split; sysred; auto.
      + intros d' Hd'. specialize (J3 d' Hd'). unfold shape in *. sysred.
        assert (O : owed (set_fs (set_wk s d (WBusy t r)) f0) d' = owed s d') by reflexivity. rewrite O.
        destruct (Nat.eq_dec d' d) as [->|Ne].
        * rewrite upd_eq. destruct (busy_shape s d (f d) J3) as (EA & E1 & E2 & E3); [rewrite H0; exact Logic.I|].
          rewrite EA. right. left. simpl. auto.
        * rewrite upd_ne by exact Ne. exact J3.
      + rewrite J7. apply Permutation_app_head.
        destruct (flat_map_upd (held s) (held (set_fs (set_wk s d (WBusy t r)) f0)) d k H) as (q & R1 & R2).
        { intros y Hy. unfold held. sysred. rewrite !upd_ne by exact Hy. reflexivity. }
        rewrite R1, R2. unfold held. sysred. rewrite upd_eq, H0. reflexivity.
    - (* action raises *)
      exists f. destruct I as [J1 J2 J3 J4 J5 J6 J7]. split; sysred; auto.
      + intros d' Hd'. specialize (J3 d' Hd'). unfold shape in *. sysred.
        assert (O : owed (set_wk s d (WFail t)) d' = owed s d') by reflexivity. rewrite O.
        destruct (Nat.eq_dec d' d) as [->|Ne].
        * rewrite upd_eq. destruct (busy_shape s d (f d) J3) as (EA & E1 & E2 & E3); [rewrite H0; exact Logic.I|].
          rewrite EA. right. left. simpl. auto.
        * rewrite upd_ne by exact Ne. exact J3.
      + rewrite J7. apply Permutation_app_head.
        destruct (flat_map_upd (held s) (held (set_wk s d (WFail t))) d k H) as (q & R1 & R2).
        { intros y Hy. unfold held. sysred. rewrite !upd_ne by exact Hy. reflexivity. }
        rewrite R1, R2. unfold held. sysred. rewrite upd_eq, H0. reflexivity.
    - (* processing finishes *)
      exists f. destruct I as [J1 J2 J3 J4 J5 J6 J7]. split; sysred; auto.
      + intros d' Hd'. specialize (J3 d' Hd'). unfold shape in *. sysred.
        assert (O : owed (add_log (set_wk s d WSend) (d, t)) d' = owed s d') by reflexivity. rewrite O.
        destruct (Nat.eq_dec d' d) as [->|Ne].
        * rewrite upd_eq. destruct (busy_shape s d (f d) J3) as (EA & E1 & E2 & E3); [rewrite H0; exact Logic.I|].
          rewrite EA. right. left. simpl. auto.
        * rewrite upd_ne by exact Ne. exact J3.
      + destruct (flat_map_upd (held s) (held (add_log (set_wk s d WSend) (d, t))) d k H) as (q & R1 & R2).
        { intros y Hy. unfold held. sysred. rewrite !upd_ne by exact Hy. reflexivity. }
        assert (E0 : ch s d = []).
        { destruct (busy_shape s d (f d) (J3 d H)) as (EA & E1 & E2 & E3); [rewrite H0; exact Logic.I|]. exact E1. }
        rewrite J7, R1, R2. unfold held. sysred. rewrite upd_eq, H0, E0. cbn [map snd flat_map held_wk app].
        symmetry. apply Permutation_middle.
    - (* result buffered *)
      exists f. destruct I as [J1 J2 J3 J4 J5 J6 J7].
      assert (Sd : ch s d = [] /\ ~ In d (rs s) /\ owed s d = false /\ f d = A).
      { destruct (busy_shape s d (f d) (J3 d H)) as (EA & E1 & E2 & E3); [rewrite H0; exact Logic.I|]. auto. }
      destruct Sd as (C0 & N0 & O0 & F0).
      split; sysred; auto.
      + apply (Permutation_NoDup (Permutation_cons_append (rs s) d)). constructor; assumption.
      + intros d' Hd'. apply in_app_iff in Hd'. destruct Hd' as [Hd'|[<-|[]]]; auto.
      + intros d' Hd'. specialize (J3 d' Hd'). unfold shape in *. sysred.
        assert (O : owed (set_rs (set_wk s d WRecv) (rs s ++ [d])) d' = owed s d') by reflexivity. rewrite O.
        assert (InR : In d' (rs s ++ [d]) <-> In d' (rs s) \/ d' = d).
        { rewrite in_app_iff. simpl. intuition. }
        destruct (Nat.eq_dec d' d) as [->|Ne].
        * rewrite upd_eq, F0. right. right. left. intuition.
        * rewrite upd_ne by exact Ne.
          assert (InR' : In d' (rs s ++ [d]) <-> In d' (rs s)) by tauto.
          destruct (f d'); setoid_rewrite InR'; exact J3.
      + rewrite J7. apply Permutation_app_head.
        destruct (flat_map_upd (held s) (held (set_rs (set_wk s d WRecv) (rs s ++ [d]))) d k H) as (q & R1 & R2).
        { intros y Hy. unfold held. sysred. rewrite !upd_ne by exact Hy. reflexivity. }
        rewrite R1, R2. unfold held. sysred. rewrite upd_eq, H0. reflexivity.
    - (* result direct *)
      exists f. destruct I as [J1 J2 J3 J4 J5 J6 J7].
      assert (Sd : ch s d = [] /\ ~ In d (rs s) /\ owed s d = false /\ f d = A).
      { destruct (busy_shape s d (f d) (J3 d H)) as (EA & E1 & E2 & E3); [rewrite H0; exact Logic.I|]. auto. }
      destruct Sd as (C0 & N0 & O0 & F0).
      split; sysred; auto.
      + intros d' Hd'. specialize (J3 d' Hd'). unfold shape in *. sysred.
        assert (O : owed (set_m (set_wk s d WRecv) (MGot d)) d' = (d =? d')) by reflexivity. rewrite O.
        assert (O1 : owed s d' = false) by (unfold owed; rewrite H1; reflexivity). rewrite O1 in J3.
        destruct (Nat.eq_dec d' d) as [->|Ne].
        * rewrite upd_eq, F0, Nat.eqb_refl. right. right. right. intuition.
        * rewrite upd_ne by exact Ne. replace (d =? d') with false by (symmetry; apply Nat.eqb_neq; auto). exact J3.
      + unfold stage in *; sysred. rewrite H1 in J4. split; [exact H|exact J4].
      + rewrite J7. apply Permutation_app_head.
        destruct (flat_map_upd (held s) (held (set_m (set_wk s d WRecv) (MGot d))) d k H) as (q & R1 & R2).
        { intros y Hy. unfold held. sysred. rewrite !upd_ne by exact Hy. reflexivity. }
        rewrite R1, R2. unfold held. sysred. rewrite upd_eq, H0. reflexivity.
  Qed.

  Lemma reach_inv s0 s : reach cut work tiles k s0 s -> exists f, inv f s.
  Proof.
    intros (n & R). unfold reach_n in R. remember (init k s0) as i eqn:Ei. induction R.
    - subst. eexists. apply inv_init.
    - eapply inv_step; [apply IHR; exact Ei|exact H].
  Qed.

  (** ** Termination *)

  Definition tile_cost (t : T) : nat := 10 + length (work t).
  Definition total_cost : nat := list_sum (map tile_cost tiles) + 3 * k + 3.

  Definition msg_w (x : option T) : nat := match x with Some t => 7 + length (work t) | None => 1 end.
  Definition wk_w (x : wst T St) : nat := match x with WBusy _ r => 6 + length r | WSend => 5 | _ => 0 end.
  Definition slot_w (s : sys) (d : nat) : nat := list_sum (map msg_w (ch s d)) + wk_w (wk s d).
  Definition m_w (s : sys) : nat :=
    match m s with
    | MInit d => 3 * (S k - d) + 3
    | MSend d _ true => 3 * (S k - d) + 2
    | MSend _ _ false => 3
    | MGot _ => 4 | MWait => 1 | MDone => 0 end.
  Definition measure (s : sys) : nat :=
    list_sum (map tile_cost (skipn (w s) tiles)) + list_sum (map (slot_w s) (seq 1 k)) + 4 * length (rs s) + m_w s.

  Lemma sum_upd (f g : nat -> nat) d : 1 <= d <= k -> (forall x, x <> d -> f x = g x) ->
    list_sum (map f (seq 1 k)) + g d = list_sum (map g (seq 1 k)) + f d.
  Proof.
    intros Hd H. destruct (split_at d k Hd) as (l & P & N).
    rewrite (Permutation_list_sum (Permutation_map f P)), (Permutation_list_sum (Permutation_map g P)). simpl.
    assert (E : map f l = map g l). { apply map_ext_in. intros x Hx. apply H. intros ->. contradiction. }
    rewrite E. lia.
  Qed.

  Lemma skipn_nth n t : nth_error tiles n = Some t -> skipn n tiles = t :: skipn (S n) tiles.
  Proof.
    revert n. induction tiles as [|x l IH]; intros [|n] H; simpl in *; try discriminate.
    - inversion H. reflexivity.
    - apply IH. exact H.
  Qed.

  Lemma list_sum_app' (l l' : list nat) : list_sum (l ++ l') = list_sum l + list_sum l'.
  Proof. apply list_sum_app. Qed.

  Lemma slot_ext s s' : (forall d, ch s d = ch s' d) -> (forall d, wk s d = wk s' d) ->
    map (slot_w s) (seq 1 k) = map (slot_w s') (seq 1 k).
  Proof. intros E1 E2. apply map_ext. intros d. unfold slot_w. rewrite E1, E2. reflexivity. Qed.

  Lemma measure_step b f s s' : inv f s -> step b s s' -> measure s' < measure s.
  Proof.
    intros I Hs. pose proof (i_stage f s I) as St1. unfold stage in St1. destruct Hs; unfold measure.
    - rewrite H in St1. unfold pick. destruct (nth_error tiles (w s)); sysred;
        unfold m_w; cbn [m set_m]; rewrite H; rewrite (slot_ext _ s) by reflexivity; lia.
    - sysred. unfold m_w; cbn [m set_m]; rewrite H. rewrite (slot_ext _ s) by reflexivity. lia.
    - sysred. unfold m_w; cbn [m set_m]; rewrite H. rewrite (slot_ext _ s) by reflexivity. lia.
    - sysred. unfold m_w; cbn [m set_m]; rewrite H. rewrite (slot_ext _ s) by reflexivity.
      rewrite H1, !app_length. simpl. lia.
    - unfold pick. destruct (nth_error tiles (w s)); sysred;
        unfold m_w; cbn [m set_m]; rewrite H; rewrite (slot_ext _ s) by reflexivity; lia.
    - rewrite H in St1.
      assert (Hd : 1 <= d <= k /\ msgok s msg).
      { destruct i; [destruct St1 as (H1 & (H2 & _) & H3)|destruct St1 as (H1 & _ & H3)]; split; auto; lia. }
      destruct Hd as [Hd Hok].
      set (s1 := after_send d msg i (set_ch s d (ch s d ++ [msg]))).
      assert (CH : ch s1 = upd (ch s) d (ch s d ++ [msg])) by (subst s1; destruct msg, i; reflexivity).
      assert (WK : wk s1 = wk s) by (subst s1; destruct msg, i; reflexivity).
      assert (RS : rs s1 = rs s) by (subst s1; destruct msg, i; reflexivity).
      pose proof (sum_upd (slot_w s1) (slot_w s) d Hd) as SU.
      assert (SD : slot_w s1 d = slot_w s d + msg_w msg).
      { unfold slot_w. rewrite CH, WK, upd_eq, map_app, list_sum_app. simpl. lia. }
      assert (SN : forall x, x <> d -> slot_w s1 x = slot_w s x).
      { intros x Hx. unfold slot_w. rewrite CH, WK, upd_ne by exact Hx. reflexivity. }
      specialize (SU SN). rewrite RS.
      assert (MW : m_w s = if i then 3 * (S k - d) + 2 else 3) by (unfold m_w; rewrite H; reflexivity).
      rewrite MW.
      destruct msg as [t|].
      + simpl in Hok. assert (WS : w s1 = S (w s)) by (subst s1; destruct i; reflexivity).
        rewrite WS, (skipn_nth _ _ Hok). cbn [map list_sum fold_right]. unfold tile_cost at 2.
        cbn [msg_w] in SD.
        assert (MW1 : m_w s1 = if i then 3 * (S k - S d) + 3 else 1) by (subst s1; destruct i; reflexivity).
        change (fold_right Nat.add 0 (map tile_cost (skipn (S (w s)) tiles))) with (list_sum (map tile_cost (skipn (S (w s)) tiles))).
        rewrite MW1. destruct i; lia.
      + assert (WS : w s1 = w s) by (subst s1; destruct i; reflexivity).
        rewrite WS. cbn [msg_w] in SD.
        assert (MW1 : m_w s1 = if i then 3 * (S k - S d) + 3 else 1) by (subst s1; destruct i; reflexivity).
        rewrite MW1. destruct i; lia.
    - rewrite H in St1.
      assert (Hd : 1 <= d <= k /\ msgok s msg).
      { destruct i; [destruct St1 as (H3 & (H4 & _) & H5)|destruct St1 as (H3 & _ & H5)]; split; auto; lia. }
      destruct Hd as [Hd Hok].
      set (s1 := accept work d msg (after_send d msg i s)).
      assert (CH : ch s1 = ch s) by (subst s1; destruct msg, i; reflexivity).
      assert (WK : wk s1 = upd (wk s) d (match msg with None => WDone | Some t => WBusy t (work t) end)) by (subst s1; destruct msg, i; reflexivity).
      assert (RS : rs s1 = rs s) by (subst s1; destruct msg, i; reflexivity).
      pose proof (sum_upd (slot_w s1) (slot_w s) d Hd) as SU.
      assert (SD : slot_w s1 d <= slot_w s d + msg_w msg).
      { unfold slot_w. rewrite CH, WK, upd_eq. destruct msg; simpl; lia. }
      assert (SN : forall x, x <> d -> slot_w s1 x = slot_w s x).
      { intros x Hx. unfold slot_w. rewrite CH, WK, upd_ne by exact Hx. reflexivity. }
      specialize (SU SN). rewrite RS.
      assert (MW : m_w s = if i then 3 * (S k - d) + 2 else 3) by (unfold m_w; rewrite H; reflexivity).
      rewrite MW.
      destruct msg as [t|].
      + simpl in Hok. assert (WS : w s1 = S (w s)) by (subst s1; destruct i; reflexivity).
        rewrite WS, (skipn_nth _ _ Hok). cbn [map list_sum fold_right]. unfold tile_cost at 2.
        cbn [msg_w] in SD.
        assert (MW1 : m_w s1 = if i then 3 * (S k - S d) + 3 else 1) by (subst s1; destruct i; reflexivity).
        change (fold_right Nat.add 0 (map tile_cost (skipn (S (w s)) tiles))) with (list_sum (map tile_cost (skipn (S (w s)) tiles))).
        rewrite MW1. destruct i; lia.
      + assert (WS : w s1 = w s) by (subst s1; destruct i; reflexivity).
        rewrite WS. cbn [msg_w] in SD.
        assert (MW1 : m_w s1 = if i then 3 * (S k - S d) + 3 else 1) by (subst s1; destruct i; reflexivity).
        rewrite MW1. destruct i; lia.
    - set (s1 := accept work d msg (set_ch s d q)).
      assert (CH : ch s1 = upd (ch s) d q) by (subst s1; destruct msg; reflexivity).
      assert (WK : wk s1 = upd (wk s) d (match msg with None => WDone | Some t => WBusy t (work t) end)) by (subst s1; destruct msg; reflexivity).
      pose proof (sum_upd (slot_w s1) (slot_w s) d H) as SU.
      assert (SD : slot_w s1 d < slot_w s d).
      { unfold slot_w. rewrite CH, WK, !upd_eq, H0, H1. destruct msg; simpl; lia. }
      assert (SN : forall x, x <> d -> slot_w s1 x = slot_w s x).
      { intros x Hx. unfold slot_w. rewrite CH, WK, !upd_ne by exact Hx. reflexivity. }
      specialize (SU SN).
      assert (E : w s1 = w s /\ rs s1 = rs s /\ m_w s1 = m_w s) by (subst s1; destruct msg; repeat split).
      destruct E as (-> & -> & ->). lia.
    - set (s1 := set_fs (set_wk s d (WBusy t r)) f0).
      pose proof (sum_upd (slot_w s1) (slot_w s) d H) as SU.
      assert (SD : slot_w s1 d < slot_w s d) by (unfold slot_w, s1; sysred; rewrite upd_eq, H0; simpl; lia).
      assert (SN : forall x, x <> d -> slot_w s1 x = slot_w s x) by (intros x Hx; unfold slot_w, s1; sysred; rewrite upd_ne by exact Hx; reflexivity).
      specialize (SU SN). change (w s1) with (w s). change (rs s1) with (rs s). change (m_w s1) with (m_w s). lia.
    - set (s1 := set_wk s d (WFail t)).
      pose proof (sum_upd (slot_w s1) (slot_w s) d H) as SU.
      assert (SD : slot_w s1 d < slot_w s d) by (unfold slot_w, s1; sysred; rewrite upd_eq, H0; simpl; lia).
      assert (SN : forall x, x <> d -> slot_w s1 x = slot_w s x) by (intros x Hx; unfold slot_w, s1; sysred; rewrite upd_ne by exact Hx; reflexivity).
      specialize (SU SN). change (w s1) with (w s). change (rs s1) with (rs s). change (m_w s1) with (m_w s). lia.
    - set (s1 := add_log (set_wk s d WSend) (d, t)).
      pose proof (sum_upd (slot_w s1) (slot_w s) d H) as SU.
      assert (SD : slot_w s1 d < slot_w s d) by (unfold slot_w, s1; sysred; rewrite upd_eq, H0; simpl; lia).
      assert (SN : forall x, x <> d -> slot_w s1 x = slot_w s x) by (intros x Hx; unfold slot_w, s1; sysred; rewrite upd_ne by exact Hx; reflexivity).
      specialize (SU SN). change (w s1) with (w s). change (rs s1) with (rs s). change (m_w s1) with (m_w s). lia.
    - set (s1 := set_rs (set_wk s d WRecv) (rs s ++ [d])).
      pose proof (sum_upd (slot_w s1) (slot_w s) d H) as SU.
      assert (SD : slot_w s1 d + 5 = slot_w s d) by (unfold slot_w, s1; sysred; rewrite upd_eq, H0; simpl; lia).
      assert (SN : forall x, x <> d -> slot_w s1 x = slot_w s x) by (intros x Hx; unfold slot_w, s1; sysred; rewrite upd_ne by exact Hx; reflexivity).
      specialize (SU SN). change (w s1) with (w s). change (rs s1) with (rs s ++ [d]). change (m_w s1) with (m_w s).
      rewrite app_length. simpl length. lia.
    - set (s1 := set_m (set_wk s d WRecv) (MGot d)).
      pose proof (sum_upd (slot_w s1) (slot_w s) d H) as SU.
      assert (SD : slot_w s1 d + 5 = slot_w s d) by (unfold slot_w, s1; sysred; rewrite upd_eq, H0; simpl; lia).
      assert (SN : forall x, x <> d -> slot_w s1 x = slot_w s x) by (intros x Hx; unfold slot_w, s1; sysred; rewrite upd_ne by exact Hx; reflexivity).
      specialize (SU SN). change (w s1) with (w s). change (rs s1) with (rs s).
      assert (MW : m_w s = 1) by (unfold m_w; rewrite H1; reflexivity). change (m_w s1) with 4. lia.
  Qed.

  Lemma measure_init s0 : measure (init k s0) = total_cost.
  Proof.
    unfold measure, total_cost. cbn [w rs init length].
    change (m_w (init k s0)) with (3 * (S k - 1) + 3).
    assert (E : forall l, list_sum (map (slot_w (init k s0)) l) = 0) by (induction l; simpl; auto).
    rewrite E. rewrite skipn_O. lia.
  Qed.

  Lemma steps_bound s0 n s : reach_n cut work tiles k s0 n s -> n + measure s <= total_cost.
  Proof.
    unfold reach_n. intros R. remember (init k s0) as i eqn:Ei. induction R.
    - subst. rewrite measure_init. lia.
    - specialize (IHR Ei).
      destruct (reach_inv s0 s') as (f & I); [exists n; subst; exact R|].
      pose proof (measure_step b f s' s'' I H). lia.
  Qed.

  (** ** Progress *)

  Lemma dec_ex (P : nat -> bool) : (exists d, 1 <= d <= k /\ P d = true) \/ (forall d, 1 <= d <= k -> P d = false).
  Proof.
    destruct (existsb P (seq 1 k)) eqn:E.
    - left. apply existsb_exists in E. destruct E as (d & I & E). apply in_seq in I. exists d. split; [lia|exact E].
    - right. intros d Hd. destruct (P d) eqn:Ed; [|reflexivity].
      assert (existsb P (seq 1 k) = true) by (apply existsb_exists; exists d; split; [apply in_seq; lia|exact Ed]). congruence.
  Qed.

  Definition runnable (s : sys) (d : nat) : bool :=
    match ch s d, wk s d with
    | _ :: _, WRecv => true
    | _, WBusy _ _ => true
    | _, _ => false
    end.

  Lemma runnable_step s d : 1 <= d <= k -> runnable s d = true -> exists s', step false s s'.
  Proof.
    intros Hd R. unfold runnable in R.
    destruct (wk s d) as [|t r| | |] eqn:Ew; try (destruct (ch s d); discriminate).
    - destruct (ch s d) as [|msg q] eqn:Ec; [discriminate|].
      eexists. eapply w_recv; eauto.
    - destruct r as [|a r].
      + eexists. eapply w_done; eauto.
      + destruct (a (fs s)) eqn:Ea; eexists; [eapply w_ok|eapply w_raise]; eauto.
  Qed.

  Lemma progress f s : inv f s ->
    (exists s', step false s s') \/ finished k s \/
    (m s = MWait /\ rs s = [] /\ act f > 0 /\
     forall d, 1 <= d <= k ->
       (f d = A -> exists t, wk s d = WFail t) /\ (f d = X -> wk s d = WDone /\ ch s d = [])).
  Proof.
    intros I. pose proof (i_stage f s I) as St1. unfold stage in St1.
    destruct (dec_ex (runnable s)) as [(d & Hd & R)|NR]; [left; eapply runnable_step; eauto|].
    assert (XS : forall d, 1 <= d <= k -> f d = X -> wk s d = WDone /\ ch s d = []).
    { intros d Hd E. pose proof (i_shape f s I d Hd) as Sh. rewrite E in Sh. simpl in Sh.
      destruct Sh as (_ & _ & [[C1 C2]|[C1 C2]]); [|auto].
      specialize (NR d Hd). unfold runnable in NR. rewrite C1, C2 in NR. discriminate. }
    destruct (m s) as [d|d|d msg i| |] eqn:Em.
    - left. destruct (le_lt_dec d k); eexists; [eapply st_init|eapply st_init_end]; eauto.
    - left. eexists. eapply st_pick; eauto.
    - left. assert (C : 1 <= d <= k /\ wk s d = WRecv /\ ch s d = []).
      { destruct i.
        - destruct St1 as (D0 & (D1 & D2 & _) & _).
          pose proof (i_shape f s I d ltac:(lia)) as Sh.
          rewrite (proj2 (D2 d ltac:(lia)) ltac:(lia)) in Sh. simpl in Sh. intuition lia.
        - destruct St1 as (D0 & (D1 & _) & _).
          pose proof (i_shape f s I d D0) as Sh.
          assert (O : owed s d = true) by (unfold owed; rewrite Em; apply Nat.eqb_refl).
          destruct (f d) eqn:Ef; simpl in Sh; rewrite O in Sh.
          + exfalso. eapply D1; eauto.
          + destruct Sh as [(t & ? & ? & ? & ?)|[Sh|[Sh|Sh]]]; try (exfalso; intuition congruence); tauto.
          + exfalso. intuition congruence. }
      destruct C as (C0 & C1 & C2). eexists. eapply st_send_direct; eauto.
    - destruct (le_lt_dec (p s) (term s)) as [L|L].
      { left. eexists. eapply st_end; eauto. }
      destruct (rs s) as [|d0 l0] eqn:Er.
      2:{ left. eexists. eapply (st_recv _ _ _ _ s [] d0 l0); eauto. }
      destruct (dec_ex (fun d => match wk s d with WSend => true | _ => false end)) as [(d & Hd & R)|NS].
      { left. eexists. eapply (w_send_direct _ _ _ _ s d); eauto. destruct (wk s d); congruence || discriminate. }
      right. right. destruct St1 as [NF AC].
      split; [reflexivity|]. split; [reflexivity|]. split; [lia|].
      intros d Hd. split; [|auto]. intros E.
      pose proof (i_shape f s I d Hd) as Sh. rewrite E in Sh. simpl in Sh.
      specialize (NR d Hd). specialize (NS d Hd). unfold runnable in NR.
      destruct Sh as [(t & C1 & C2 & _)|[(C1 & C2 & _)|[(_ & _ & C & _)|(_ & _ & _ & C)]]].
      + rewrite C1, C2 in NR. discriminate.
      + rewrite C1 in NR. destruct (wk s d); try discriminate; try contradiction. eauto.
      + rewrite Er in C. contradiction.
      + unfold owed in C. rewrite Em in C. discriminate.
    - right. left. split; [exact Em|]. intros d Hd. apply XS; [exact Hd|].
      destruct St1 as [[NF AC] L]. assert (Z : act f = 0) by lia.
      pose proof (cnt_zero _ _ Z d Hd) as Na. specialize (NF d Hd). cbv beta in Na. destruct (f d); simpl in *; congruence.
  Qed.

  (** The same with the witness of failure made explicit. *)
  Lemma progress_or_fail f s : inv f s ->
    (exists s', step false s s') \/ finished k s \/ (exists d t, 1 <= d <= k /\ wk s d = WFail t).
  Proof.
    intros I. destruct (progress f s I) as [H|[H|(_ & _ & HA & H)]]; auto.
    right. right. destruct (cnt_pos _ _ HA) as (d & Hd & E).
    destruct (H d Hd) as [H1 _]. destruct H1 as (t & Ht); [destruct (f d); simpl in E; congruence|].
    exists d, t. auto.
  Qed.

  Hypothesis Hk : 1 <= k.

  Lemma done_complete f s : inv f s -> m s = MDone ->
    rs s = [] /\ Permutation (map snd (log s)) tiles /\
    forall d, 1 <= d <= k -> (ch s d = [None] /\ wk s d = WRecv) \/ (ch s d = [] /\ wk s d = WDone).
  Proof.
    intros I Em. pose proof (i_stage f s I) as St1. unfold stage in St1. rewrite Em in St1.
    destruct St1 as [[NF AC] L].
    assert (Z : act f = 0) by lia.
    assert (AX : forall d, 1 <= d <= k -> f d = X).
    { intros d Hd. pose proof (cnt_zero _ _ Z d Hd) as Na. specialize (NF d Hd). cbv beta in Na. destruct (f d); simpl in *; congruence. }
    assert (W : w s = len) by (apply (i_x f s I 1); [lia|apply AX; lia]).
    assert (SH : forall d, 1 <= d <= k -> ~ In d (rs s) /\ ((ch s d = [None] /\ wk s d = WRecv) \/ (ch s d = [] /\ wk s d = WDone))).
    { intros d Hd. pose proof (i_shape f s I d Hd) as Sh. rewrite (AX d Hd) in Sh. simpl in Sh. tauto. }
    split; [|split].
    - destruct (rs s) as [|d l] eqn:E; [reflexivity|]. exfalso.
      assert (Hd : 1 <= d <= k) by (apply (i_rs f s I); rewrite E; left; reflexivity).
      apply (proj1 (SH d Hd)). left. reflexivity.
    - pose proof (i_perm f s I) as P. rewrite W, firstn_all in P.
      assert (E : flat_map (held s) (seq 1 k) = []).
      { assert (G : forall l, (forall d, In d l -> 1 <= d <= k) -> flat_map (held s) l = []).
        { induction l as [|d l IH]; intros Hl; [reflexivity|]. simpl. rewrite IH by (intros; apply Hl; right; assumption).
          destruct (SH d (Hl d (or_introl eq_refl))) as [_ [[C1 C2]|[C1 C2]]]; unfold held; rewrite C1, C2; reflexivity. }
        apply G. intros d Hd. apply in_seq in Hd. lia. }
      rewrite E, app_nil_r in P. symmetry. exact P.
    - intros d Hd. apply SH. exact Hd.
  Qed.

  (** ** What the workers have executed *)
  Record aux (s : sys) : Prop := Aux {
    a_busy : forall d t r, wk s d = WBusy t r -> exists dn, work t = dn ++ r /\
               forall a, In a dn -> exists g g', a g = Ok g';
    a_fail : forall d t, wk s d = WFail t -> exists a g e, In a (work t) /\ a g = Err e;
    a_log : forall d t, In (d, t) (log s) -> 1 <= d <= k /\ forall a, In a (work t) -> exists g g', a g = Ok g' }.

  Lemma aux_step b s s' : aux s -> step b s s' -> aux s'.
  Proof.
    intros [A1 A2 A3] Hs. destruct Hs.
    - unfold pick. destruct (nth_error tiles (w s)); split; sysred; auto.
    - split; sysred; auto.
    - split; sysred; auto.
    - split; sysred; auto.
    - unfold pick. destruct (nth_error tiles (w s)); split; sysred; auto.
    - destruct msg, i; split; sysred; auto.
    - assert (G : forall x : wst T St, x = match msg with None => WDone | Some t => WBusy t (work t) end ->
        aux (Sys (m s) (w s) (p s) (term s) (upd (wk s) d x) (ch s) (rs s) (log s) (fs s))).
      { intros x Ex. split; sysred; auto.
        - intros d' t r E. destruct (Nat.eq_dec d' d) as [->|Ne].
          + rewrite upd_eq in E. subst x. destruct msg; [|discriminate]. inversion E; subst. exists []. split; [reflexivity|]. intros a [].
          + rewrite upd_ne in E by exact Ne. eauto.
        - intros d' t E. destruct (Nat.eq_dec d' d) as [->|Ne].
          + rewrite upd_eq in E. subst x. destruct msg; discriminate.
          + rewrite upd_ne in E by exact Ne. eauto. }
      destruct (G _ eq_refl) as [G1 G2 G3]. destruct msg, i; split; sysred; auto.
    - assert (G : forall x : wst T St, x = match msg with None => WDone | Some t => WBusy t (work t) end ->
        aux (Sys (m s) (w s) (p s) (term s) (upd (wk s) d x) (ch s) (rs s) (log s) (fs s))).
      { intros x Ex. split; sysred; auto.
        - intros d' t r E. destruct (Nat.eq_dec d' d) as [->|Ne].
          + rewrite upd_eq in E. subst x. destruct msg; [|discriminate]. inversion E; subst. exists []. split; [reflexivity|]. intros a [].
          + rewrite upd_ne in E by exact Ne. eauto.
        - intros d' t E. destruct (Nat.eq_dec d' d) as [->|Ne].
          + rewrite upd_eq in E. subst x. destruct msg; discriminate.
          + rewrite upd_ne in E by exact Ne. eauto. }
      destruct (G _ eq_refl) as [G1 G2 G3]. destruct msg; split; sysred; auto.
    - split; sysred; auto.
      + intros d' t' r' E. destruct (Nat.eq_dec d' d) as [->|Ne].
        * rewrite upd_eq in E. inversion E; subst. destruct (A1 _ _ _ H0) as (dn & E1 & E2).
          exists (dn ++ [a]). split; [rewrite <- app_assoc; exact E1|].
          intros a' Ha. apply in_app_iff in Ha. destruct Ha as [Ha|[<-|[]]]; eauto.
        * rewrite upd_ne in E by exact Ne. eauto.
      + intros d' t' E. destruct (Nat.eq_dec d' d) as [->|Ne].
        * rewrite upd_eq in E. discriminate.
        * rewrite upd_ne in E by exact Ne. eauto.
    - split; sysred; auto.
      + intros d' t' r' E. destruct (Nat.eq_dec d' d) as [->|Ne].
        * rewrite upd_eq in E. discriminate.
        * rewrite upd_ne in E by exact Ne. eauto.
      + intros d' t' E. destruct (Nat.eq_dec d' d) as [->|Ne].
        * rewrite upd_eq in E. inversion E; subst. destruct (A1 _ _ _ H0) as (dn & E1 & E2).
          exists a, (fs s), e. split; [rewrite E1; apply in_elt|exact H1].
        * rewrite upd_ne in E by exact Ne. eauto.
    - split; sysred; auto.
      + intros d' t' r' E. destruct (Nat.eq_dec d' d) as [->|Ne].
        * rewrite upd_eq in E. discriminate.
        * rewrite upd_ne in E by exact Ne. eauto.
      + intros d' t' E. destruct (Nat.eq_dec d' d) as [->|Ne].
        * rewrite upd_eq in E. discriminate.
        * rewrite upd_ne in E by exact Ne. eauto.
      + intros d' t' [E|E]; [|eauto]. inversion E; subst. split; [exact H|].
        destruct (A1 _ _ _ H0) as (dn & E1 & E2). rewrite E1, app_nil_r. exact E2.
    - split; sysred; auto.
      + intros d' t' r' E. destruct (Nat.eq_dec d' d) as [->|Ne].
        * rewrite upd_eq in E. discriminate.
        * rewrite upd_ne in E by exact Ne. eauto.
      + intros d' t' E. destruct (Nat.eq_dec d' d) as [->|Ne].
        * rewrite upd_eq in E. discriminate.
        * rewrite upd_ne in E by exact Ne. eauto.
    - split; sysred; auto.
      + intros d' t' r' E. destruct (Nat.eq_dec d' d) as [->|Ne].
        * rewrite upd_eq in E. discriminate.
        * rewrite upd_ne in E by exact Ne. eauto.
      + intros d' t' E. destruct (Nat.eq_dec d' d) as [->|Ne].
        * rewrite upd_eq in E. discriminate.
        * rewrite upd_ne in E by exact Ne. eauto.
  Qed.

  Lemma reach_aux s0 s : reach cut work tiles k s0 s -> aux s.
  Proof.
    intros (n & R). unfold reach_n in R. remember (init k s0) as i eqn:Ei. induction R.
    - subst. split; simpl; try discriminate. contradiction.
    - eapply aux_step; [apply IHR; exact Ei|exact H].
  Qed.

  Lemma reach_step s0 b s s' : reach cut work tiles k s0 s -> step b s s' -> reach cut work tiles k s0 s'.
  Proof. intros (n & R) Hs. exists (S n). econstructor; eauto. Qed.

  (** A tile held by a worker is a tile of the list. *)
  Lemma held_in f s d t : inv f s -> 1 <= d <= k -> In t (held s d) -> In t (firstn (w s) tiles).
  Proof.
    intros I Hd H. rewrite (i_perm f s I). apply in_app_iff. right. apply in_flat_map. exists d.
    split; [apply in_seq; lia|exact H].
  Qed.

  Lemma in_firstn n (t : T) l : In t (firstn n l) -> In t l.
  Proof. intros H. rewrite <- (firstn_skipn n l). apply in_app_iff. left. exact H. Qed.

  (** ** Lemmas for the property file *)

  Lemma exactly_once s0 s : reach cut work tiles k s0 s -> m s = MDone ->
    Permutation (map snd (log s)) tiles /\ (forall d t, In (d, t) (log s) -> 1 <= d <= k).
  Proof.
    intros R Em. destruct (reach_inv s0 s R) as (f & I).
    split; [apply (done_complete f s I Em)|]. intros d t H. apply (a_log s (reach_aux s0 s R) d t H).
  Qed.

  (** At every moment no more than the tile list has been processed. *)
  Lemma at_most_once s0 s : reach cut work tiles k s0 s ->
    exists rest, Permutation (map snd (log s) ++ rest) tiles.
  Proof.
    intros R. destruct (reach_inv s0 s R) as (f & I).
    exists (flat_map (held s) (seq 1 k) ++ skipn (w s) tiles).
    rewrite app_assoc, <- (i_perm f s I), firstn_skipn. reflexivity.
  Qed.

  Lemma no_deadlock s0 s : (forall t, In t tiles -> never_raises work t) ->
    reach cut work tiles k s0 s -> finished k s \/ exists s', step false s s'.
  Proof.
    intros NRs R. destruct (reach_inv s0 s R) as (f & I).
    destruct (progress_or_fail f s I) as [H|[H|(d & t & Hd & H)]]; auto. exfalso.
    destruct (a_fail s (reach_aux s0 s R) d t H) as (a & g & e & Ia & Ea).
    assert (It : In t tiles).
    { apply (in_firstn (w s)). eapply held_in; eauto. unfold held. rewrite H. apply in_app_iff. right. left. reflexivity. }
    destruct (NRs t It a g Ia) as (g' & E). congruence.
  Qed.

  Lemma finished_quiet s0 s : reach cut work tiles k s0 s -> finished k s -> quiet k s.
  Proof.
    intros R [Em Hf]. destruct (reach_inv s0 s R) as (f & I).
    destruct (done_complete f s I Em) as (E & _ & H). split; [exact E|].
    intros d Hd. destruct (H d Hd) as [[_ C]|[C _]]; [|exact C]. rewrite (Hf d Hd) in C. discriminate.
  Qed.

  Lemma bounded s0 n s : reach_n cut work tiles k s0 n s -> n <= total_cost.
  Proof. intros R. pose proof (steps_bound s0 n s R). lia. Qed.

  (** Every execution can be continued to one where nothing can move. *)
  Lemma run_to_end s0 s : reach cut work tiles k s0 s ->
    exists s', reach cut work tiles k s0 s' /\ stuck cut work tiles k s'.
  Proof.
    intros R. remember (measure s) as n eqn:En. revert s R En.
    induction n as [n IH] using lt_wf_ind. intros s R En.
    destruct (reach_inv s0 s R) as (f & I).
    destruct (progress f s I) as [(s' & Hs)|[[Em Hf]|(Em & Er & HA & Hf)]].
    - pose proof (measure_step false f s s' I Hs).
      apply (IH (measure s') ltac:(lia) s'); [eapply reach_step; eauto|reflexivity].
    - exists s. split; [exact R|]. intros b s'' Hs. destruct Hs; try congruence; rewrite Hf in H0 by assumption; discriminate.
    - exists s. split; [exact R|]. intros b s'' Hs.
      pose proof (i_stage f s I) as St1. unfold stage in St1. rewrite Em in St1. destruct St1 as [NF AC].
      assert (W : forall d, 1 <= d <= k -> (exists t, wk s d = WFail t) \/ wk s d = WDone).
      { intros d Hd. destruct (Hf d Hd) as [H1 H2]. destruct (f d) eqn:E; [exfalso; eapply NF; eauto|left; auto|right; apply H2; reflexivity]. }
      destruct Hs; try congruence;
        try (destruct (W d ltac:(assumption)) as [(t0 & Wd)|Wd]; congruence).
      + lia.
      + rewrite Er in H1. destruct l; discriminate.
  Qed.

  (** With a tile that always raises, the master never finishes. *)
  Lemma failing_never_done s0 s t : In t tiles -> always_raises work t ->
    reach cut work tiles k s0 s -> m s <> MDone.
  Proof.
    intros It (a & Ia & Ha) R Em. destruct (exactly_once s0 s R Em) as [P _].
    assert (I : In t (map snd (log s))) by (rewrite P; exact It).
    apply in_map_iff in I. destruct I as ([d t'] & E & I). simpl in E. subst t'.
    destruct (a_log s (reach_aux s0 s R) d t I) as [_ H]. destruct (H a Ia) as (g & g' & E).
    destruct (Ha g) as (e & E'). congruence.
  Qed.

  (** What the blocked state looks like. *)
  Lemma blocked_state s0 s : reach cut work tiles k s0 s -> (forall s', ~ step false s s') -> ~ finished k s ->
    m s = MWait /\ quiet k s /\
    (exists d t, 1 <= d <= k /\ wk s d = WFail t /\ In t tiles) /\
    ((forall d, 1 <= d <= k -> exists t, wk s d = WFail t) \/
     (exists lost, Permutation (map snd (log s) ++ lost) tiles /\
        forall t, In t lost -> exists a g e, In a (work t) /\ a g = Err e)).
  Proof.
    intros R St1 NF0. destruct (reach_inv s0 s R) as (f & I).
    destruct (progress f s I) as [(s' & H)|[H|(Em & Er & HA & H)]]; [exfalso; eapply St1; eauto|contradiction|].
    pose proof (i_stage f s I) as St2. unfold stage in St2. rewrite Em in St2. destruct St2 as [NF AC].
    assert (W : forall d, 1 <= d <= k -> ((exists t, wk s d = WFail t) \/ wk s d = WDone) /\ ch s d = []).
    { intros d Hd. destruct (H d Hd) as [H1 H2]. destruct (f d) eqn:E.
      - exfalso. eapply NF; eauto.
      - destruct (H1 eq_refl) as (t & Ht). split; [left; eauto|].
        pose proof (i_shape f s I d Hd) as Sh.
        destruct (busy_shape s d _ Sh) as (_ & C & _); [rewrite Ht; exact Logic.I|exact C].
      - destruct (H2 eq_refl). auto. }
    split; [exact Em|]. split; [split; [exact Er|intros d Hd; apply W; exact Hd]|]. split.
    - destruct (cnt_pos _ _ HA) as (d & Hd & E).
      destruct (H d Hd) as [H1 _]. destruct H1 as (t & Ht); [destruct (f d); simpl in E; congruence|].
      exists d, t. split; [exact Hd|]. split; [exact Ht|]. apply (in_firstn (w s)).
      eapply held_in; eauto. unfold held. rewrite Ht. apply in_app_iff. right. left. reflexivity.
    - destruct (dec_ex (fun d => match f d with X => true | _ => false end)) as [(d & Hd & E)|NX].
      + right. assert (Ed : f d = X) by (destruct (f d); congruence).
        pose proof (i_x f s I d Hd Ed) as Wl. exists (flat_map (held s) (seq 1 k)).
        split; [rewrite <- (i_perm f s I), Wl, firstn_all; reflexivity|].
        intros t It. apply in_flat_map in It. destruct It as (d' & Hd' & It). apply in_seq in Hd'.
        destruct (W d' ltac:(lia)) as [[(t' & Wd)|Wd] C]; unfold held in It; rewrite Wd, C in It; simpl in It; [|contradiction].
        destruct It as [<-|[]]. apply (a_fail s (reach_aux s0 s R) d' t' Wd).
      + left. intros d Hd. specialize (NX d Hd). destruct (f d) eqn:E; [exfalso; eapply NF; eauto| |discriminate].
        apply H; auto.
  Qed.
End Proofs.
