(** * C52 with constructors that call their own class. *)
From Verif Require Import Base BaseLemmas SingModel SingProps SingReModel.

Lemma set_same f t k : set_calls f t k t = k.
Proof. unfold set_calls. rewrite Nat.eqb_refl. reflexivity. Qed.
Lemma set_other f t k u : u <> t -> set_calls f t k u = f u.
Proof. intros H. unfold set_calls. destruct (Nat.eqb_spec u t); [contradiction|reflexivity]. Qed.

(** ** A thread's outermost call behaves as in the model without nesting. *)
Definition outer (k : list pc) : pc := last k Idle.
Definition shape (k : list pc) : Prop := k = [] \/ (exists p, k = [p] /\ p <> Idle) \/ k = [Check1; Construct] \/ k = [Acquire; Construct].
Record sim (r : rstate) (s : state) : Prop := {
  m_inst : s_inst s = r_inst r; m_lock : s_lock s = r_lock r; m_made : s_made s = r_made r; m_rets : s_rets s = r_rets r;
  m_pc : forall u, s_pc s u = outer (r_calls r u);
  m_shape : forall u, shape (r_calls r u)
}.

Lemma sim_step truthy t r r' s : (forall o, truthy o = true) -> locked s -> good s -> sim r s -> rstep truthy t r r' ->
  exists s', (s' = s \/ step truthy t s s') /\ sim r' s'.
Proof.
  intros T L G [M1 M2 M3 M4 M5 M6] H. destruct s as [i0 l0 p0 m0 r0]. cbn [s_inst s_lock s_pc s_made s_rets] in *.
  pose proof (M6 t) as Sh. pose proof (M5 t) as Pt. pose proof (L t) as Lt. cbn [s_pc s_lock] in Lt.
  assert (Stay : forall k i' l' m' rr, shape k -> outer k = p0 t -> (forall u, s_pc (St i' l' p0 m' rr) u = outer (set_calls (r_calls r) t k u)) /\ (forall u, shape (set_calls (r_calls r) t k u))).
  { intros k i' l' m' rr Sk Ok'. split; intros u; destruct (Nat.eq_dec u t) as [->|N]; rewrite ?set_same, ?set_other by exact N; auto. }
  assert (Move : forall q k i' l' m' rr, shape k -> outer k = q -> (forall u, s_pc (St i' l' (goto p0 t q) m' rr) u = outer (set_calls (r_calls r) t k u)) /\ (forall u, shape (set_calls (r_calls r) t k u))).
  { intros q k i' l' m' rr Sk Ok'. cbn [s_pc]. split; intros u; (destruct (Nat.eq_dec u t) as [->|N]; [rewrite ?goto_same, ?set_same|rewrite ?goto_other, ?set_other by exact N]); auto. }
  assert (One : forall p, p <> Idle -> shape [p]) by (intros p Np; right; left; exists p; auto).
  destruct H as [i l p m rr E|i l p m rr k E|i l p m rr k E|i p m rr k E|i l p m rr k E|i l p m rr k E|i l p m rr k E|i l p m rr o k E|i l p m rr k E|i l p m rr k E|i l p m rr k E];
    cbn [r_inst r_lock r_calls r_made r_rets] in *; subst i0 l0 m0 r0; rewrite E in Pt, Sh.
  - (* call *) exists (St i l (goto p0 t Check1) m rr). split; [right; apply st_call; exact Pt|]. destruct (Move Check1 [Check1] i l m rr) as [X Y]; [apply One; discriminate|reflexivity|]. split; auto.
  - (* nested *) assert (k = []) as -> by (destruct Sh as [X|[(q & X & _)|[X|X]]]; congruence). exists (St i l p0 m rr). split; [left; reflexivity|]. destruct (Stay [Check1; Construct] i l m rr) as [X Y]; [right; right; left; reflexivity|symmetry; exact Pt|]. split; auto.
  - (* first test *) destruct k as [|q k'].
    + exists (St i l (goto p0 t (if is_set truthy i then Fetch else Acquire)) m rr). split; [right; apply st_check1; exact Pt|]. destruct (Move (if is_set truthy i then Fetch else Acquire) [if is_set truthy i then Fetch else Acquire] i l m rr) as [X Y]; [apply One; destruct (is_set truthy i); discriminate|reflexivity|]. split; auto.
    + assert (q :: k' = [Construct]) as X0 by (destruct Sh as [X|[(q' & X & _)|[X|X]]]; congruence). injection X0 as -> ->. destruct (g_construct _ G t Pt) as [In _]. cbn [s_inst] in In. subst i. cbn [is_set].
      exists (St None l p0 m rr). split; [left; reflexivity|]. destruct (Stay [Acquire; Construct] None l m rr) as [X Y]; [right; right; right; reflexivity|symmetry; exact Pt|]. split; auto.
  - (* acquire *) destruct k as [|q k'].
    + exists (St i (Some t) (goto p0 t Check2) m rr). split; [right; apply st_acquire; exact Pt|]. destruct (Move Check2 [Check2] i (Some t) m rr) as [X Y]; [apply One; discriminate|reflexivity|]. split; auto.
    + assert (q :: k' = [Construct]) as X0 by (destruct Sh as [X|[(q' & X & _)|[X|X]]]; congruence). injection X0 as -> ->. cbn in Pt. rewrite Pt in Lt. destruct Lt as [Lt _]. discriminate (Lt I).
  - assert (k = []) as -> by (destruct Sh as [X|[(q & X & _)|[X|X]]]; congruence). exists (St i l (goto p0 t (if is_set truthy i then Release else Construct)) m rr). split; [right; apply st_check2; exact Pt|]. destruct (Move (if is_set truthy i then Release else Construct) [if is_set truthy i then Release else Construct] i l m rr) as [X Y]; [apply One; destruct (is_set truthy i); discriminate|reflexivity|]. split; auto.
  - assert (k = []) as -> by (destruct Sh as [X|[(q & X & _)|[X|X]]]; congruence). eexists. split; [right; apply st_construct; exact Pt|]. destruct (Move (Assign (length m)) [Assign (length m)] i l (length m :: m) rr) as [X Y]; [apply One; discriminate|reflexivity|]. split; auto.
  - assert (k = []) as -> by (destruct Sh as [X|[(q & X & _)|[X|X]]]; congruence). eexists. split; [right; apply st_raise; exact Pt|]. destruct (Move ReleaseErr [ReleaseErr] i l m rr) as [X Y]; [apply One; discriminate|reflexivity|]. split; auto.
  - assert (k = []) as -> by (destruct Sh as [X|[(q & X & _)|[X|X]]]; congruence). eexists. split; [right; eapply st_assign; exact Pt|]. destruct (Move Release [Release] (Some o) l m rr) as [X Y]; [apply One; discriminate|reflexivity|]. split; auto.
  - assert (k = []) as -> by (destruct Sh as [X|[(q & X & _)|[X|X]]]; congruence). eexists. split; [right; apply st_release; exact Pt|]. destruct (Move Fetch [Fetch] i None m rr) as [X Y]; [apply One; discriminate|reflexivity|]. split; auto.
  - assert (k = []) as -> by (destruct Sh as [X|[(q & X & _)|[X|X]]]; congruence). eexists. split; [right; apply st_release_err; exact Pt|]. destruct (Move Idle [] i None m rr) as [X Y]; [left; reflexivity|reflexivity|]. split; auto.
  - assert (k = []) as -> by (destruct Sh as [X|[(q & X & _)|[X|X]]]; congruence). eexists. split; [right; apply st_fetch; exact Pt|]. destruct (Move Idle [] i l m (i :: rr)) as [X Y]; [left; reflexivity|reflexivity|]. split; auto.
Qed.
Lemma sim_reachable truthy r : (forall o, truthy o = true) -> rsteps truthy rinit r -> exists s, steps truthy init s /\ sim r s.
Proof.
  intros T H. remember rinit as r0 eqn:E. induction H as [r|r t r' r'' H IH S]; subst.
  - exists init. split; [apply steps_refl|]. split; try reflexivity. intros u. left. reflexivity.
  - destruct (IH eq_refl) as (s & A & B). destruct (sim_step truthy t r' r'' s T (locked_reachable _ _ A) (good_reachable _ _ T A) B S) as (s' & [-> |C] & D); [exists s; auto|].
    exists s'. split; [eapply steps_step; eassumption|exact D].
Qed.

(** At most one object, and every call that returns, returns it: also if constructors call the class. *)
Theorem C52_once_nested : forall truthy s, (forall o, truthy o = true) -> rsteps truthy rinit s ->
  (length (r_made s) <= 1)%nat /\ (forall r, In r (r_rets s) -> exists o, r = Some o /\ r_made s = [o]).
Proof. intros truthy s T H. destruct (sim_reachable _ _ T H) as (s0 & A & B). rewrite <- (m_made _ _ B), <- (m_rets _ _ B). apply (C52_once _ _ T A). Qed.
Print Assumptions C52_once_nested.

(** But such a call never returns, nor does any other from then on, on any thread: nothing is
    constructed and nothing returned any more, and the thread waits for its own lock. *)
Theorem C52_nested_hangs : forall truthy s t k s', (forall o, truthy o = true) -> rsteps truthy rinit s -> r_calls s t = Check1 :: Construct :: k -> rsteps truthy s s' ->
  r_rets s' = r_rets s /\ r_made s' = r_made s /\ r_inst s' = None /\ r_lock s' = Some t /\
  (r_calls s' t = r_calls s t \/ (r_calls s' t = Acquire :: Construct :: k /\ forall s'', ~ rstep truthy t s' s'')) /\
  (forall u, u <> t -> r_calls s' u = [] \/ r_calls s' u = [Check1] \/ r_calls s' u = [Acquire]).
Proof.
  intros truthy s t k s' T R E H.
  assert (K : k = []). { destruct (sim_reachable _ _ T R) as (s0 & A & B). destruct (m_shape _ _ B t) as [X|[(q & X & _)|[X|X]]]; congruence. } subst k.
  assert (J : r_rets s' = r_rets s /\ r_made s' = r_made s /\ r_inst s' = None /\ r_lock s' = Some t /\ (r_calls s' t = [Check1; Construct] \/ r_calls s' t = [Acquire; Construct]) /\ (forall u, u <> t -> r_calls s' u = [] \/ r_calls s' u = [Check1] \/ r_calls s' u = [Acquire])).
  { induction H as [s|s v s' s'' H IH S].
    - destruct (sim_reachable _ _ T R) as (s0 & A & B). pose proof (locked_reachable _ _ A) as L. pose proof (good_reachable _ _ T A) as G. pose proof (m_pc _ _ B t) as Pt. rewrite E in Pt. cbn in Pt. destruct (g_construct _ G t Pt) as [In _]. rewrite (m_inst _ _ B) in In.
      assert (Lk : s_lock s0 = Some t) by (apply L; rewrite Pt; exact I). split; [reflexivity|]. split; [reflexivity|]. split; [exact In|]. split; [rewrite <- (m_lock _ _ B); exact Lk|]. split; [left; exact E|].
      intros u N. pose proof (m_pc _ _ B u) as Pu. assert (NI : ~ inside (s_pc s0 u)) by (intros X; apply L in X; congruence). assert (NF : s_pc s0 u <> Fetch) by (intros X; apply (g_set _ G u (or_intror X)); rewrite (m_inst _ _ B); exact In).
      destruct (m_shape _ _ B u) as [X|[(q & X & Q)|[X|X]]]; rewrite X in *; cbn in Pu; rewrite Pu in *; cbn in NI; [auto| |tauto|tauto]. destruct q; cbn in NI; try tauto; auto.
    - destruct (IH R E) as (J1 & J2 & J3 & J4 & J5 & J6). clear IH.
      destruct (Nat.eq_dec v t) as [->|N].
      + destruct S as [i l p m rr F|i l p m rr k F|i l p m rr k F|i p m rr k F|i l p m rr k F|i l p m rr k F|i l p m rr k F|i l p m rr o k F|i l p m rr k F|i l p m rr k F|i l p m rr k F]; cbn [r_inst r_lock r_calls r_made r_rets] in *; subst; try discriminate; try (destruct J5; congruence).
        assert (k = [Construct]) as -> by (destruct J5; congruence). do 4 (split; [auto; fail|]). split; [right; rewrite set_same; reflexivity|]. intros u Nu. rewrite set_other by exact Nu. auto.
      + specialize (J6 v N) as Jv.
        destruct S as [i l p m rr F|i l p m rr k F|i l p m rr k F|i p m rr k F|i l p m rr k F|i l p m rr k F|i l p m rr k F|i l p m rr o k F|i l p m rr k F|i l p m rr k F|i l p m rr k F]; cbn [r_inst r_lock r_calls r_made r_rets] in *; subst; try discriminate; try (destruct Jv as [Jv|[Jv|Jv]]; congruence).
        * do 4 (split; [auto; fail|]). rewrite set_other by congruence. split; [exact J5|]. intros u Nu. destruct (Nat.eq_dec u v) as [->|D]; [rewrite set_same; auto|rewrite set_other by exact D; auto].
        * assert (k = []) as -> by (destruct Jv as [Jv|[Jv|Jv]]; congruence). do 4 (split; [auto; fail|]). rewrite set_other by congruence. split; [exact J5|]. intros u Nu. destruct (Nat.eq_dec u v) as [->|D]; [rewrite set_same; auto|rewrite set_other by exact D; auto]. }
  destruct J as (J1 & J2 & J3 & J4 & J5 & J6). do 4 (split; [assumption|]). split; [|exact J6]. rewrite E. destruct J5 as [J5|J5]; [left; exact J5|right]. split; [exact J5|].
  intros s'' S. destruct S; cbn [r_calls r_lock] in *; congruence.
Qed.
Print Assumptions C52_nested_hangs.

(** That is the only way to hang: if no constructor waits for its own lock and some thread is in
    a call, some thread in a call can move. *)
Theorem C52_no_other_hang : forall truthy s t, (forall o, truthy o = true) -> rsteps truthy rinit s -> r_calls s t <> [] -> (forall u k, r_calls s u <> Acquire :: Construct :: k) ->
  exists u s', r_calls s u <> [] /\ rstep truthy u s s'.
Proof.
  intros truthy s t T R N W. destruct (sim_reachable _ _ T R) as (s0 & A & B). pose proof (locked_reachable _ _ A) as L. pose proof (m_shape _ _ B) as Sh. pose proof (m_pc _ _ B) as Pc. pose proof (m_lock _ _ B) as Lk. destruct s as [i l p m r]. cbn [r_calls r_lock] in *.
  assert (K : forall u, p u <> [] -> (forall k, p u <> Acquire :: k) -> exists u' s', p u' <> [] /\ rstep truthy u' (RSt i l p m r) s').
  { intros u X Y. exists u. destruct (p u) as [|q k] eqn:E; [contradiction|].
    destruct q; try (eexists; split; [rewrite ?E; discriminate|]; econstructor; exact E).
    - destruct (Sh u) as [Z|[(q & Z & Q)|[Z|Z]]]; congruence.
    - destruct (Y k eq_refl). }
  assert (D : (exists k, p t = Acquire :: k) \/ (forall k, p t <> Acquire :: k)).
  { destruct (p t) as [|[] k]; try (right; intros k'; discriminate). left. exists k. reflexivity. }
  destruct D as [(k & D)|D]; [|apply (K t N D)]. destruct l as [u|].
  - assert (X : inside (s_pc s0 u)) by (apply L; exact Lk). rewrite Pc in X. apply (K u).
    + intros Z. rewrite Z in X. exact X.
    + intros k' Z. rewrite Z in X. destruct (Sh u) as [Y|[(q & Y & _)|[Y|Y]]]; rewrite Z in Y; try discriminate; [injection Y as <- ->; exact X|injection Y as ->; exact (W u [] Z)].
  - exists t. eexists. split; [exact N|]. eapply rs_acquire. exact D.
Qed.
Print Assumptions C52_no_other_hang.

(** Such a state is reached by one thread alone, after four steps and its own call. *)
Example C52_nested_ex : exists s, rsteps (fun _ => true) rinit s /\ r_calls s 0%nat = [Check1; Construct].
Proof.
  eexists. split.
  - eapply rsteps_step; [eapply rsteps_step; [eapply rsteps_step; [eapply rsteps_step; [eapply rsteps_step; [apply rsteps_refl|]|]|]|]|].
    + apply (rs_call _ 0%nat). reflexivity.
    + apply (rs_check1 _ 0%nat). reflexivity.
    + apply (rs_acquire _ 0%nat). reflexivity.
    + apply (rs_check2 _ 0%nat). reflexivity.
    + apply (rs_nested _ 0%nat). reflexivity.
  - reflexivity.
Qed.
