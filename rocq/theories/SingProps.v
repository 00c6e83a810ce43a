(** * Property theorems: the Singleton metaclass (C52). *)
From Verif Require Import Base BaseLemmas SingModel.
Open Scope Z_scope.

Definition inside (p : pc) : Prop := match p with Check2 | Construct | Assign _ | Release | ReleaseErr => True | _ => False end.

Lemma goto_same f t p : goto f t p t = p.
Proof. unfold goto. rewrite Nat.eqb_refl. reflexivity. Qed.
Lemma goto_other f t p u : u <> t -> goto f t p u = f u.
Proof. intros H. unfold goto. destruct (Nat.eqb_spec u t); [contradiction|reflexivity]. Qed.

(** The lock is held exactly by the one thread inside the with block. *)
Definition locked (s : state) : Prop := forall u, inside (s_pc s u) <-> s_lock s = Some u.

Ltac cases_of u t := destruct (Nat.eq_dec u t) as [->|?]; [rewrite ?goto_same|rewrite ?goto_other by assumption].

Lemma locked_keep i l p m r i' m' r' t q : (inside (p t) <-> inside q) -> locked (St i l p m r) -> locked (St i' l (goto p t q) m' r').
Proof. intros E L u. pose proof (L u) as Lu. cbn [s_pc s_lock] in *. cases_of u t; [rewrite <- E; exact Lu|exact Lu]. Qed.
Lemma locked_leave i l p m r i' m' r' t q : inside (p t) -> ~ inside q -> locked (St i l p m r) -> locked (St i' None (goto p t q) m' r').
Proof.
  intros A B L u. pose proof (L u) as Lu. pose proof (proj1 (L t) A) as Lt. cbn [s_pc s_lock] in *. cases_of u t; [split; [contradiction|discriminate]|].
  split; [intros X; apply Lu in X; congruence|discriminate].
Qed.
Lemma locked_step truthy t s s' : locked s -> step truthy t s s' -> locked s'.
Proof.
  intros L H. destruct H.
  - eapply locked_keep; [|exact L]. rewrite H. cbn. tauto.
  - eapply locked_keep; [|exact L]. rewrite H. destruct (is_set truthy i); cbn; tauto.
  - intros u. pose proof (L u) as Lu. cbn [s_pc s_lock] in *. cases_of u t; [cbn; tauto|]. rewrite Lu. split; [discriminate|congruence].
  - eapply locked_keep; [|exact L]. rewrite H. destruct (is_set truthy i); cbn; tauto.
  - eapply locked_keep; [|exact L]. rewrite H. cbn. tauto.
  - eapply locked_keep; [|exact L]. rewrite H. cbn. tauto.
  - eapply locked_keep; [|exact L]. rewrite H. cbn. tauto.
  - eapply locked_leave; [| |exact L]; [rewrite H; exact I|intros []].
  - eapply locked_leave; [| |exact L]; [rewrite H; exact I|intros []].
  - eapply locked_keep; [|exact L]. rewrite H. cbn. tauto.
Qed.

Lemma locked_reachable truthy s : steps truthy init s -> locked s.
Proof.
  intros H. remember init as s0 eqn:E. induction H as [s|s t s' s'' H IH S]; subst.
  - intros u. cbn. split; [intros []|discriminate].
  - eapply locked_step; [apply IH; reflexivity|exact S].
Qed.

(** At most one thread is in the constructor, whatever the truth values. *)
Theorem C52_mutex : forall truthy s t u, steps truthy init s -> s_pc s t = Construct -> s_pc s u = Construct -> t = u.
Proof.
  intros truthy s t u H Ht Hu. pose proof (locked_reachable _ _ H) as L. assert (A : s_lock s = Some t) by (apply L; rewrite Ht; exact I). assert (B : s_lock s = Some u) by (apply L; rewrite Hu; exact I). congruence.
Qed.

(** No deadlock: as long as any thread is in a call, some thread can move. *)
Theorem C52_no_deadlock : forall truthy s t, steps truthy init s -> s_pc s t <> Idle -> exists u s', s_pc s u <> Idle /\ step truthy u s s'.
Proof.
  intros truthy s t H N. pose proof (locked_reachable _ _ H) as L. destruct s as [i l p m r]. unfold locked in L. cbn [s_pc s_lock] in *.
  assert (K : forall u, p u <> Idle -> p u <> Acquire -> exists s', step truthy u (St i l p m r) s').
  { intros u A B. destruct (p u) eqn:E; try contradiction; eexists.
    - apply st_check1; exact E. - apply st_check2; exact E. - apply st_construct; exact E. - eapply st_assign; exact E. - apply st_release; exact E. - apply st_release_err; exact E. - apply st_fetch; exact E. }
  assert (D : p t = Acquire \/ p t <> Acquire) by (destruct (p t); auto; right; discriminate). destruct D as [D|D].
  - destruct l as [u|].
    + assert (X : inside (p u)) by (apply L; reflexivity). destruct (K u) as (s' & S); [intros E; rewrite E in X; exact X|intros E; rewrite E in X; exact X|]. exists u, s'. split; [intros E; rewrite E in X; exact X|exact S].
    + exists t. eexists. split; [exact N|]. apply st_acquire. exact D.
  - destruct (K t N D) as (s' & S). exists t, s'. auto.
Qed.

(** With truthy objects. *)
Record good (s : state) : Prop := {
  g_inst : forall o, s_inst s = Some o -> s_made s = [o];
  g_none : s_inst s = None -> s_made s = [] \/ exists t o, s_pc s t = Assign o /\ s_made s = [o];
  g_assign : forall t o, s_pc s t = Assign o -> s_made s = [o] /\ s_inst s = None;
  g_construct : forall t, s_pc s t = Construct -> s_inst s = None /\ s_made s = [];
  g_set : forall t, s_pc s t = Release \/ s_pc s t = Fetch -> s_inst s <> None;
  g_rets : forall r, In r (s_rets s) -> r = s_inst s /\ r <> None
}.

Lemma good_step truthy t s s' : (forall o, truthy o = true) -> locked s -> good s -> step truthy t s s' -> good s'.
Proof.
  intros T L G H. pose proof (fun u v (A : inside (s_pc s u)) (B : inside (s_pc s v)) => ltac:(apply L in A, B; congruence) : u = v) as One.
  destruct G as [G1 G2 G3 G4 G5 G6].
  destruct H as [i l p m r P|i l p m r P|i p m r P|i l p m r P|i l p m r P|i l p m r P|i l p m r o P|i l p m r P|i l p m r P|i l p m r P]; cbn [s_inst s_lock s_pc s_made s_rets] in *.
  - (* call *) split; cbn [s_inst s_lock s_pc s_made s_rets]; [exact G1| | | | |exact G6].
    + intros E. destruct (G2 E) as [X|(u & o & X & Y)]; [left; exact X|right; exists u, o]. split; [|exact Y]. rewrite goto_other; [exact X|]. intros ->. congruence.
    + intros u o. cases_of u t; [discriminate|apply G3].
    + intros u. cases_of u t; [discriminate|apply G4].
    + intros u. cases_of u t; [intros [|]; discriminate|apply G5].
  - (* check1 *) assert (S : is_set truthy i = true -> i <> None) by (destruct i; [discriminate|discriminate]). assert (S' : is_set truthy i = false -> i = None) by (destruct i; cbn; [rewrite T; discriminate|reflexivity]).
    split; cbn [s_inst s_lock s_pc s_made s_rets]; [exact G1| | | | |exact G6].
    + intros E. destruct (G2 E) as [X|(u & o & X & Y)]; [left; exact X|right; exists u, o]. split; [|exact Y]. rewrite goto_other; [exact X|]. intros ->. congruence.
    + intros u o. cases_of u t; [destruct (is_set truthy i); discriminate|apply G3].
    + intros u. cases_of u t; [destruct (is_set truthy i); discriminate|apply G4].
    + intros u. cases_of u t; [|apply G5]. destruct (is_set truthy i) eqn:E; [intros _; exact (S eq_refl)|intros [|]; discriminate].
  - (* acquire *) split; cbn [s_inst s_lock s_pc s_made s_rets]; [exact G1| | | | |exact G6].
    + intros E. destruct (G2 E) as [X|(u & o & X & Y)]; [left; exact X|right; exists u, o]. split; [|exact Y]. rewrite goto_other; [exact X|]. intros ->. congruence.
    + intros u o. cases_of u t; [discriminate|apply G3].
    + intros u. cases_of u t; [discriminate|apply G4].
    + intros u. cases_of u t; [intros [|]; discriminate|apply G5].
  - (* check2 *) assert (S' : is_set truthy i = false -> i = None) by (destruct i; cbn; [rewrite T; discriminate|reflexivity]). assert (S : is_set truthy i = true -> i <> None) by (destruct i; discriminate).
    assert (NA : forall u o, p u <> Assign o). { intros u o E. assert (u = t) as -> by (apply One; [rewrite E; exact I|rewrite P; exact I]). congruence. }
    split; cbn [s_inst s_lock s_pc s_made s_rets]; [exact G1| | | | |exact G6].
    + intros E. destruct (G2 E) as [X|(u & o & X & Y)]; [left; exact X|]. exfalso. exact (NA u o X).
    + intros u o. cases_of u t; [destruct (is_set truthy i); discriminate|apply G3].
    + intros u. cases_of u t; [|apply G4]. destruct (is_set truthy i) eqn:E; [discriminate|]. intros _. split; [exact (S' eq_refl)|]. destruct (G2 (S' eq_refl)) as [X|(u & o & X & Y)]; [exact X|]. exfalso. exact (NA u o X).
    + intros u. cases_of u t; [|apply G5]. destruct (is_set truthy i) eqn:E; [intros _; exact (S eq_refl)|intros [|]; discriminate].
  - (* construct *) destruct (G4 t P) as [-> ->].
    assert (NI : forall u, inside (p u) -> u = t) by (intros u A; apply One; [exact A|rewrite P; exact I]).
    split; cbn [s_inst s_lock s_pc s_made s_rets length].
    + discriminate.
    + intros _. right. exists t, 0%nat. rewrite goto_same. auto.
    + intros u o. cases_of u t; [intros X; injection X as <-; auto|]. intros X. exfalso. apply n. apply NI. rewrite X. exact I.
    + intros u. cases_of u t; [discriminate|]. intros X. exfalso. apply n. apply NI. rewrite X. exact I.
    + intros u. cases_of u t; [intros [|]; discriminate|apply G5].
    + exact G6.
  - (* raise *) destruct (G4 t P) as [-> ->]. assert (NI : forall u, inside (p u) -> u = t) by (intros u A; apply One; [exact A|rewrite P; exact I]). split; cbn [s_inst s_lock s_pc s_made s_rets].
    + discriminate.
    + auto.
    + intros u o. cases_of u t; [discriminate|]. intros X. exfalso. apply n. apply NI. rewrite X. exact I.
    + intros u. cases_of u t; [discriminate|]. auto.
    + intros u. cases_of u t; [intros [|]; discriminate|apply G5].
    + exact G6.
  - (* assign *) destruct (G3 t o P) as [-> ->]. assert (NI : forall u, inside (p u) -> u = t) by (intros u A; apply One; [exact A|rewrite P; exact I]). split; cbn [s_inst s_lock s_pc s_made s_rets].
    + intros o' X. injection X as <-. reflexivity.
    + discriminate.
    + intros u o'. cases_of u t; [discriminate|]. intros X. exfalso. apply n. apply NI. rewrite X. exact I.
    + intros u. cases_of u t; [discriminate|]. intros X. exfalso. apply n. apply NI. rewrite X. exact I.
    + discriminate.
    + intros x Hx. destruct (G6 x Hx) as [A B]. contradiction.
  - (* release *) split; cbn [s_inst s_lock s_pc s_made s_rets]; [exact G1| | | | |exact G6].
    + intros E. exfalso. exact (G5 t (or_introl P) E).
    + intros u o. cases_of u t; [discriminate|apply G3].
    + intros u. cases_of u t; [discriminate|apply G4].
    + intros u. cases_of u t; [intros _; exact (G5 t (or_introl P))|apply G5].
  - (* release after error *) split; cbn [s_inst s_lock s_pc s_made s_rets]; [exact G1| | | | |exact G6].
    + intros E. destruct (G2 E) as [X|(u & o & X & Y)]; [left; exact X|right; exists u, o]. split; [|exact Y]. rewrite goto_other; [exact X|]. intros ->. congruence.
    + intros u o. cases_of u t; [discriminate|apply G3].
    + intros u. cases_of u t; [discriminate|apply G4].
    + intros u. cases_of u t; [intros [|]; discriminate|apply G5].
  - (* fetch *) split; cbn [s_inst s_lock s_pc s_made s_rets]; [exact G1| | | | |].
    + intros E. exfalso. exact (G5 t (or_intror P) E).
    + intros u o. cases_of u t; [discriminate|apply G3].
    + intros u. cases_of u t; [discriminate|apply G4].
    + intros u. cases_of u t; [intros [|]; discriminate|apply G5].
    + intros x [<-|Hx]; [split; [reflexivity|exact (G5 t (or_intror P))]|exact (G6 x Hx)].
Qed.

Lemma good_reachable truthy s : (forall o, truthy o = true) -> steps truthy init s -> good s.
Proof.
  intros T H. remember init as s0 eqn:E. induction H as [s|s t s' s'' H IH S]; subst.
  - split; cbn; try discriminate; auto; try (intros t [|]; discriminate); intros ? [].
  - eapply good_step; [exact T|eapply locked_reachable; exact H|apply IH; reflexivity|exact S].
Qed.

(** In every interleaving of any number of threads at most one object is
    constructed successfully and every call that returns, returns it. *)
Theorem C52_once : forall truthy s, (forall o, truthy o = true) -> steps truthy init s ->
  (length (s_made s) <= 1)%nat /\ (forall r, In r (s_rets s) -> exists o, r = Some o /\ s_made s = [o]).
Proof.
  intros truthy s T H. destruct (good_reachable _ _ T H) as [G1 G2 G3 G4 G5 G6]. split.
  - destruct (s_inst s) as [o|] eqn:E; [rewrite (G1 o eq_refl); cbn; lia|]. destruct (G2 eq_refl) as [->|(t & o & _ & ->)]; cbn; lia.
  - intros r Hr. destruct (G6 r Hr) as [E N]. destruct r as [o|]; [|contradiction]. exists o. split; [reflexivity|]. apply G1. symmetry. exact E.
Qed.

(** If the first object is falsy, two calls in turn by one thread construct
    two objects and return different ones. *)
Theorem C52_falsy_refuted : forall truthy, truthy 0%nat = false ->
  exists s, steps truthy init s /\ length (s_made s) = 2%nat /\ s_rets s = [Some 1%nat; Some 0%nat].
Proof.
  intros truthy F.
  assert (A : exists p, steps truthy init (St (Some 0%nat) None p [0%nat] [Some 0%nat]) /\ p 0%nat = Idle).
  { eexists. split.
    - eapply steps_step; [eapply steps_step; [eapply steps_step; [eapply steps_step; [eapply steps_step; [eapply steps_step; [eapply steps_step; [eapply steps_step; [apply steps_refl|]|]|]|]|]|]|]|].
      + apply (st_call truthy 0%nat). reflexivity.
      + apply (st_check1 truthy 0%nat). reflexivity.
      + apply (st_acquire truthy 0%nat). reflexivity.
      + apply (st_check2 truthy 0%nat). reflexivity.
      + apply (st_construct truthy 0%nat). reflexivity.
      + apply (st_assign truthy 0%nat). reflexivity.
      + apply (st_release truthy 0%nat). reflexivity.
      + apply (st_fetch truthy 0%nat). reflexivity.
    - reflexivity. }
  destruct A as (p & A & P). eexists. split.
  - eapply steps_step; [eapply steps_step; [eapply steps_step; [eapply steps_step; [eapply steps_step; [eapply steps_step; [eapply steps_step; [eapply steps_step; [exact A|]|]|]|]|]|]|]|].
    + apply (st_call truthy 0%nat). exact P.
    + apply (st_check1 truthy 0%nat). reflexivity.
    + cbn [is_set]. rewrite F. apply (st_acquire truthy 0%nat). reflexivity.
    + apply (st_check2 truthy 0%nat). reflexivity.
    + cbn [is_set]. rewrite F. apply (st_construct truthy 0%nat). reflexivity.
    + apply (st_assign truthy 0%nat). reflexivity.
    + apply (st_release truthy 0%nat). reflexivity.
    + apply (st_fetch truthy 0%nat). reflexivity.
  - split; reflexivity.
Qed.

(** Two threads racing past the first test: both return object 0. *)
Example C52_race : exists s, steps (fun _ => true) init s /\ s_rets s = [Some 0%nat; Some 0%nat].
Proof.
  eexists. split.
  - eapply steps_step; [eapply steps_step; [eapply steps_step; [eapply steps_step; [eapply steps_step; [eapply steps_step; [eapply steps_step; [eapply steps_step; [eapply steps_step; [eapply steps_step; [eapply steps_step; [eapply steps_step; [eapply steps_step; [eapply steps_step; [apply steps_refl|]|]|]|]|]|]|]|]|]|]|]|]|]|].
    + apply (st_call _ 0%nat). reflexivity.
    + apply (st_call _ 1%nat). reflexivity.
    + apply (st_check1 _ 1%nat). reflexivity.
    + apply (st_check1 _ 0%nat). reflexivity.
    + apply (st_acquire _ 1%nat). reflexivity.
    + apply (st_check2 _ 1%nat). reflexivity.
    + apply (st_construct _ 1%nat). reflexivity.
    + apply (st_assign _ 1%nat). reflexivity.
    + apply (st_release _ 1%nat). reflexivity.
    + apply (st_acquire _ 0%nat). reflexivity.
    + apply (st_check2 _ 0%nat). reflexivity.
    + apply (st_release _ 0%nat). reflexivity.
    + apply (st_fetch _ 0%nat). reflexivity.
    + apply (st_fetch _ 1%nat). reflexivity.
  - reflexivity.
Qed.

Print Assumptions C52_mutex.
Print Assumptions C52_no_deadlock.
Print Assumptions C52_once.
Print Assumptions C52_falsy_refuted.
