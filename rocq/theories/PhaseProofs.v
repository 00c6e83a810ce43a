From Verif Require Import Base PhaseModel PhaseSpec.
Open Scope nat_scope.
Section PP.
  Context {E : Type} (n : nat) (prog : nat -> list (instr E)).
  Notation phase := (phase_of prog).

  Lemma bars_S r i x : nth_error (prog r) i = Some x ->
    phase r (S i) = phase r i + (match x with Barrier => 1 | _ => 0 end).
  Proof.
    unfold phase_of, bars. revert i. induction (prog r) as [|y l IH]; intros [|i] H; simpl in H; try discriminate.
    - inversion H; subst. destruct x; reflexivity.
    - specialize (IH i H). simpl in *. destruct y; simpl; lia.
  Qed.
  Lemma bars_mono r i j : i <= j -> phase r i <= phase r j.
  Proof.
    unfold phase_of, bars. revert i j. induction (prog r) as [|y l IH]; intros [|i] [|j] H; simpl; try lia.
    specialize (IH i j ltac:(lia)). destruct y; simpl; lia.
  Qed.

  Record pinv (s : pstate) : Prop := {
    pi_same : forall r r', r < n -> r' < n -> phase r (pc s r) = phase r' (pc s r');
    pi_done : forall r i e, r < n -> i < pc s r -> nth_error (prog r) i = Some (Do e) -> In (r, i) (trace s);
    pi_old : forall r i, In (r, i) (trace s) -> r < n /\ i < pc s r;
    pi_nodup : NoDup (trace s);
    pi_pre : forall a r i b, trace s = a ++ (r, i) :: b ->
      forall r' i' e', r' < n -> nth_error (prog r') i' = Some (Do e') -> phase r' i' < phase r i -> In (r', i') a }.

  Lemma pinv_init : pinv pinit.
  Proof.
    split; simpl.
    - intros. unfold phase_of. simpl. reflexivity.
    - intros. lia.
    - intros r i [].
    - constructor.
    - intros a r i b H. destruct a; discriminate.
  Qed.

  Lemma snoc_cases {B} (l : list B) x a y b : l ++ [x] = a ++ y :: b ->
    (b = [] /\ l = a /\ x = y) \/ exists b', b = b' ++ [x] /\ l = a ++ y :: b'.
  Proof.
    revert l. induction b as [|z b IH] using rev_ind; intros l H.
    - apply app_inj_tail in H. destruct H. left. auto.
    - right. exists b. rewrite app_comm_cons, app_assoc in H. apply app_inj_tail in H. destruct H as [-> ->]. auto.
  Qed.

  Lemma NoDup_snoc {B} (l : list B) x : NoDup l -> ~ In x l -> NoDup (l ++ [x]).
  Proof.
    induction l as [|y l IH]; intros H N; simpl; [constructor; [auto|constructor]|].
    inversion H; subst. constructor.
    - rewrite in_app_iff. intros [C|[C|[]]]; [contradiction|]. apply N. left. auto.
    - apply IH; auto. intros C. apply N. right. exact C.
  Qed.

  Lemma pinv_step s s' : pinv s -> pstep n prog s s' -> pinv s'.
  Proof.
    intros [P1 P2 P3 PN P4] H. destruct H as [s r e Hr He|s Hn Hb].
    - assert (B : phase r (S (pc s r)) = phase r (pc s r)) by (rewrite (bars_S _ _ _ He); lia).
      split; simpl.
      + intros a b Ha Hb. destruct (Nat.eqb_spec a r) as [->|Na], (Nat.eqb_spec b r) as [->|Nb]; rewrite ?B; auto.
      + intros a i e' Ha Hi He'. apply in_app_iff. destruct (Nat.eqb_spec a r) as [->|Na].
        * destruct (Nat.eq_dec i (pc s r)) as [->|]; [right; left; reflexivity|left; apply (P2 r i e' Ha); [lia|exact He']].
        * left. eapply P2; eauto.
      + intros a i Hi. apply in_app_iff in Hi. destruct Hi as [Hi|[Hi|[]]].
        * destruct (P3 a i Hi). destruct (Nat.eqb_spec a r) as [->|]; split; auto.
        * inversion Hi; subst. rewrite Nat.eqb_refl. split; auto.
      + apply NoDup_snoc; [exact PN|]. intros C. apply P3 in C. lia.
      + intros a q i b Eq r' i' e' Hr' He' Hp. apply snoc_cases in Eq. destruct Eq as [(-> & <- & Ex)|(b' & -> & Eq)].
        * inversion Ex; subst q i. eapply P2; eauto.
          destruct (Nat.lt_ge_cases i' (pc s r')) as [|Hge]; [assumption|exfalso].
          pose proof (bars_mono r' _ _ Hge). rewrite (P1 r r' Hr Hr') in Hp. lia.
        * eapply P4; eauto.
    - split; simpl.
      + intros a b Ha Hb'. rewrite (bars_S _ _ _ (Hb a Ha)), (bars_S _ _ _ (Hb b Hb')). simpl. rewrite (P1 a b Ha Hb'). reflexivity.
      + intros a i e Ha Hi He. destruct (Nat.eq_dec i (pc s a)) as [->|]; [rewrite (Hb a Ha) in He; discriminate|].
        eapply P2; eauto. lia.
      + intros a i Hi. destruct (P3 a i Hi). split; auto.
      + exact PN.
      + exact P4.
  Qed.

  Lemma preach_inv s : preach n prog s -> pinv s.
  Proof. induction 1; [apply pinv_init|eapply pinv_step; eauto]. Qed.

  Lemma phase_order s a r i b : preach n prog s -> trace s = a ++ (r, i) :: b ->
    forall r' i' e', r' < n -> nth_error (prog r') i' = Some (Do e') -> phase r' i' < phase r i -> In (r', i') a.
  Proof. intros R. apply (pi_pre s (preach_inv s R)). Qed.

  Lemma phase_once s : preach n prog s -> NoDup (trace s).
  Proof. intros R. apply (pi_nodup s (preach_inv s R)). Qed.

  (** Progress: with equally many barriers everywhere nobody waits for ever. *)
  Lemma dec_all (P : nat -> bool) : forall k, (forall r, r < k -> P r = true) \/ exists r, r < k /\ P r = false.
  Proof.
    induction k as [|k [IH|(r & Hr & Ef)]]; [left; lia| |right; exists r; auto].
    destruct (P k) eqn:Ek; [left|right; exists k; auto].
    intros r Hr. destruct (Nat.eq_dec r k) as [->|]; [exact Ek|apply IH; lia].
  Qed.

  Lemma pc_le s r : preach n prog s -> r < n -> pc s r <= length (prog r).
  Proof.
    intros R Hr. induction R as [|s s' R IH H]; [simpl; lia|].
    destruct H as [s r' e Hr' He|s Hn Hb]; simpl.
    - destruct (Nat.eqb_spec r r') as [->|]; [|exact IH]. apply nth_error_Some. congruence.
    - apply nth_error_Some. rewrite (Hb r Hr). discriminate.
  Qed.

  Lemma phase_total r : phase r (length (prog r)) = bars (prog r).
  Proof. unfold phase_of. rewrite firstn_all. reflexivity. Qed.

  Lemma phase_progress s : 0 < n -> (forall r r', r < n -> r' < n -> bars (prog r) = bars (prog r')) ->
    preach n prog s -> all_done n prog s \/ exists s', pstep n prog s s'.
  Proof.
    intros Hn HB R. pose proof (preach_inv s R) as [P1 P2 P3 PN P4].
    set (atb := fun r => match nth_error (prog r) (pc s r) with Some (Do _) => false | _ => true end).
    destruct (dec_all atb n) as [A|(r & Hr & Ef)].
    2:{ right. subst atb. simpl in Ef. destruct (nth_error (prog r) (pc s r)) as [[e|]|] eqn:He; try discriminate.
        eexists. eapply p_do; eauto. }
    set (ended := fun r => negb (match nth_error (prog r) (pc s r) with Some _ => true | None => false end)).
    destruct (dec_all (fun r => negb (ended r)) n) as [B|(r & Hr & Ef)].
    - right. eexists. apply p_barrier; [exact Hn|]. intros r Hr. specialize (A r Hr). specialize (B r Hr).
      subst atb ended. simpl in *. destruct (nth_error (prog r) (pc s r)) as [[e|]|]; simpl in *; congruence.
    - left. intros q Hq.
      assert (Er : pc s r = length (prog r)).
      { subst ended. simpl in Ef. pose proof (pc_le s r R Hr). destruct (nth_error (prog r) (pc s r)) eqn:En; [discriminate|].
        apply nth_error_None in En. lia. }
      pose proof (P1 q r Hq Hr) as Eph. rewrite Er, phase_total, (HB r q Hr Hq), <- phase_total in Eph.
      pose proof (pc_le s q R Hq). destruct (Nat.eq_dec (pc s q) (length (prog q))) as [|Ne]; [assumption|exfalso].
      specialize (A q Hq). subst atb. simpl in A.
      destruct (nth_error (prog q) (pc s q)) as [[e|]|] eqn:En; [discriminate| |apply nth_error_None in En; lia].
      pose proof (bars_S _ _ _ En) as B1. simpl in B1. pose proof (bars_mono q (S (pc s q)) (length (prog q)) ltac:(lia)). lia.
  Qed.
End PP.

(** ** The program of a run *)
Lemma run_event n r i e : nth_error (run_prog n r) i = Some (Do e) ->
  phase_of (run_prog n) r i = match e with MkDirs | ReadGrid => 0 | TileWork => 1 | Convert => 2 end.
Proof.
  unfold phase_of, run_prog. destruct ((1 <? n) && (0 <? r)); cbn [app];
    do 8 (destruct i as [|i]; [cbn; intros H; try discriminate; inversion H; reflexivity|]);
    cbn; intros H; destruct i; discriminate.
Qed.

Lemma run_bars n r r' : bars (run_prog n r) = bars (run_prog n r').
Proof. unfold run_prog. destruct ((1 <? n) && (0 <? r)), ((1 <? n) && (0 <? r')); reflexivity. Qed.

Lemma run_mkdirs_root n r i : nth_error (run_prog n r) i = Some (Do MkDirs) -> r < n -> r = 0.
Proof.
  unfold run_prog. destruct (Nat.ltb_spec 1 n), (Nat.ltb_spec 0 r); cbn [andb app]; try lia.
  do 8 (destruct i as [|i]; [cbn; discriminate|]). cbn. destruct i; discriminate.
Qed.

Lemma run_has_mkdirs n : nth_error (run_prog n 0) 0 = Some (Do MkDirs).
Proof. unfold run_prog. rewrite Nat.ltb_irrefl, andb_false_r. reflexivity. Qed.

Lemma run_has n r e : e <> MkDirs -> exists i, nth_error (run_prog n r) i = Some (Do e).
Proof.
  intros H. unfold run_prog. destruct ((1 <? n) && (0 <? r)); cbn [app]; destruct e; try congruence;
    first [exists 0; reflexivity|exists 1; reflexivity|exists 2; reflexivity|exists 3; reflexivity|exists 4; reflexivity|exists 5; reflexivity].
Qed.

Section RunP.
  Variables (n : nat) (s : pstate).
  Hypothesis R : preach n (run_prog n) s.

  Lemma run_phases a r i b : trace s = a ++ (r, i) :: b ->
    (nth_error (run_prog n r) i = Some (Do TileWork) -> happened n a 0 MkDirs /\ forall r', r' < n -> happened n a r' ReadGrid) /\
    (nth_error (run_prog n r) i = Some (Do Convert) -> happened n a 0 MkDirs /\ forall r', r' < n -> happened n a r' TileWork).
  Proof.
    intros E.
    assert (Hr : r < n) by (apply (pi_old n (run_prog n) s (preach_inv n _ s R) r i); rewrite E; apply in_elt).
    assert (K : forall e e' r', nth_error (run_prog n r) i = Some (Do e) -> r' < n ->
      match e' with MkDirs | ReadGrid => 0 | TileWork => 1 | Convert => 2 end < match e with MkDirs | ReadGrid => 0 | TileWork => 1 | Convert => 2 end ->
      (e' <> MkDirs \/ r' = 0) -> happened n a r' e').
    { intros e e' r' He Hr' Hp Hx.
      assert (X : exists i', nth_error (run_prog n r') i' = Some (Do e')).
      { destruct Hx as [Hx| ->]; [apply run_has; exact Hx|]. destruct e'; try (apply run_has; discriminate). exists 0. apply run_has_mkdirs. }
      destruct X as (i' & Hi'). exists i'. split; [exact Hi'|].
      eapply (phase_order n (run_prog n) s a r i b R E); eauto. rewrite (run_event _ _ _ _ He), (run_event _ _ _ _ Hi'). exact Hp. }
    split; intros H; split; try (apply (K _ MkDirs 0 H); [lia|lia|right; reflexivity]);
      intros r' Hr'; eapply (K _ _ r' H); simpl; try lia; left; discriminate.
  Qed.

  Lemma run_mkdirs_only_root r i : In (r, i) (trace s) -> nth_error (run_prog n r) i = Some (Do MkDirs) -> r = 0.
  Proof.
    intros H E. apply (run_mkdirs_root n r i E). apply (pi_old n (run_prog n) s (preach_inv n _ s R) r i H).
  Qed.
End RunP.
