(** * Lemmas about log files (C73, C74). *)
From Coq Require Import Ascii String Decimal DecimalString DecimalNat.
From Verif Require Import Base BaseLemmas PyStr NameModel NameProofs LogModel.
Open Scope Z_scope.

Lemma str_eqb_refl s : str_eqb s s = true.
Proof. induction s as [|x s IH]; simpl; [reflexivity|]. rewrite Ascii.eqb_refl. exact IH. Qed.

Lemma str_eqb_eq a b : str_eqb a b = true <-> a = b.
Proof.
  revert b. induction a as [|x a IH]; intros [|y b]; cbn; try (split; congruence).
  rewrite andb_true_iff, Ascii.eqb_eq, IH. split; [intros [-> ->]; reflexivity|intros E; injection E; auto].
Qed.

(** ** Names with a time *)
Lemma skipn_exact {A} (a b : list A) : skipn (List.length a) (a ++ b) = b.
Proof. rewrite skipn_app, Nat.sub_diag, skipn_all. reflexivity. Qed.

Lemma lstrip_nodot s : ~ In dot s -> lstrip_dots s = s.
Proof. destruct s as [|x s]; [reflexivity|]. intros H. cbn [lstrip_dots]. rewrite eqb_false; [reflexivity|]. intros ->. apply H. left. reflexivity. Qed.

Lemma stamped_ext p c ext stamp : ~ In dot ext -> ~ In slash ext -> c <> dot -> c <> slash ->
  stamped ((p ++ [c]) ++ dot :: ext) stamp = (p ++ [c]) ++ dot :: stamp ++ dot :: ext.
Proof.
  intros H1 H2 H3 H4. unfold stamped. rewrite splitext_root_ext by assumption. rewrite skipn_exact.
  change (lstrip_dots (dot :: ext)) with (lstrip_dots ext). rewrite lstrip_nodot by assumption. reflexivity.
Qed.

Lemma rfind_from_app c a b i last : ~ In c b -> rfind_from c (a ++ b) i last = rfind_from c a i last.
Proof.
  revert i last. induction a as [|x a IH]; intros i last H; cbn [app rfind_from].
  - apply rfind_from_notin. exact H.
  - apply IH. exact H.
Qed.
Lemma rfind_app c a b : ~ In c b -> rfind c (a ++ b) = rfind c a.
Proof. apply rfind_from_app. Qed.

Lemma stamped_noext d name stamp : ~ In dot name -> ~ In slash name ->
  stamped (d ++ slash :: name) stamp = d ++ slash :: name ++ dot :: stamp ++ [dot].
Proof.
  intros H1 H2. unfold stamped. assert (E : splitext_root (d ++ slash :: name) = d ++ slash :: name).
  { unfold splitext_root. rewrite (rfind_mid slash) by assumption.
    rewrite (rfind_app dot) by (cbn; intros [C|C]; [discriminate|contradiction]).
    pose proof (rfind_lt dot d). replace (zlen d <? rfind dot d) with false by lia. reflexivity. }
  rewrite E, skipn_all. rewrite <- app_assoc. reflexivity.
Qed.

Lemma dirname_app a b : ~ In slash b -> dirname (a ++ b) = dirname a.
Proof.
  intros H. unfold dirname. rewrite (rfind_app slash) by exact H.
  pose proof (rfind_lt slash a) as L. unfold zlen in L. rewrite firstn_app.
  replace (Z.to_nat (rfind slash a + 1) - List.length a)%nat with O by lia. cbn [firstn]. rewrite app_nil_r. reflexivity.
Qed.

(** ** Calls after the first *)
Lemma start_log_later rp can cwd stamp tty f v d n (w : logw) h hs : l_handlers w = h :: hs ->
  snd (start_log rp can cwd stamp tty f v d n w) = None /\
  l_handlers (fst (start_log rp can cwd stamp tty f v d n w)) = (if (zlen (h :: hs) <? 2) && (v && tty) then (h :: hs) ++ [StreamHandler] else h :: hs).
Proof.
  intros E. unfold start_log. rewrite E.
  match goal with |- context [l_isdir w ?x] => destruct (l_isdir w x); [|destruct (can x)] end; (split; [reflexivity|]); cbn [fst l_handlers]; destruct (zlen (h :: hs) <? 2), (v && tty); reflexivity.
Qed.

Lemma start_logs_later rp can cwd stamp tty calls : forall w f m (b : bool),
  l_handlers w = FileHandler f m :: (if b then [StreamHandler] else []) ->
  snd (start_logs rp can cwd stamp tty calls w) = None /\
  l_handlers (fst (start_logs rp can cwd stamp tty calls w)) =
    FileHandler f m :: (if b || (tty && existsb (fun c : str * bool * bool * bool => snd (fst (fst c))) calls) then [StreamHandler] else []).
Proof.
  induction calls as [|[[[g v] d] n] calls IH]; intros w f m b E.
  - cbn. rewrite andb_false_r, orb_false_r. auto.
  - cbn [start_logs]. destruct (start_log_later rp can cwd stamp tty g v d n w _ _ E) as [S H].
    destruct (start_log rp can cwd stamp tty g v d n w) as [w' x]. cbn [fst snd] in S, H. subst x.
    destruct (IH w' f m (b || (tty && v))) as [S' H'].
    + rewrite H. destruct b; cbn; [reflexivity|]. destruct v, tty; reflexivity.
    + split; [exact S'|]. rewrite H'. cbn [existsb fst snd]. f_equal. destruct b, tty, v; cbn; reflexivity.
Qed.

(** ** Numbers in names *)
Lemma lit_inj a b : lit a = lit b -> a = b.
Proof. unfold lit. intros H. rewrite <- (string_of_list_ascii_of_string a), <- (string_of_list_ascii_of_string b), H. reflexivity. Qed.
Lemma dec_inj a b : dec a = dec b -> a = b.
Proof.
  intros H. apply lit_inj in H. apply (f_equal NilEmpty.uint_of_string) in H. rewrite !NilEmpty.usu in H.
  injection H as H. apply DecimalNat.Unsigned.to_uint_inj. exact H.
Qed.

Lemma log_args_inj n i j base : (i < n)%nat -> (j < n)%nat -> i <> j -> fst (log_args n i base false) <> fst (log_args n j base false).
Proof.
  intros Hi Hj N. unfold log_args. replace (1 <? n)%nat with true by (symmetry; apply Nat.ltb_lt; lia). cbn [andb].
  assert (L : forall k, base <> base ++ lit "_" ++ dec k).
  { intros k E. apply (f_equal (@List.length _)) in E. rewrite !app_length in E. cbn in E. lia. }
  destruct i, j; cbn [Nat.ltb Nat.leb fst]; intros E.
  - congruence.
  - exact (L _ E).
  - symmetry in E. exact (L _ E).
  - apply app_inv_head in E. apply app_inv_head in E. apply dec_inj in E. congruence.
Qed.

(** ** The race for the directory *)
Section Race.
  Variables (n : nat) (can e0 : bool).
  Definition made (s : lstate) (i : nat) : Prop := exists j, (j < n)%nat /\ j <> i /\ ls_pc s j = LDone false.
  Record inv (s : lstate) : Prop := Inv {
    i_exists : ls_exists s = true -> e0 = true \/ (exists j, (j < n)%nat /\ ls_pc s j = LDone false);
    i_done : forall i, ls_pc s i = LDone false -> ls_exists s = true;
    i_create : forall i, ls_pc s i = LCreate -> e0 = false;
    i_fall : forall i, ls_pc s i = LDone true -> e0 = false /\ (can = false \/ made s i);
    i_can : can = false -> ls_exists s = e0;
    i_keep : e0 = true -> ls_exists s = true }.

  Lemma lset_same s e i c : ls_pc (lset s e i c) i = c.
  Proof. cbn. rewrite Nat.eqb_refl. reflexivity. Qed.
  Lemma lset_other s e i c j : j <> i -> ls_pc (lset s e i c) j = ls_pc s j.
  Proof. intros H. cbn. apply Nat.eqb_neq in H. rewrite H. reflexivity. Qed.

  Lemma inv_reach s : lreach n can e0 s -> inv s.
  Proof.
    induction 1 as [|s s' R IH St].
    - split; cbn; try discriminate; auto.
    - assert (keep : forall e i c, ls_pc s i <> LDone false -> forall j, ls_pc s j = LDone false -> ls_pc (lset s e i c) j = LDone false).
      { intros e i c Hi j Hj. rewrite lset_other; [exact Hj|]. intros ->. contradiction. }
      assert (mk : forall e i c, ls_pc s i <> LDone false -> forall k, made s k -> made (lset s e i c) k).
      { intros e i c Hi k (j & A & B & C). exists j. repeat split; auto. }
      destruct IH as [I1 I2 I3 I4 I5 I6]. destruct St as [s i Hi Hp|s i Hi Hp].
      + assert (Hn : ls_pc s i <> LDone false) by congruence.
        split.
        * intros E. cbn in E. destruct (I1 E) as [|(j & A & B)]; [auto|]. right. exists j. auto.
        * intros j Hj. destruct (Nat.eq_dec j i) as [->|N].
          -- rewrite lset_same in Hj. cbn. destruct (ls_exists s); congruence.
          -- rewrite lset_other in Hj by exact N. cbn. eauto.
        * intros j Hj. destruct (Nat.eq_dec j i) as [->|N].
          -- rewrite lset_same in Hj. destruct (ls_exists s) eqn:E; [discriminate|]. destruct e0; [discriminate (I6 eq_refl)|reflexivity].
          -- rewrite lset_other in Hj by exact N. eauto.
        * intros j Hj. destruct (Nat.eq_dec j i) as [->|N].
          -- rewrite lset_same in Hj. destruct (ls_exists s); discriminate.
          -- rewrite lset_other in Hj by exact N. destruct (I4 _ Hj) as [A [B|B]]; auto.
        * cbn. auto.
        * cbn. auto.
      + assert (Hn : ls_pc s i <> LDone false) by congruence. pose proof (I3 _ Hp) as He.
        destruct (ls_exists s || negb can) eqn:F.
        * split.
          -- intros E. cbn in E. destruct (I1 E) as [|(j & A & B)]; [auto|]. right. exists j. auto.
          -- intros j Hj. destruct (Nat.eq_dec j i) as [->|N]; [rewrite lset_same in Hj; discriminate|]. rewrite lset_other in Hj by exact N. cbn. eauto.
          -- auto.
          -- intros j Hj. split; [exact He|]. destruct (Nat.eq_dec j i) as [->|N].
             ++ destruct can; [|auto]. right. cbn in F. rewrite orb_false_r in F. destruct (I1 F) as [X|(k & A & B)]; [congruence|].
                exists k. repeat split; [exact A|congruence|]. auto.
             ++ rewrite lset_other in Hj by exact N. destruct (I4 _ Hj) as [_ [B|B]]; auto.
          -- cbn. auto.
          -- cbn. auto.
        * apply orb_false_iff in F as [F1 F2]. apply negb_false_iff in F2. split.
          -- intros _. right. exists i. split; [exact Hi|apply lset_same].
          -- reflexivity.
          -- auto.
          -- intros j Hj. split; [exact He|]. destruct (Nat.eq_dec j i) as [->|N]; [rewrite lset_same in Hj; discriminate|].
             right. exists i. repeat split; [exact Hi|congruence|apply lset_same].
          -- congruence.
          -- congruence.
  Qed.
End Race.
