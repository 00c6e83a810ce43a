(** * Proofs about the file helpers (C95). *)
From Verif Require Import Base BaseLemmas PyStr NameModel NameProofs LogProofs HelpSpec HelpModel.
Open Scope Z_scope.

Lemma last_split (c : ascii) s : ~ In c s \/ exists a e, s = a ++ c :: e /\ ~ In c e.
Proof.
  induction s as [|x s IH]; [left; intros []|]. destruct IH as [N|(a & e & -> & N)].
  - destruct (ascii_dec x c) as [->|X]; [right; exists [], s; auto|]. left. intros [H|H]; [congruence|contradiction].
  - right. exists (x :: a), e. auto.
Qed.
Lemma app_same_len {A} (a b a' b' : list A) : a ++ b = a' ++ b' -> List.length a = List.length a' -> a = a' /\ b = b'.
Proof.
  revert a'. induction a as [|x a IH]; intros [|y a'] E L; try discriminate; [auto|]. cbn in E, L. injection E as -> E. destruct (IH a' E ltac:(lia)) as [-> ->]. auto.
Qed.
Lemma forallb_dots s : forallb (Ascii.eqb dot) s = true <-> forall x, In x s -> x = dot.
Proof. rewrite forallb_forall. split; intros H x I; [symmetry; apply Ascii.eqb_eq; apply H; exact I|rewrite (H x I); apply Ascii.eqb_refl]. Qed.

Lemma splitext_ext name : ~ In slash name -> has_ext name (splitext_root name) (skipn (List.length (splitext_root name)) name).
Proof.
  intros NS. unfold splitext_root. rewrite (rfind_notin slash name NS). destruct (last_split dot name) as [N|(a & e & E & N)].
  - rewrite (rfind_notin dot name N). cbn [Z.ltb Z.compare Pos.compare]. change (-1 <? -1) with false. cbn iota. rewrite skipn_all. split; [rewrite app_nil_r; reflexivity|].
    left. split; [reflexivity|]. exists [], name. split; [reflexivity|]. split; [intros x []|exact N].
  - assert (R : rfind dot name = zlen a) by (rewrite E; apply rfind_mid; exact N). rewrite R. rewrite (proj2 (Z.ltb_lt (-1) (zlen a))) by (unfold zlen; lia).
    replace (Z.to_nat (zlen a - (-1 + 1))) with (List.length a) by (unfold zlen; lia). change (Z.to_nat (-1 + 1)) with 0%nat. cbn [skipn].
    assert (F : firstn (List.length a) name = a) by (rewrite E, firstn_app, firstn_all, Nat.sub_diag; cbn; apply app_nil_r). rewrite F.
    destruct (forallb (Ascii.eqb dot) a) eqn:D.
    + rewrite skipn_all. split; [rewrite app_nil_r; reflexivity|]. left. split; [reflexivity|]. exists (a ++ [dot]), e. rewrite <- app_assoc. split; [exact E|]. split; [|exact N].
      intros x I. apply in_app_or in I. destruct I as [I|[I|[]]]; [|symmetry; exact I]. revert x I. apply forallb_dots. exact D.
    + replace (Z.to_nat (zlen a)) with (List.length a) by (unfold zlen; lia). rewrite F. assert (SK : skipn (List.length a) name = dot :: e) by (rewrite E, skipn_app, skipn_all, Nat.sub_diag; reflexivity). rewrite SK.
      split; [exact E|]. right.
      assert (X : exists x, In x a /\ x <> dot).
      { clear - D. induction a as [|y a IH]; [discriminate|]. cbn [forallb] in D. apply andb_false_iff in D. destruct D as [D|D].
        - exists y. split; [left; reflexivity|]. intros ->. rewrite Ascii.eqb_refl in D. discriminate.
        - destruct (IH D) as (x & I & H). exists x. split; [right; exact I|exact H]. }
      destruct X as (x & I & H). exists e, x. auto.
Qed.

Lemma has_ext_unique name b e b' e' : has_ext name b e -> has_ext name b' e' -> b = b' /\ e = e'.
Proof.
  intros [E H] [E' H'].
  assert (K : forall b e b' x e1 u v, name = b ++ e -> e = [] -> name = u ++ v -> (forall x, In x u -> x = dot) -> ~ In dot v -> name = b' ++ dot :: e1 -> In x b' -> x <> dot -> False).
  { intros b0 e0 b1 x e1 u v _ _ E1 U V E2 I X. rewrite E1 in E2. apply X. apply U.
    assert (G : forall u b1, u ++ v = b1 ++ dot :: e1 -> In x b1 -> In x u).
    { clear - V. induction u as [|y u IH]; intros b1 E I.
      - cbn in E. exfalso. apply V. rewrite E. apply in_or_app. right. left. reflexivity.
      - destruct b1 as [|z b1]; [destruct I|]. cbn in E. injection E as <- E. destruct I as [I|I]; [left; exact I|right; exact (IH b1 E I)]. }
    exact (G u b1 E2 I). }
  destruct H as [(-> & u & v & U1 & U2 & U3)|(e1 & x & -> & N & I & X)], H' as [(-> & u' & v' & U1' & U2' & U3')|(e1' & x' & -> & N' & I' & X')].
  - rewrite app_nil_r in E, E'. split; congruence.
  - exfalso. exact (K b [] b' x' e1' u v E eq_refl U1 U2 U3 E' I' X').
  - exfalso. exact (K b' [] b x e1 u' v' E' eq_refl U1' U2' U3' E I X).
  - assert (L : rfind dot name = zlen b) by (rewrite E; apply rfind_mid; exact N). assert (L' : rfind dot name = zlen b') by (rewrite E'; apply rfind_mid; exact N').
    assert (List.length b = List.length b') by (unfold zlen in *; lia). rewrite E in E'. apply app_same_len in E'; [|assumption]. tauto.
Qed.

Lemma base_of p d name : file_in p d name -> basename p = name.
Proof.
  intros (-> & N & _). unfold basename. rewrite rfind_mid by exact N. replace (Z.to_nat (zlen d + 1)) with (List.length d + 1)%nat by (unfold zlen; lia).
  replace (d ++ slash :: name) with ((d ++ [slash]) ++ name) by (rewrite <- app_assoc; reflexivity). replace (List.length d + 1)%nat with (List.length (d ++ [slash])) by (rewrite app_length; reflexivity).
  rewrite skipn_app, skipn_all, Nat.sub_diag. reflexivity.
Qed.
Lemma dir_of p d name : file_in p d name -> dirname p = written d.
Proof.
  intros (-> & N & T). unfold dirname. rewrite rfind_mid by exact N. replace (Z.to_nat (zlen d + 1)) with (List.length d + 1)%nat by (unfold zlen; lia).
  replace (d ++ slash :: name) with ((d ++ [slash]) ++ name) by (rewrite <- app_assoc; reflexivity). replace (List.length d + 1)%nat with (List.length (d ++ [slash])) by (rewrite app_length; reflexivity).
  rewrite firstn_app, firstn_all, Nat.sub_diag. cbn [firstn]. rewrite app_nil_r.
  destruct (rev d) as [|x l] eqn:R.
  - assert (d = []) as -> by (destruct d; [reflexivity|]; apply (f_equal (@List.length ascii)) in R; rewrite rev_length in R; discriminate). reflexivity.
  - assert (E : d = rev l ++ [x]) by (rewrite <- (rev_involutive d), R; reflexivity).
    assert (X : x <> slash) by (intros ->; exact (T (rev l) E)).
    assert (F : forallb (Ascii.eqb slash) (d ++ [slash]) = false).
    { destruct (forallb (Ascii.eqb slash) (d ++ [slash])) eqn:F; [|reflexivity]. exfalso. rewrite forallb_forall in F. specialize (F x). apply X. symmetry. apply Ascii.eqb_eq. apply F.
      rewrite E. apply in_or_app. left. apply in_or_app. right. left. reflexivity. }
    rewrite F. unfold rstrip_slashes. rewrite rev_app_distr, R. cbn [rev app strip_left_slashes]. rewrite Ascii.eqb_refl.
    destruct (Ascii.eqb x slash) eqn:Q; [apply Ascii.eqb_eq in Q; contradiction|]. change (rev (x :: l)) with (rev l ++ [x]). rewrite <- E. destruct d; [discriminate R|reflexivity].
Qed.
Lemma pjoin_written d name : (forall d', d <> d' ++ [slash]) -> pjoin (written d) name = d ++ slash :: name.
Proof.
  intros T. destruct d as [|y d]; [reflexivity|]. unfold written. apply pjoin_nonempty_dir; [discriminate|exact T].
Qed.

Lemma blankb x : existsb (Ascii.eqb x) (lit " " ++ [ascii_of_nat 9; ascii_of_nat 10; ascii_of_nat 11; ascii_of_nat 12; ascii_of_nat 13]) = true <-> blank x.
Proof.
  rewrite existsb_exists. split.
  - intros (y & I & E). apply Ascii.eqb_eq in E. subst y. cbn in I. unfold blank.
    repeat (destruct I as [<-|I]; [first [left; reflexivity|right; first [exists 9%nat; split; [lia|reflexivity]|exists 10%nat; split; [lia|reflexivity]|exists 11%nat; split; [lia|reflexivity]|exists 12%nat; split; [lia|reflexivity]|exists 13%nat; split; [lia|reflexivity]]]|]). destruct I.
  - intros [->|(n & B & ->)]; [exists (ascii_of_nat 32); split; [left; reflexivity|reflexivity]|].
    exists (ascii_of_nat n). split; [|apply Ascii.eqb_refl]. assert (C : n = 9%nat \/ n = 10%nat \/ n = 11%nat \/ n = 12%nat \/ n = 13%nat) by lia.
    destruct C as [->|[->|[->|[->| ->]]]]; cbn; auto 10.
Qed.
Lemma lstrip_blank l : exists sp, l = sp ++ lstrip l /\ (forall x, In x sp -> blank x) /\ (forall x r, lstrip l = x :: r -> ~ blank x).
Proof.
  induction l as [|x l (sp & E & B & F)]; [exists []; split; [reflexivity|split; [intros ? []|discriminate]]|]. cbn [lstrip].
  destruct (existsb _ _) eqn:X.
  - exists (x :: sp). split; [cbn; rewrite <- E; reflexivity|]. split; [|exact F]. intros y [<-|I]; [apply blankb; exact X|exact (B y I)].
  - exists []. split; [reflexivity|]. split; [intros ? []|]. intros y r H Y. injection H as <- <-. apply blankb in Y. congruence.
Qed.
