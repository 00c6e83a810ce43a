(** * Proofs about folders and files of a run (C59, C61). *)
From Coq Require Import Ascii String.
From Verif Require Import Base BaseLemmas PyStr NameModel NameSpec PipeModel RunModel RunSpec.
Open Scope Z_scope.

(** ** Paths *)
Lemma peqb_spec a b : reflect (a = b) (peqb a b).
Proof. unfold peqb. destruct (path_eq_dec a b); constructor; assumption. Qed.
Lemma peqb_refl a : peqb a a = true.
Proof. destruct (peqb_spec a a); [reflexivity|contradiction]. Qed.
Lemma under_spec o p : under o p = true <-> at_or_below o p.
Proof.
  unfold under, at_or_below. destruct (peqb_spec (firstn (length o) p) o) as [E|E]; split; try discriminate; auto.
  - intros _. exists (skipn (length o) p). rewrite <- (firstn_skipn (length o) p) at 1. rewrite E. reflexivity.
  - intros (q & ->). exfalso. apply E. rewrite firstn_app, firstn_all, Nat.sub_diag. cbn. apply app_nil_r.
Qed.
Lemma upd_same f p e : upd f p e p = e.
Proof. unfold upd. rewrite peqb_refl. reflexivity. Qed.
Lemma upd_other f p e q : q <> p -> upd f p e q = f q.
Proof. intros H. unfold upd. destruct (peqb_spec q p); [contradiction|reflexivity]. Qed.
Lemma removelast_snoc {A} (l : list A) x : removelast (l ++ [x]) = l.
Proof. rewrite removelast_app by discriminate. cbn. apply app_nil_r. Qed.
Lemma above_snoc o x p : above (o ++ [x]) p <-> p = o \/ above o p.
Proof.
  split.
  - intros (y & q & E). destruct (exists_last (l := y :: q)) as (l & z & El); [discriminate|]. rewrite El, app_assoc in E. apply app_inj_tail in E. destruct E as [E _].
    destruct l as [|z' l]; [left; rewrite E, app_nil_r; reflexivity|right; exists z', l; exact E].
  - intros [->|(y & q & ->)]; [exists x, []; reflexivity|exists y, (q ++ [x]); rewrite <- app_assoc; reflexivity].
Qed.
Lemma above_nil p : ~ above [] p.
Proof. intros (x & q & E). destruct p; discriminate. Qed.
Lemma above_not_below o p : above o p -> ~ at_or_below o p.
Proof. intros (x & q & ->) (r & E). apply (f_equal (@length str)) in E. rewrite !app_length in E. cbn in E. lia. Qed.
Lemma wf_above f p q : wf f -> f p <> None -> above p q -> f q = Some DirE.
Proof.
  intros [W0 W] H (x & r & ->). revert H. induction r as [|y r IH] using rev_ind; intros H; [eapply W; exact H|].
  apply IH. intros E. rewrite app_comm_cons, app_assoc in H. apply W in H. rewrite E in H. discriminate.
Qed.

(** ** Recreating a folder *)
Definition clear_way (f : fsys) (p : list str) : Prop := forall q, above p q -> f q <> Some FileE.

Lemma makedirs_ok r : forall f, wf f -> r <> [] -> f (rev r) = None -> clear_way f (rev r) ->
  exists f', makedirs_rev r f = Ok f' /\ wf f' /\ f' (rev r) = Some DirE /\ (forall q, above (rev r) q -> f' q = Some DirE) /\
    (forall q, q <> rev r -> ~ above (rev r) q -> f' q = f q).
Proof.
  induction r as [|x r IH]; intros f W N E C; [contradiction|]. cbn [makedirs_rev]. cbn [rev] in *.
  assert (Mk : forall g, wf g -> g (rev r) = Some DirE -> g (rev r ++ [x]) = None -> (forall q, above (rev r) q -> g q = Some DirE) ->
    exists f', mkdir g (rev r ++ [x]) = Ok f' /\ wf f' /\ f' (rev r ++ [x]) = Some DirE /\ (forall q, above (rev r ++ [x]) q -> f' q = Some DirE) /\
      (forall q, q <> rev r ++ [x] -> ~ above (rev r ++ [x]) q -> f' q = g q)).
  { intros g Wg Hp Hn Ha. unfold mkdir. rewrite Hn, removelast_snoc, Hp. eexists. split; [reflexivity|]. split; [|split; [apply upd_same|split]].
    - destruct Wg as [W0 W1]. split.
      + rewrite upd_other; [exact W0|]. destruct (rev r); discriminate.
      + intros p y H. destruct (peqb_spec (p ++ [y]) (rev r ++ [x])) as [Ep|Ep].
        * apply app_inj_tail in Ep. destruct Ep as [-> _]. rewrite upd_other; [exact Hp|]. intros X. apply (f_equal (@length str)) in X. rewrite app_length in X. cbn in X. lia.
        * rewrite (upd_other _ _ _ _ Ep) in H. apply W1 in H. destruct (peqb_spec p (rev r ++ [x])) as [->|Np]; [apply upd_same|rewrite upd_other; assumption].
    - intros q Hq. assert (q <> rev r ++ [x]) by (intros ->; exact (above_not_below _ _ Hq (ex_intro _ [] (eq_sym (app_nil_r _))))). rewrite upd_other by assumption.
      apply above_snoc in Hq. destruct Hq as [->|Hq]; [exact Hp|exact (Ha q Hq)].
    - intros q Hq _. apply upd_other. exact Hq. }
  destruct (f (rev r)) as [e|] eqn:Er.
  - cbn [bind]. assert (e = DirE) as ->. { destruct e; [|reflexivity]. exfalso. apply (C (rev r)); [apply above_snoc; left; reflexivity|exact Er]. }
    apply Mk; try assumption. intros q Hq. apply (wf_above f (rev r)); [exact W|rewrite Er; discriminate|exact Hq].
  - assert (Nr : r <> []) by (intros ->; cbn in Er; destruct W as [W0 _]; congruence).
    destruct (IH f W Nr Er) as (g & Eg & Wg & Hg & Ag & Og). { intros q Hq. apply C. apply above_snoc. right. exact Hq. }
    rewrite Eg. cbn [bind]. assert (Gx : g (rev r ++ [x]) = None).
    { rewrite Og; [exact E| |].
      - intros X. apply (f_equal (@length str)) in X. rewrite app_length in X. cbn in X. lia.
      - intros (y & q & X). apply (f_equal (@length str)) in X. rewrite !app_length in X. cbn in X. lia. }
    destruct (Mk g Wg Hg Gx Ag) as (f' & Ef & Wf & Hf & Af & Of). exists f'. split; [exact Ef|]. split; [exact Wf|]. split; [exact Hf|]. split; [exact Af|].
    intros q Hq Ha. rewrite Of by assumption. apply Og; [intros ->; apply Ha; apply above_snoc; left; reflexivity|intros X; apply Ha; apply above_snoc; right; exact X].
Qed.
Lemma makedirs_err r q : forall f, wf f -> above (rev r) q -> f q = Some FileE -> makedirs_rev r f = Err OSError.
Proof.
  induction r as [|x r IH]; intros f W A F; [exfalso; exact (above_nil q A)|]. cbn [makedirs_rev]. cbn [rev] in *. apply above_snoc in A. destruct (f (rev r)) as [e|] eqn:Er.
  - assert (e = FileE) as ->. { destruct A as [->|A]; [congruence|]. assert (f q = Some DirE) by (apply (wf_above f (rev r)); [exact W|rewrite Er; discriminate|exact A]). congruence. }
    cbn [bind]. unfold mkdir. destruct (f (rev r ++ [x])); [reflexivity|]. rewrite removelast_snoc, Er. reflexivity.
  - destruct A as [->|A]; [congruence|]. rewrite (IH f W A F). reflexivity.
Qed.

Lemma recreate_ok f p : wf f -> p <> [] -> f p <> Some FileE -> clear_way f p ->
  exists f', recreate f p = Ok f' /\ wf f' /\ f' p = Some DirE /\ (forall q, at_or_below p q -> q <> p -> f' q = None) /\
    (forall q, above p q -> f' q = Some DirE) /\ (forall q, ~ at_or_below p q -> ~ above p q -> f' q = f q).
Proof.
  intros W N E C. set (g := fun q => if under p q then None else f q).
  assert (Gb : forall q, at_or_below p q -> g q = None) by (intros q H; unfold g; rewrite (proj2 (under_spec p q) H); reflexivity).
  assert (Go : forall q, ~ at_or_below p q -> g q = f q) by (intros q H; unfold g; destruct (under p q) eqn:X; [apply under_spec in X; contradiction|reflexivity]).
  assert (Wg : wf g).
  { destruct W as [W0 W1]. split.
    - rewrite Go; [exact W0|]. intros (q & X). symmetry in X. apply app_eq_nil in X. destruct X as [-> _]. contradiction.
    - intros q x H. unfold g in H. destruct (under p (q ++ [x])) eqn:X; [contradiction|]. assert (B : ~ at_or_below p q). { intros (r & ->). rewrite <- app_assoc in X. assert (under p (p ++ r ++ [x]) = true) by (apply under_spec; eexists; reflexivity). congruence. }
      rewrite Go by exact B. exact (W1 q x H). }
  assert (K : forall h, wf h -> h p = None -> clear_way h p -> (forall q, at_or_below p q -> h q = None) -> (forall q, ~ at_or_below p q -> h q = f q) ->
    exists f', makedirs h p = Ok f' /\ wf f' /\ f' p = Some DirE /\ (forall q, at_or_below p q -> q <> p -> f' q = None) /\
      (forall q, above p q -> f' q = Some DirE) /\ (forall q, ~ at_or_below p q -> ~ above p q -> f' q = f q)).
  { intros h Wh Hn Hc Hb Ho. unfold makedirs. destruct (makedirs_ok (rev p) h Wh) as (f' & Ef & Wf & Hf & Af & Of).
    - intros X. apply N. rewrite <- (rev_involutive p), X. reflexivity.
    - rewrite rev_involutive. exact Hn.
    - rewrite rev_involutive. exact Hc.
    - rewrite rev_involutive in *. exists f'. split; [exact Ef|]. split; [exact Wf|]. split; [exact Hf|]. split; [|split; [exact Af|]].
      + intros q Bq Nq. rewrite Of; [exact (Hb q Bq)|exact Nq|]. intros A. exact (above_not_below _ _ A Bq).
      + intros q Bq Aq. rewrite Of; [exact (Ho q Bq)| |exact Aq]. intros ->. apply Bq. exists []. symmetry. apply app_nil_r. }
  unfold recreate. destruct (f p) as [e|] eqn:Ep.
  - destruct e; [contradiction|]. unfold rmtree. rewrite Ep. cbn [bind]. fold g. apply K; try assumption.
    + apply Gb. exists []. symmetry. apply app_nil_r.
    + intros q A. rewrite Go by (apply above_not_below; exact A). exact (C q A).
  - cbn [bind]. apply K; try assumption.
    + intros q (r & ->). induction r as [|x r IH] using rev_ind; [rewrite app_nil_r; exact Ep|]. destruct (f (p ++ r ++ [x])) eqn:X; [|reflexivity]. exfalso.
      assert (f (p ++ r) = Some DirE) by (destruct W as [_ W1]; apply (W1 _ x); rewrite <- app_assoc, X; discriminate). congruence.
    + reflexivity.
Qed.
Lemma recreate_err f p : wf f -> p <> [] -> f p = Some FileE \/ (exists q, above p q /\ f q = Some FileE) -> recreate f p = Err OSError.
Proof.
  intros W N H. unfold recreate. destruct H as [H|(q & A & H)].
  - rewrite H. unfold rmtree. rewrite H. reflexivity.
  - assert (Ep : f p = None). { destruct (f p) eqn:E; [|reflexivity]. exfalso. assert (f q = Some DirE) by (apply (wf_above f p); [exact W|rewrite E; discriminate|exact A]). congruence. }
    rewrite Ep. cbn [bind]. unfold makedirs. apply (makedirs_err _ q); [exact W|rewrite rev_involutive; exact A|exact H].
Qed.
(** A subfolder that does not exist yet. *)
Lemma recreate_sub f o s : f o = Some DirE -> f (o ++ [s]) = None -> recreate f (o ++ [s]) = Ok (upd f (o ++ [s]) (Some DirE)).
Proof.
  intros H1 H2. unfold recreate. rewrite H2. cbn [bind]. unfold makedirs. rewrite rev_app_distr. cbn [rev app makedirs_rev]. rewrite rev_involutive, H1. cbn [bind]. unfold mkdir. rewrite H2, removelast_snoc, H1. reflexivity.
Qed.
Lemma snoc_neq (o : list str) s : o ++ [s] <> o.
Proof. intros X. apply (f_equal (@length str)) in X. rewrite app_length in X. cbn in X. lia. Qed.

Lemma subdirs_ok subs : forall f o, f o = Some DirE -> (forall s, In s subs -> f (o ++ [s]) = None) -> NoDup subs ->
  exists f', foldM (fun f sub => recreate f (o ++ [sub])) subs f = Ok f' /\ (forall s, In s subs -> f' (o ++ [s]) = Some DirE) /\
    (forall q, (forall s, In s subs -> q <> o ++ [s]) -> f' q = f q).
Proof.
  induction subs as [|s subs IH]; intros f o H1 H2 ND; cbn [foldM].
  - exists f. split; [reflexivity|]. split; [intros s []|reflexivity].
  - inversion ND as [|? ? Hn ND']; subst. rewrite recreate_sub by (try exact H1; apply H2; left; reflexivity). cbn [bind].
    destruct (IH (upd f (o ++ [s]) (Some DirE)) o) as (f' & E & A & B).
    + rewrite upd_other; [exact H1|]. intros X. symmetry in X. exact (snoc_neq _ _ X).
    + intros s' Hs. rewrite upd_other; [apply H2; right; exact Hs|]. intros X. apply app_inj_tail in X. destruct X as [_ ->]. contradiction.
    + exact ND'.
    + exists f'. split; [exact E|]. split.
      * intros s' [<-|Hs]; [|exact (A s' Hs)]. rewrite B; [apply upd_same|]. intros s' Hs X. apply app_inj_tail in X. destruct X as [_ ->]. contradiction.
      * intros q Hq. rewrite B by (intros s' Hs; apply Hq; right; exact Hs). apply upd_other. apply Hq. left. reflexivity.
Qed.
Lemma subdirs_nodup : NoDup subdirs_1.
Proof. repeat constructor; cbn; intros H; repeat destruct H as [H|H]; try discriminate H; exact H. Qed.

Lemma creation_ok f o : wf f -> o <> [] -> f o <> Some FileE -> clear_way f o ->
  exists f', do_output_directory_creation f o = Ok f' /\ fresh_output f o f'.
Proof.
  intros W N E C. unfold do_output_directory_creation. destruct (recreate_ok f o W N E C) as (g & Eg & Wg & Hg & Bg & Ag & Og). rewrite Eg. cbn [bind].
  assert (BO : forall s, at_or_below o (o ++ [s])) by (intros s; exists [s]; reflexivity).
  destruct (subdirs_ok subdirs_1 g o Hg) as (f' & Ef & Af & Bf); [intros s _; apply Bg; [apply BO|apply snoc_neq]|exact subdirs_nodup|].
  exists f'. split; [exact Ef|]. split; [|split; [|split; [|split]]].
  - rewrite Bf; [exact Hg|]. intros s _ X. symmetry in X. exact (snoc_neq _ _ X).
  - intros p (s & -> & Hs). exact (Af s Hs).
  - intros p Bp Np Sp. rewrite Bf; [exact (Bg p Bp Np)|]. intros s Hs ->. apply Sp. exists s. split; [reflexivity|exact Hs].
  - intros p A. rewrite Bf; [exact (Ag p A)|]. intros s _ ->. exact (above_not_below _ _ A (BO s)).
  - intros p Bp Ap. rewrite Bf; [exact (Og p Bp Ap)|]. intros s _ ->. exact (Bp (BO s)).
Qed.

(** ** Executing operations *)
Lemma foldM_app {A B} (f : B -> A -> res B) l1 : forall l2 b, foldM f (l1 ++ l2) b = (let* b := foldM f l1 b in foldM f l2 b).
Proof. induction l1 as [|a l1 IH]; intros l2 b; cbn [app foldM]; [reflexivity|]. destruct (f b a); cbn [bind]; [apply IH|reflexivity]. Qed.
Lemma res_add cwd out n : resolve cwd (add out n) = resolve cwd out ++ [n].
Proof. destruct out; cbn; [reflexivity|apply app_assoc]. Qed.
Lemma res_in_dir cwd out s n : resolve cwd (in_dir out s n) = resolve cwd out ++ [s; n].
Proof. unfold in_dir. rewrite !res_add, <- app_assoc. reflexivity. Qed.

Lemma write_ok cwd (f : fsys) p : f (removelast (resolve cwd p)) = Some DirE -> f (resolve cwd p) <> Some DirE -> exec (cwd, f) (OpWrite p) = Ok (cwd, upd f (resolve cwd p) (Some FileE)).
Proof. intros H1 H2. cbn [exec]. destruct (f (resolve cwd p)) as [[|]|]; try contradiction; rewrite H1; reflexivity. Qed.
Lemma writes_ok {X} (mk : X -> path) cwd xs : forall f : fsys, (forall x, In x xs -> f (removelast (resolve cwd (mk x))) = Some DirE /\ f (resolve cwd (mk x)) <> Some DirE) ->
  exists f' : fsys, foldM exec (map (fun x => OpWrite (mk x)) xs) (cwd, f) = Ok (cwd, f') /\
    (forall x, In x xs -> f' (resolve cwd (mk x)) = Some FileE) /\ (forall q, (forall x, In x xs -> q <> resolve cwd (mk x)) -> f' q = f q).
Proof.
  induction xs as [|x xs IH]; intros f H; cbn [map foldM].
  - exists f. split; [reflexivity|]. split; [intros x []|reflexivity].
  - destruct (H x (or_introl eq_refl)) as [H1 H2]. rewrite write_ok by assumption. cbn [bind]. set (r := resolve cwd (mk x)) in *.
    destruct (IH (upd f r (Some FileE))) as (f' & E & A & B).
    + intros y Hy. destruct (H y (or_intror Hy)) as [H3 H4]. split.
      * rewrite upd_other; [exact H3|]. intros X0. rewrite X0 in H3. contradiction.
      * destruct (peqb_spec (resolve cwd (mk y)) r) as [->|]; [rewrite upd_same; discriminate|rewrite upd_other by assumption; exact H4].
    + exists f'. split; [exact E|]. split.
      * intros y [<-|Hy]; [|exact (A y Hy)]. fold r. destruct (in_dec path_eq_dec r (map (fun z => resolve cwd (mk z)) xs)) as [I|I].
        -- apply in_map_iff in I. destruct I as (z & <- & Hz). exact (A z Hz).
        -- rewrite B; [apply upd_same|]. intros z Hz X0. apply I. rewrite X0. apply in_map_iff. exists z. auto.
      * intros q Hq. rewrite B by (intros y Hy; apply Hq; right; exact Hy). apply upd_other. apply Hq. left. reflexivity.
Qed.

(** Names *)
Lemma dem_lcv t : dem_name t <> lcv_name t.
Proof. intros X. apply (f_equal (@length ascii)) in X. unfold dem_name, lcv_name in X. rewrite !app_length in X. cbn in X. lia. Qed.
Lemma last_char_eq (a b : str) x y : a ++ [x] = b ++ [y] -> x = y.
Proof. intros X. apply app_inj_tail in X. tauto. Qed.
Lemma img_not_nc (a t u : str) d : a ++ lit ".img" <> nc_name t u d.
Proof.
  unfold nc_name. change (lit ".img") with (lit ".im" ++ ["g"%char]). change (lit ".nc") with (lit ".n" ++ ["c"%char]). rewrite !app_assoc. intros X. apply last_char_eq in X. discriminate.
Qed.
Lemma ms_not_nc t t' u d : ms_name t <> nc_name t' u d.
Proof. unfold ms_name. change (lit "_ms.img") with (lit "_ms" ++ lit ".img"). rewrite app_assoc. apply img_not_nc. Qed.
Lemma img_not_sub (a : str) : ~ In (a ++ lit ".img") subdirs_1.
Proof.
  intros H. assert (K : forallb (fun s => negb (existsb (Ascii.eqb dot) s)) subdirs_1 = true) by reflexivity.
  rewrite forallb_forall in K. apply K in H. apply Bool.negb_true_iff in H. assert (X : existsb (Ascii.eqb dot) (a ++ lit ".img") = true); [|congruence].
  apply existsb_exists. exists dot. split; [apply in_or_app; right; left; reflexivity|apply Ascii.eqb_refl].
Qed.
Lemma dem_not_sub t : ~ In (dem_name t) subdirs_1.
Proof. unfold dem_name. change (lit "_dem.img") with (lit "_dem" ++ lit ".img"). rewrite app_assoc. apply img_not_sub. Qed.
Lemma nc_not_xml t u d : is_xml (nc_name t u d) = false.
Proof.
  assert (E : exists a b, nc_name t u d = a ++ [b; dot; "n"%char; "c"%char]).
  { unfold nc_name. destruct (exists_last (l := t ++ lit "_" ++ u ++ lit "_" ++ dir_str d)) as (a & b & E).
    - destruct t; discriminate.
    - exists a, b. replace (t ++ lit "_" ++ u ++ lit "_" ++ dir_str d ++ lit ".nc") with ((t ++ lit "_" ++ u ++ lit "_" ++ dir_str d) ++ lit ".nc") by (rewrite <- !app_assoc; reflexivity). rewrite E, <- app_assoc. reflexivity. }
  destruct E as (a & b & ->). unfold is_xml. destruct (a ++ [b; dot; "n"%char; "c"%char]) as [|c l] eqn:X; [destruct a; discriminate|]. rewrite <- X.
  assert (L : last_n 4 (a ++ [b; dot; "n"%char; "c"%char]) = [b; dot; "n"%char; "c"%char]).
  { unfold last_n. rewrite app_length. cbn [length]. replace (length a + 4 - 4)%nat with (length a + 0)%nat by lia. rewrite skipn_app, skipn_all2, Nat.add_0_r, Nat.sub_diag by lia. reflexivity. }
  rewrite L. assert (Y : peqb [[b; dot; "n"%char; "c"%char]] [lit ".xml"] = false).
  { match goal with |- peqb ?x ?y = false => destruct (peqb_spec x y) as [Y|Y]; [exfalso|reflexivity] end. injection Y. intros. discriminate. }
  match goal with |- context [peqb ?x ?y] => replace (peqb x y) with false by (symmetry; exact Y) end. destruct (negb (Ascii.eqb c dot)); reflexivity.
Qed.

(** ** One tile *)
Section Tile.
  Variables (base : fsys) (f00 : fsys) (o : list str).
  Hypothesis Fresh : fresh_output f00 o base.

  (** The state between tiles: the base plus the result files of tiles done. *)
  Definition between (done : list (str * bool)) (f : fsys) : Prop :=
    (forall p t, In (t, true) done -> result_file o t p -> f p = Some FileE) /\
    (forall p, (forall t, In (t, true) done -> ~ result_file o t p) -> f p = base p).

  Lemma base_top n : ~ In n subdirs_1 -> base (o ++ [n]) = None.
  Proof.
    intros H. destruct Fresh as (_ & _ & B & _ & _). apply B; [exists [n]; reflexivity|apply snoc_neq|]. intros (s & E & Hs). apply app_inj_tail in E. destruct E as [_ ->]. contradiction.
  Qed.
  Lemma base_deep q : (2 <= length q)%nat -> base (o ++ q) = None.
  Proof.
    intros H. destruct Fresh as (_ & _ & B & _ & _). apply B; [exists q; reflexivity| |].
    - intros X. apply (f_equal (@length str)) in X. rewrite app_length in X. lia.
    - intros (s & E & _). apply (f_equal (@length str)) in E. rewrite !app_length in E. cbn in E. lia.
  Qed.
  Lemma result_form t p : result_file o t p -> exists s u d, p = o ++ [s; nc_name t u d].
  Proof. intros (d & [-> | [-> | ->]]); do 3 eexists; reflexivity. Qed.
  Lemma between_top done f q : between done f -> (length q <= 1)%nat -> f (o ++ q) = base (o ++ q).
  Proof.
    intros [_ B] L. apply B. intros t _ R. apply result_form in R. destruct R as (s & u & d & E). apply app_inv_head in E. subst q. cbn in L. lia.
  Qed.
  Lemma between_deep done f q : between done f -> (3 <= length q)%nat -> f (o ++ q) = None.
  Proof.
    intros [_ B] L. rewrite B; [apply base_deep; lia|]. intros t _ R. apply result_form in R. destruct R as (s & u & d & E). apply app_inv_head in E. subst q. cbn in L. lia.
  Qed.
  Lemma between_dir done f q : between done f -> (f q = Some DirE <-> base q = Some DirE).
  Proof.
    intros [A B]. destruct (in_dec path_eq_dec q (flat_map (fun t : str * bool => if snd t then flat_map (fun d => [o ++ [lit "terrain"; nc_name (fst t) (lit "mz") d]; o ++ [lit "shielding"; nc_name (fst t) (lit "ms") d]; o ++ [lit "topographic"; nc_name (fst t) (lit "mt") d]]) stage_dirs else []) done)) as [I|I].
    - apply in_flat_map in I. destruct I as ([t b] & Ht & I). cbn [snd fst] in I. destruct b; [|contradiction]. apply in_flat_map in I. destruct I as (d & _ & I).
      assert (R : result_file o t q) by (exists d; cbn in I; destruct I as [<-|[<-|[<-|[]]]]; auto). rewrite (A q t Ht R). split; [discriminate|]. intros D. apply result_form in R. destruct R as (s & u & d' & ->). rewrite base_deep in D by (cbn; lia). discriminate.
    - rewrite B; [tauto|]. intros t Ht (d & R). apply I. apply in_flat_map. exists (t, true). split; [exact Ht|]. cbn [snd fst]. apply in_flat_map. exists d. split; [destruct d; cbn; auto 10|]. cbn. destruct R as [-> | [-> | ->]]; auto.
  Qed.

  Variables (out : path) (cwd : list str).
  Hypothesis Out : resolve cwd out = o.

  Lemma sub_dir s : In s subdirs_1 -> base (o ++ [s]) = Some DirE.
  Proof. intros H. destruct Fresh as (_ & S & _). apply S. exists s. split; [reflexivity|exact H]. Qed.
  Lemma out_dir : base o = Some DirE.
  Proof. exact (proj1 Fresh). Qed.

  Definition half (t : str) : list op :=
    let dem := add out (dem_name t) in
    let lcv := add out (lcv_name t) in
    let ms := in_dir out (lit "shielding") (ms_name t) in
    [OpWrite dem; OpOpen dem; OpWrite lcv; OpOpen lcv] ++
    map (fun d => OpWrite (in_dir out (lit "terrain") (nc_name t (lit "mz") d))) stage_dirs ++
    [OpOpen dem; OpOpen lcv; OpWrite ms; OpOpen ms] ++
    map (fun d => OpWrite (in_dir out (lit "shielding") (nc_name t (lit "ms") d))) stage_dirs ++
    [OpRemoveQuiet ms; OpChdir (add out (lit "shielding")); OpRemoveXml].
  Definition rest (t : str) : list op :=
    let dem := add out (dem_name t) in
    let lcv := add out (lcv_name t) in
    [OpOpen dem] ++ map (fun d => OpWrite (in_dir out (lit "topographic") (nc_name t (lit "mt") d))) topo_dirs ++ [OpRemove dem; OpRemove lcv].
  Lemma tile_ops_data t : tile_ops out t true = half t ++ rest t.
  Proof. reflexivity. Qed.

  Lemma exec_open (f : fsys) c p : f (resolve c p) = Some FileE -> exec (c, f) (OpOpen p) = Ok (c, f).
  Proof. intros H. cbn [exec]. rewrite H. reflexivity. Qed.
  Lemma all_dirs d : In d stage_dirs.
  Proof. destruct d; cbn; auto 10. Qed.
  Lemma all_dirs_topo d : In d topo_dirs.
  Proof. destruct d; cbn; auto 10. Qed.
  Lemma pair_len (s n : str) q : o ++ [s; n] = o ++ q -> length q = 2%nat.
  Proof. intros E. apply app_inv_head in E. subst q. reflexivity. Qed.

  Lemma first_half t done f : between done f ->
    exists f', foldM exec (half t) (cwd, f) = Ok (o ++ [lit "shielding"], f') /\
      f' (o ++ [dem_name t]) = Some FileE /\ f' (o ++ [lcv_name t]) = Some FileE /\
      (forall d, f' (o ++ [lit "terrain"; nc_name t (lit "mz") d]) = Some FileE /\ f' (o ++ [lit "shielding"; nc_name t (lit "ms") d]) = Some FileE) /\
      (forall q, q <> o ++ [dem_name t] -> q <> o ++ [lcv_name t] -> (forall d, q <> o ++ [lit "terrain"; nc_name t (lit "mz") d] /\ q <> o ++ [lit "shielding"; nc_name t (lit "ms") d]) -> f' q = f q).
  Proof.
    intros Bt. set (pd := o ++ [dem_name t]). set (pl := o ++ [lcv_name t]). set (pm := o ++ [lit "shielding"; ms_name t]).
    assert (Fo : f o = Some DirE) by (apply (between_dir done); [exact Bt|exact out_dir]).
    assert (Fs : forall s, In s subdirs_1 -> f (o ++ [s]) = Some DirE) by (intros s Hs; apply (between_dir done); [exact Bt|exact (sub_dir s Hs)]).
    assert (Fd : f pd = None) by (unfold pd; rewrite (between_top done f [dem_name t] Bt) by (cbn; lia); apply base_top, dem_not_sub).
    assert (Fl : f pl = None) by (unfold pl; rewrite (between_top done f [lcv_name t] Bt) by (cbn; lia); apply base_top, img_not_sub).
    assert (Fm : f pm = None).
    { destruct Bt as [_ B]. unfold pm. rewrite B; [apply base_deep; cbn; lia|]. intros t' _ R. apply result_form in R. destruct R as (s & u & d & E). apply app_inv_head in E. injection E as _ E. exact (ms_not_nc _ _ _ _ E). }
    assert (Dl : pd <> pl) by (intros X; apply app_inj_tail in X; destruct X as [_ X]; exact (dem_lcv t X)).
    assert (Two : forall s n x, o ++ [s; n] <> o ++ [x]) by (intros s n x X; apply app_inv_head in X; discriminate).
    assert (Rl : forall s n, removelast (o ++ [s; n]) = o ++ [s]) by (intros s n; change (o ++ [s; n]) with (o ++ [s] ++ [n]); rewrite app_assoc, removelast_snoc; reflexivity).
    assert (Nd : forall f2, f2 pd = Some FileE -> pd <> o) by (intros; apply snoc_neq).
    unfold half. rewrite foldM_app.
    (* DEM and land cover *)
    assert (E1 : foldM exec [OpWrite (add out (dem_name t)); OpOpen (add out (dem_name t)); OpWrite (add out (lcv_name t)); OpOpen (add out (lcv_name t))] (cwd, f) = Ok (cwd, upd (upd f pd (Some FileE)) pl (Some FileE))).
    { cbn [foldM]. rewrite write_ok; rewrite ?res_add, ?Out, ?removelast_snoc; fold pd; [|exact Fo|rewrite Fd; discriminate]. cbn [bind]. rewrite exec_open by (rewrite res_add, Out; apply upd_same). cbn [bind].
      rewrite write_ok; rewrite ?res_add, ?Out, ?removelast_snoc; fold pl.
      - cbn [bind]. rewrite exec_open by (rewrite res_add, Out; apply upd_same). reflexivity.
      - rewrite upd_other; [exact Fo|]. intros X. symmetry in X. exact (snoc_neq _ _ X).
      - rewrite upd_other by (intros X; symmetry in X; exact (Dl X)). rewrite Fl. discriminate. }
    rewrite E1. cbn [bind]. clear E1. set (f2 := upd (upd f pd (Some FileE)) pl (Some FileE)).
    assert (F2 : forall q, q <> pd -> q <> pl -> f2 q = f q) by (intros q H1 H2; unfold f2; rewrite !upd_other by assumption; reflexivity).
    assert (F2d : f2 pd = Some FileE) by (unfold f2; rewrite upd_other by exact Dl; apply upd_same). assert (F2l : f2 pl = Some FileE) by apply upd_same.
    assert (F2s : forall s, In s subdirs_1 -> f2 (o ++ [s]) = Some DirE).
    { intros s Hs. rewrite F2; [exact (Fs s Hs)| |]; intros X; apply app_inj_tail in X; destruct X as [_ ->]; [exact (dem_not_sub t Hs)|exact (img_not_sub t Hs)]. }
    assert (NDir : forall s n, f (o ++ [s; n]) <> Some DirE) by (intros s n X; apply (between_dir done f _ Bt) in X; rewrite base_deep in X by (cbn; lia); discriminate).
    (* terrain *)
    rewrite foldM_app. destruct (writes_ok (fun d => in_dir out (lit "terrain") (nc_name t (lit "mz") d)) cwd stage_dirs f2) as (f3 & E3 & A3 & B3).
    { intros d _. rewrite res_in_dir, Out, Rl. split; [apply F2s; cbn; auto|]. rewrite F2 by apply Two. apply NDir. }
    rewrite E3. cbn [bind]. clear E3. assert (A3' : forall d, f3 (o ++ [lit "terrain"; nc_name t (lit "mz") d]) = Some FileE) by (intros d; specialize (A3 d (all_dirs d)); rewrite res_in_dir, Out in A3; exact A3).
    assert (B3' : forall q, (forall d, q <> o ++ [lit "terrain"; nc_name t (lit "mz") d]) -> f3 q = f2 q) by (intros q H; apply B3; intros d _; rewrite res_in_dir, Out; apply H). clear A3 B3.
    assert (T3 : forall x, f3 (o ++ [x]) = f2 (o ++ [x])) by (intros x; apply B3'; intros d X; symmetry in X; exact (Two _ _ _ X)).
    (* initial shielding raster *)
    rewrite foldM_app. assert (F3m : f3 pm = None).
    { rewrite B3'; [rewrite F2 by apply Two; exact Fm|]. intros d X. apply app_inv_head in X. injection X as X _. discriminate. }
    assert (E4 : foldM exec [OpOpen (add out (dem_name t)); OpOpen (add out (lcv_name t)); OpWrite (in_dir out (lit "shielding") (ms_name t)); OpOpen (in_dir out (lit "shielding") (ms_name t))] (cwd, f3) = Ok (cwd, upd f3 pm (Some FileE))).
    { cbn [foldM]. rewrite exec_open by (rewrite res_add, Out, T3; exact F2d). cbn [bind]. rewrite exec_open by (rewrite res_add, Out, T3; exact F2l). cbn [bind].
      rewrite write_ok; rewrite ?res_in_dir, ?Out, ?Rl; fold pm; [|rewrite T3; apply F2s; cbn; auto|rewrite F3m; discriminate]. cbn [bind]. rewrite exec_open by (rewrite res_in_dir, Out; apply upd_same). reflexivity. }
    rewrite E4. cbn [bind]. clear E4. set (f4 := upd f3 pm (Some FileE)). assert (F4 : forall q, q <> pm -> f4 q = f3 q) by (intros q H; apply upd_other; exact H).
    assert (T4 : forall x, f4 (o ++ [x]) = f2 (o ++ [x])) by (intros x; rewrite F4 by (intros X; symmetry in X; exact (Two _ _ _ X)); apply T3).
    (* shielding *)
    rewrite foldM_app. destruct (writes_ok (fun d => in_dir out (lit "shielding") (nc_name t (lit "ms") d)) cwd stage_dirs f4) as (f5 & E5 & A5 & B5).
    { intros d _. rewrite res_in_dir, Out, Rl. split; [rewrite T4; apply F2s; cbn; auto|]. rewrite F4 by (intros X; apply app_inv_head in X; injection X as X; symmetry in X; exact (ms_not_nc _ _ _ _ X)).
      rewrite B3' by (intros d' X; apply app_inv_head in X; injection X as X _; discriminate). rewrite F2 by apply Two. apply NDir. }
    rewrite E5. cbn [bind]. clear E5. assert (A5' : forall d, f5 (o ++ [lit "shielding"; nc_name t (lit "ms") d]) = Some FileE) by (intros d; specialize (A5 d (all_dirs d)); rewrite res_in_dir, Out in A5; exact A5).
    assert (B5' : forall q, (forall d, q <> o ++ [lit "shielding"; nc_name t (lit "ms") d]) -> f5 q = f4 q) by (intros q H; apply B5; intros d _; rewrite res_in_dir, Out; apply H). clear A5 B5.
    assert (T5 : forall x, f5 (o ++ [x]) = f2 (o ++ [x])) by (intros x; rewrite B5' by (intros d X; symmetry in X; exact (Two _ _ _ X)); apply T4).
    assert (F5m : f5 pm = Some FileE). { rewrite B5' by (intros d X; apply app_inv_head in X; injection X as X; exact (ms_not_nc _ _ _ _ X)). apply upd_same. }
    (* remove, change directory, remove xml *)
    cbn [foldM]. cbn [exec]. rewrite res_in_dir, Out. fold pm. rewrite F5m. cbn [bind exec]. rewrite res_add, Out. set (f6 := upd f5 pm None).
    assert (F6 : forall q, q <> pm -> f6 q = f5 q) by (intros q H; apply upd_other; exact H). assert (T6 : forall x, f6 (o ++ [x]) = f2 (o ++ [x])) by (intros x; rewrite F6 by (intros X; symmetry in X; exact (Two _ _ _ X)); apply T5).
    rewrite T6, (F2s (lit "shielding")) by (cbn; auto). cbn [bind exec]. eexists. split; [reflexivity|].
    set (f7 := fun q => match f6 q with Some FileE => if peqb (removelast q) (o ++ [lit "shielding"]) && is_xml (last q []) && negb (peqb q []) then None else Some FileE | e => e end).
    assert (Sh6 : forall q, removelast q = o ++ [lit "shielding"] -> f6 q = Some FileE -> is_xml (last q []) = false).
    { intros q Hq Fq. assert (Eq : exists n, q = o ++ [lit "shielding"; n]).
      { destruct q as [|a q0] using rev_ind; [cbn in Hq; symmetry in Hq; apply app_eq_nil in Hq; destruct Hq; discriminate|]. rewrite removelast_snoc in Hq. exists a. rewrite Hq, <- app_assoc. reflexivity. }
      destruct Eq as (n & ->). assert (Ln : last (o ++ [lit "shielding"; n]) [] = n) by (change [lit "shielding"; n] with ([lit "shielding"] ++ [n]); rewrite app_assoc; apply last_last). rewrite Ln.
      destruct (in_dec path_eq_dec (o ++ [lit "shielding"; n]) (map (fun d => o ++ [lit "shielding"; nc_name t (lit "ms") d]) stage_dirs)) as [I|I].
      - apply in_map_iff in I. destruct I as (d & I & _). apply app_inv_head in I. injection I as <-. apply nc_not_xml.
      - assert (Npm : o ++ [lit "shielding"; n] <> pm) by (intros X; rewrite X in Fq; unfold f6 in Fq; rewrite upd_same in Fq; discriminate).
        rewrite F6 in Fq by exact Npm. rewrite B5' in Fq by (intros d X; apply I; rewrite X; apply in_map_iff; exists d; split; [reflexivity|apply all_dirs]). rewrite F4 in Fq by exact Npm.
        rewrite B3' in Fq by (intros d X; apply app_inv_head in X; injection X as X _; discriminate). rewrite F2 in Fq by apply Two. destruct Bt as [A B].
        destruct (in_dec path_eq_dec (o ++ [lit "shielding"; n]) (flat_map (fun t : str * bool => if snd t then map (fun d => o ++ [lit "shielding"; nc_name (fst t) (lit "ms") d]) stage_dirs else []) done)) as [J|J].
        + apply in_flat_map in J. destruct J as ([t' b] & _ & J). cbn [fst snd] in J. destruct b; [|contradiction]. apply in_map_iff in J. destruct J as (d & J & _). apply app_inv_head in J. injection J as <-. apply nc_not_xml.
        + rewrite B in Fq; [rewrite base_deep in Fq by (cbn; lia); discriminate|]. intros t' Ht (d & [X|[X|X]]); apply app_inv_head in X; injection X; intros; subst; try discriminate.
          apply J. apply in_flat_map. exists (t', true). split; [exact Ht|]. cbn [fst snd]. apply in_map_iff. exists d. split; [reflexivity|apply all_dirs]. }
    assert (F7 : forall q, f7 q = f6 q).
    { intros q. unfold f7. destruct (f6 q) as [[|]|] eqn:X; try reflexivity. destruct (peqb_spec (removelast q) (o ++ [lit "shielding"])) as [Y|Y]; [|reflexivity]. rewrite (Sh6 q Y X). reflexivity. }
    assert (NTm : forall u d, u <> lit "shielding" -> o ++ [u; nc_name t (lit "mz") d] <> pm) by (intros u d Hu X; apply app_inv_head in X; injection X as X _; contradiction).
    split; [rewrite F7; unfold pd; rewrite T6; exact F2d|]. split; [rewrite F7; unfold pl; rewrite T6; exact F2l|]. split.
    - intros d. rewrite !F7. split.
      + rewrite F6 by (apply NTm; discriminate). rewrite B5' by (intros d' X; apply app_inv_head in X; injection X as X _; discriminate). rewrite F4 by (apply NTm; discriminate). apply A3'.
      + rewrite F6 by (intros X; apply app_inv_head in X; injection X as X; symmetry in X; exact (ms_not_nc _ _ _ _ X)). apply A5'.
    - intros q H1 H2 H3. rewrite F7. destruct (peqb_spec q pm) as [->|Npm]; [unfold f6; rewrite upd_same, Fm; reflexivity|]. rewrite F6 by exact Npm. rewrite B5' by (intros d; apply H3). rewrite F4 by exact Npm. rewrite B3' by (intros d; apply H3). apply F2; assumption.
  Qed.

  (** A tile without data leaves no trace. *)
  Lemma tile_empty t done f : between done f -> exists f', foldM exec (tile_ops out t false) (cwd, f) = Ok (cwd, f') /\ between (done ++ [(t, false)]) f'.
  Proof.
    intros Bt. unfold tile_ops. cbn [app foldM]. set (pd := o ++ [dem_name t]). assert (Fo : f o = Some DirE) by (apply (between_dir done); [exact Bt|exact out_dir]).
    assert (Fd : f pd = None) by (unfold pd; rewrite (between_top done f [dem_name t] Bt) by (cbn; lia); apply base_top, dem_not_sub).
    rewrite write_ok; rewrite ?res_add, ?Out, ?removelast_snoc; fold pd; [|exact Fo|rewrite Fd; discriminate]. cbn [bind]. rewrite exec_open by (rewrite res_add, Out; apply upd_same). cbn [bind exec]. rewrite res_add, Out. fold pd. rewrite upd_same. cbn [bind].
    eexists. split; [reflexivity|]. assert (P : forall q, upd (upd f pd (Some FileE)) pd None q = f q) by (intros q; destruct (peqb_spec q pd) as [->|N]; [rewrite upd_same, Fd; reflexivity|rewrite !upd_other by exact N; reflexivity]).
    destruct Bt as [A B]. split.
    - intros p t' Ht R. rewrite P. apply in_app_or in Ht. destruct Ht as [Ht|[X|[]]]; [exact (A p t' Ht R)|discriminate].
    - intros p H. rewrite P. apply B. intros t' Ht. apply H. apply in_or_app. left. exact Ht.
  Qed.
End Tile.

(** With an absolute output folder a tile with data adds its 24 files. *)
Lemma tile_full base f00 o t done f cwd : fresh_output f00 o base -> between base o done f ->
  exists f', foldM exec (tile_ops (Abs o) t true) (cwd, f) = Ok (o ++ [lit "shielding"], f') /\ between base o (done ++ [(t, true)]) f'.
Proof.
  intros Fr Bt. rewrite tile_ops_data, foldM_app. destruct (first_half base f00 o Fr (Abs o) cwd eq_refl t done f Bt) as (g & E & Gd & Gl & Gn & Go). rewrite E. cbn [bind]. clear E.
  set (pd := o ++ [dem_name t]) in *. set (pl := o ++ [lcv_name t]) in *. set (c := o ++ [lit "shielding"]).
  assert (Two : forall s n x, o ++ [s; n] <> o ++ [x]) by (intros s n x X; apply app_inv_head in X; discriminate).
  assert (Rl : forall s n, removelast (o ++ [s; n]) = o ++ [s]) by (intros s n; change (o ++ [s; n]) with (o ++ [s] ++ [n]); rewrite app_assoc, removelast_snoc; reflexivity).
  assert (Dl : pd <> pl) by (intros X; apply app_inj_tail in X; destruct X as [_ X]; exact (dem_lcv t X)).
  unfold rest. cbn [app foldM]. rewrite exec_open by exact Gd. cbn [bind]. rewrite foldM_app.
  destruct (writes_ok (fun d => in_dir (Abs o) (lit "topographic") (nc_name t (lit "mt") d)) c topo_dirs g) as (h & E & A & B).
  { intros d _. rewrite res_in_dir. cbn [resolve]. rewrite Rl. assert (Q : g (o ++ [lit "topographic"]) = f (o ++ [lit "topographic"])).
    { apply Go; [intros X; apply app_inj_tail in X; destruct X as [_ X]; apply (dem_not_sub t); rewrite <- X; cbn; auto|intros X; apply app_inj_tail in X; destruct X as [_ X]; apply (img_not_sub t); unfold lcv_name in X; rewrite <- X; cbn; auto|].
      intros d'; split; intros X; symmetry in X; exact (Two _ _ _ X). }
    rewrite Q. split; [apply (between_dir base f00 o Fr done); [exact Bt|apply (sub_dir base f00 o Fr); cbn; auto]|].
    rewrite Go; [|apply Two|apply Two|intros d'; split; intros X; apply app_inv_head in X; injection X as X _; discriminate].
    intros X. apply (between_dir base f00 o Fr done f _ Bt) in X. rewrite (base_deep base f00 o Fr) in X by (cbn; lia). discriminate. }
  rewrite E. cbn [bind]. clear E. assert (A' : forall d, h (o ++ [lit "topographic"; nc_name t (lit "mt") d]) = Some FileE) by (intros d; specialize (A d (all_dirs_topo d)); rewrite res_in_dir in A; exact A).
  assert (B' : forall q, (forall d, q <> o ++ [lit "topographic"; nc_name t (lit "mt") d]) -> h q = g q) by (intros q H; apply B; intros d _; rewrite res_in_dir; apply H). clear A B.
  assert (Top : forall x, h (o ++ [x]) = g (o ++ [x])) by (intros x; apply B'; intros d X; symmetry in X; exact (Two _ _ _ X)).
  cbn [foldM exec add resolve]. fold pd. unfold pd at 1. rewrite Top. fold pd. rewrite Gd. cbn [bind exec add resolve]. fold pl. rewrite upd_other by (intros X; symmetry in X; exact (Dl X)). unfold pl at 1. rewrite Top. fold pl. rewrite Gl. cbn [bind].
  eexists. split; [reflexivity|]. set (k := upd (upd h pd None) pl None).
  assert (Kd : k pd = None) by (unfold k; rewrite upd_other by exact Dl; apply upd_same). assert (Kl : k pl = None) by apply upd_same. assert (K : forall q, q <> pd -> q <> pl -> k q = h q) by (intros q H1 H2; unfold k; rewrite !upd_other by assumption; reflexivity).
  assert (Fd : base pd = None) by (apply (base_top base f00 o Fr), dem_not_sub). assert (Fl : base pl = None) by (apply (base_top base f00 o Fr), img_not_sub).
  destruct Bt as [A B]. split.
  - intros p t' Ht R. apply in_app_or in Ht. pose proof R as R0. destruct R as (d & R). assert (N1 : p <> pd) by (destruct R as [-> | [-> | ->]]; apply Two). assert (N2 : p <> pl) by (destruct R as [-> | [-> | ->]]; apply Two). rewrite K by assumption.
    destruct Ht as [Ht|[X|[]]].
    + assert (Fp : f p = Some FileE) by exact (A p t' Ht R0).
      destruct (in_dec path_eq_dec p (map (fun d => o ++ [lit "topographic"; nc_name t (lit "mt") d]) topo_dirs)) as [I|I]; [apply in_map_iff in I; destruct I as (d' & <- & _); apply A'|].
      rewrite B' by (intros d' X; apply I; rewrite X; apply in_map_iff; exists d'; split; [reflexivity|apply all_dirs_topo]).
      destruct (in_dec path_eq_dec p (flat_map (fun d => [o ++ [lit "terrain"; nc_name t (lit "mz") d]; o ++ [lit "shielding"; nc_name t (lit "ms") d]]) stage_dirs)) as [J|J].
      * apply in_flat_map in J. destruct J as (d' & _ & [<-|[<-|[]]]); apply Gn.
      * rewrite Go; [exact Fp|exact N1|exact N2|]. intros d'; split; intros X; apply J; apply in_flat_map; exists d'; (split; [apply all_dirs|cbn; auto]).
    + injection X as <-. destruct R as [-> | [-> | ->]].
      * rewrite B' by (intros d' X; apply app_inv_head in X; injection X as X _; discriminate). apply Gn.
      * rewrite B' by (intros d' X; apply app_inv_head in X; injection X as X _; discriminate). apply Gn.
      * apply A'.
  - intros p H. assert (Ht : ~ result_file o t p) by (apply H; apply in_or_app; right; left; reflexivity).
    destruct (peqb_spec p pd) as [->|N1]; [rewrite Kd, Fd; reflexivity|]. destruct (peqb_spec p pl) as [->|N2]; [rewrite Kl, Fl; reflexivity|]. rewrite K by assumption.
    rewrite B' by (intros d X; apply Ht; exists d; auto). rewrite Go; [|exact N1|exact N2|intros d; split; intros X; apply Ht; exists d; auto]. apply B. intros t' Ht'. apply H. apply in_or_app. left. exact Ht'.
Qed.

(** With a relative output folder the topographic stage looks in the wrong place. *)
Lemma tile_relative base f00 cwd o t done f : o <> [] -> fresh_output f00 (cwd ++ o) base -> between base (cwd ++ o) done f ->
  foldM exec (tile_ops (Rel o) t true) (cwd, f) = Err OSError.
Proof.
  intros No Fr Bt. rewrite tile_ops_data, foldM_app. destruct (first_half base f00 (cwd ++ o) Fr (Rel o) cwd eq_refl t done f Bt) as (g & E & _ & _ & _ & Go). rewrite E. cbn [bind]. clear E.
  unfold rest. cbn [app foldM exec add resolve].
  assert (X : g (((cwd ++ o) ++ [lit "shielding"]) ++ o ++ [dem_name t]) = None); [|rewrite X; reflexivity].
  assert (L : exists y q, o ++ [dem_name t] = y :: q /\ q <> []) by (destruct o as [|y o]; [contradiction|]; exists y, (o ++ [dem_name t]); split; [reflexivity|destruct o; discriminate]).
  rewrite <- app_assoc. cbn [app]. destruct L as (y & q & -> & Hq). destruct q as [|z q]; [contradiction|].
  rewrite Go; [apply (between_deep base f00 _ Fr done); [exact Bt|cbn; lia]| | |intros d; split]; intros X; apply app_inv_head in X; discriminate.
Qed.
