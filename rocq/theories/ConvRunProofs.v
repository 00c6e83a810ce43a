From Coq Require Import Permutation.
From Verif Require Import Base BaseLemmas PyStr NameModel NameSpec NameProofs PipeSpec DistModel ConvModel ConvSpec ConvProofs ConvRunSpec.
Open Scope Z_scope.

Lemma pjoin_pre a : exists b, forall f, pjoin a f = b ++ f.
Proof.
  unfold pjoin. destruct (rev a) as [|x l] eqn:E.
  - exists []. reflexivity.
  - destruct (Ascii.eqb x slash); [exists a; reflexivity|]. exists (a ++ [slash]). intros f. rewrite <- app_assoc. reflexivity.
Qed.

Lemma m3_path_inj path t t' : m3_path path t = m3_path path t' -> t = t'.
Proof. intros H. apply pjoin_inj in H. apply app_inv_tail in H. exact H. Qed.
Lemma m3max_path_inj path t t' : m3max_path path t = m3max_path path t' -> t = t'.
Proof. intros H. apply pjoin_inj in H. apply app_inv_tail in H. exact H. Qed.

Lemma pjoin_M3 b f x : (forall b', x <> b' ++ [slash]) -> x <> [] -> pjoin (b ++ x) f = b ++ x ++ slash :: f.
Proof.
  intros H Hx. rewrite pjoin_nonempty_dir.
  - rewrite <- app_assoc. reflexivity.
  - destruct b, x; try discriminate. contradiction.
  - intros b' E. destruct x as [|y x] using rev_ind; [contradiction|]. rewrite app_assoc in E. apply app_inj_tail in E.
    destruct E as [_ ->]. apply (H x). reflexivity.
Qed.

Lemma m3_max_ne path t t' : m3_path path t <> m3max_path path t'.
Proof.
  unfold m3_path, m3max_path. destruct (pjoin_pre path) as (b & Hb). rewrite !Hb.
  rewrite (pjoin_M3 b (t ++ lit ".tif") (lit "M3")), (pjoin_M3 b (t' ++ lit ".tif") (lit "M3_max")).
  - intros E. apply app_inv_head in E. discriminate.
  - intros b' E. apply (f_equal (@rev ascii)) in E. rewrite rev_app_distr in E. discriminate.
  - discriminate.
  - intros b' E. apply (f_equal (@rev ascii)) in E. rewrite rev_app_distr in E. discriminate.
  - discriminate.
Qed.

Lemma tif_ne_nc a b x y : pjoin a (x ++ lit ".tif") <> pjoin b (y ++ lit ".nc").
Proof.
  destruct (pjoin_pre a) as (a' & ->), (pjoin_pre b) as (b' & ->).
  rewrite !app_assoc. intros E. apply (f_equal (@rev ascii)) in E. rewrite !rev_app_distr in E. discriminate.
Qed.

Lemma convert_nc_tail path t ty d : exists a y, convert_nc path t ty d = pjoin a (y ++ lit ".nc").
Proof. unfold convert_nc. exists (pjoin path (folder ty)), (t ++ lit "_" ++ unit_lower ty ++ lit "_" ++ dir_str d). rewrite <- !app_assoc. reflexivity. Qed.

Lemma foldM_ext {A S} (f g : S -> A -> res S) : (forall s x, f s x = g s x) -> forall l s, foldM f l s = foldM g l s.
Proof. intros H. induction l as [|x l IH]; intros s; [reflexivity|]. cbn [foldM]. rewrite H. destruct (g s x); cbn [bind]; [apply IH|reflexivity]. Qed.

Section CR.
  Context {G : Type}.
  Variables (mul : Q -> Q -> Q) (stats_ok : grid num -> bool) (path : str).
  Notation cop_run := (cop_run mul stats_ok path).

  Lemma m3_ext (f g : rstore G) t : (forall ty d, f (convert_nc path t ty d) = g (convert_nc path t ty d)) ->
    m3_raster mul stats_ok f path t = m3_raster mul stats_ok g path t.
  Proof.
    intros H. unfold m3_raster, gopen. rewrite H. destruct (g _) as [r|]; cbn [bind]; [|reflexivity].
    destruct (read_band r 1) as [b1|]; cbn [bind]; [|reflexivity].
    rewrite (foldM_ext (convert_dir mul stats_ok f path t (g_cols b1) (g_rows b1)) (convert_dir mul stats_ok g path t (g_cols b1) (g_rows b1))); [reflexivity|].
    intros [[tr fi] out] d. unfold convert_dir.
    rewrite (foldM_ext (read_type f path t (g_cols b1) (g_rows b1) d) (read_type g path t (g_cols b1) (g_rows b1) d)); [reflexivity|].
    intros [[tr' fi'] bs] ty. unfold read_type. rewrite H. reflexivity.
  Qed.

  Lemma m3max_ext (f g : rstore G) t : f (m3_path path t) = g (m3_path path t) ->
    m3max_raster stats_ok f path t = m3max_raster stats_ok g path t.
  Proof. intros H. unfold m3max_raster, gopen. rewrite H. reflexivity. Qed.

  Variable s0 : rstore G.
  Definition opath (o : cop) : str := match o with OpTile t => m3_path path t | OpMax t => m3max_path path t end.
  Definition oval (o : cop) : option (raster G) :=
    match o with OpTile t => m3_of mul stats_ok path s0 t | OpMax t => m3max_of mul stats_ok path s0 t end.

  Lemma opath_inj o o' : opath o = opath o' -> o = o'.
  Proof.
    destruct o as [t|t], o' as [t'|t']; cbn [opath]; intros E.
    - f_equal. eapply m3_path_inj; eauto.
    - exfalso. eapply m3_max_ne; eauto.
    - exfalso. symmetry in E. eapply m3_max_ne; eauto.
    - f_equal. eapply m3max_path_inj; eauto.
  Qed.

  Definition at_path (o : cop) (x : str) : bool := if list_eq_dec ascii_dec x (opath o) then true else false.
  Definition look (done : list cop) (x : str) : option (raster G) :=
    match find (fun o => at_path o x) done with Some o => oval o | None => s0 x end.

  Lemma look_other done x : (forall o, In o done -> x <> opath o) -> look done x = s0 x.
  Proof.
    intros H. unfold look. destruct (find _ done) as [o|] eqn:E; [|reflexivity].
    apply find_some in E. destruct E as [Hi E]. unfold at_path in E. destruct (list_eq_dec _ _ _) as [->|]; [|discriminate].
    exfalso. exact (H o Hi eq_refl).
  Qed.
  Lemma look_op done o : In o done -> look done (opath o) = oval o.
  Proof.
    intros H. unfold look. destruct (find _ done) as [o'|] eqn:E.
    - apply find_some in E. destruct E as [_ E]. unfold at_path in E. destruct (list_eq_dec _ _ _) as [E'|]; [|discriminate].
      apply opath_inj in E'. subst. reflexivity.
    - exfalso. apply (find_none _ _ E) in H. unfold at_path in H. destruct (list_eq_dec _ _ _); [discriminate|contradiction].
  Qed.
  Lemma look_nc done t ty d : look done (convert_nc path t ty d) = s0 (convert_nc path t ty d).
  Proof.
    apply look_other. intros o _ E. destruct (convert_nc_tail path t ty d) as (a & y & H). rewrite H in E.
    destruct o; cbn [opath] in E; unfold m3_path, m3max_path in E; symmetry in E; eapply tif_ne_nc; eauto.
  Qed.

  Definition ordered (seen l : list cop) : Prop :=
    forall a t b, l = a ++ OpMax t :: b -> In (OpTile t) (a ++ seen).

  Lemma step_val (done : list cop) g o : (forall x, g x = look done x) ->
    (forall t, o = OpMax t -> In (OpTile t) done) ->
    match cop_run g o with
    | Ok g' => oval o <> None /\ forall x, g' x = look (o :: done) x
    | Err _ => oval o = None
    end.
  Proof.
    intros Hg Ho. destruct o as [t|t]; cbn [ConvModel.cop_run].
    - unfold process_tile. rewrite (m3_ext g s0) by (intros; rewrite Hg; apply look_nc).
      cbn [oval]. unfold m3_of. destruct (m3_raster mul stats_ok s0 path t) as [r|e] eqn:E; cbn [bind]; [|reflexivity].
      split; [discriminate|]. intros x. unfold rput, look. cbn [find]. unfold at_path at 1. cbn [opath].
      destruct (list_eq_dec ascii_dec x (m3_path path t)).
      + cbn [oval]. unfold m3_of. rewrite E. reflexivity.
      + apply Hg.
    - specialize (Ho t eq_refl). pose proof (look_op done _ Ho) as E. cbn [opath oval] in E. rewrite <- Hg in E.
      unfold process_max_tile. cbn [oval]. unfold m3max_of. rewrite <- E. destruct (g (m3_path path t)) as [r|] eqn:Er.
      + rewrite (m3max_ext g (fun _ => Some r)) by exact Er.
        destruct (m3max_raster stats_ok (fun _ => Some r) path t) as [r'|e] eqn:E'; cbn [bind]; [|reflexivity].
        split; [discriminate|]. intros x. unfold rput, look. cbn [find]. unfold at_path at 1. cbn [opath].
        destruct (list_eq_dec ascii_dec x (m3max_path path t)).
        * cbn [oval]. unfold m3max_of. rewrite <- E, E'. reflexivity.
        * apply Hg.
      + unfold m3max_raster, gopen. rewrite Er. reflexivity.
  Qed.

  Lemma run_val : forall l done g, (forall x, g x = look done x) -> ordered done l ->
    match foldM cop_run l g with
    | Ok g' => (forall o, In o l -> oval o <> None) /\ forall x, g' x = look (rev l ++ done) x
    | Err _ => exists o, In o l /\ oval o = None
    end.
  Proof.
    induction l as [|o l IH]; intros done g Hg Ho; cbn [foldM].
    - split; [intros o []|exact Hg].
    - pose proof (step_val done g o Hg) as S. 
      assert (X : forall t, o = OpMax t -> In (OpTile t) done) by (intros t ->; apply (Ho [] t l); reflexivity).
      specialize (S X). destruct (cop_run g o) as [g'|e]; cbn [bind]; [|exists o; split; [left; reflexivity|exact S]].
      destruct S as [S1 S2]. specialize (IH (o :: done) g' S2).
      assert (Y : ordered (o :: done) l).
      { intros a t b ->. specialize (Ho (o :: a) t b eq_refl). cbn [app] in Ho. destruct Ho as [<-|Ho].
        - apply in_or_app. right. left. reflexivity.
        - apply in_app_or in Ho. apply in_or_app. destruct Ho; [left; assumption|right; right; assumption]. }
      specialize (IH Y). destruct (foldM cop_run l g') as [g''|e].
      + destruct IH as [I1 I2]. split.
        * intros o' [<-|H]; [exact S1|apply I1; exact H].
        * intros x. rewrite I2. cbn [rev]. rewrite <- app_assoc. reflexivity.
      + destruct IH as (o' & H1 & H2). exists o'. split; [right; exact H1|exact H2].
  Qed.
End CR.

(** ** Interleavings *)
Lemma il_perm {A} (parts : list (list A)) l : interleaving parts l -> Permutation l (concat parts).
Proof.
  induction 1 as [parts H|a b x p l H IH].
  - induction H as [|p l -> _ IH]; cbn; [constructor|exact IH].
  - rewrite !concat_app in *. cbn [concat] in *. cbn [app].
    eapply Permutation_trans; [apply perm_skip; exact IH|]. apply Permutation_middle.
Qed.

Lemma il_ordered : forall parts l, interleaving parts l -> forall seen, (forall p, In p parts -> ordered seen p) -> ordered seen l.
Proof.
  induction 1 as [parts H|a b x p l H IH]; intros seen Hp.
  - intros u t w E. destruct u; discriminate.
  - intros u t w E. destruct u as [|y u]; cbn [app] in E; injection E as -> E.
    + apply (Hp (OpMax t :: p)) with (a := []) (b := p); [apply in_elt|reflexivity].
    + assert (X : In (OpTile t) (u ++ y :: seen)).
      { apply (IH (y :: seen)) with (b := w); [|exact E]. intros q Hq u' t' w' Eq.
        apply in_app_or in Hq. destruct Hq as [Hq|[<-|Hq]].
        - specialize (Hp q (in_or_app _ _ _ (or_introl Hq)) u' t' w' Eq). apply in_app_or in Hp. apply in_or_app.
          destruct Hp; [left; assumption|right; right; assumption].
        - specialize (Hp (y :: p) (in_elt _ _ _) (y :: u') t' w'). rewrite Eq in Hp. specialize (Hp eq_refl). destruct Hp as [<-|Hp].
          + apply in_or_app. right. left. reflexivity.
          + apply in_app_or in Hp. apply in_or_app. destruct Hp; [left; assumption|right; right; assumption].
        - assert (Hq' : In q (a ++ (y :: p) :: b)) by (apply in_or_app; right; right; exact Hq).
          specialize (Hp q Hq' u' t' w' Eq). apply in_app_or in Hp. apply in_or_app.
          destruct Hp; [left; assumption|right; right; assumption]. }
      apply in_app_or in X. cbn [app]. destruct X as [X|[->|X]].
      * right. apply in_or_app. left. exact X.
      * left. reflexivity.
      * right. apply in_or_app. right. exact X.
Qed.

Lemma cops_ordered tiles : ordered [] (cops tiles).
Proof.
  unfold cops. induction tiles as [|x tiles IH]; intros a t b E; cbn [flat_map app] in E; [destruct a; discriminate|].
  destruct a as [|y a]; cbn [app] in E; [discriminate|]. injection E as <- E.
  destruct a as [|y a]; cbn [app] in E.
  - injection E as <- _. left. reflexivity.
  - injection E as <- E. right. right. apply (IH a t b E).
Qed.

Lemma in_cops o tiles : In o (cops tiles) <-> exists t, In t tiles /\ (o = OpTile t \/ o = OpMax t).
Proof.
  unfold cops. rewrite in_flat_map. split.
  - intros (t & H & [<-|[<-|[]]]); exists t; auto.
  - intros (t & H & [->| ->]); exists t; (split; [exact H|cbn; auto]).
Qed.

Section CR2.
  Context {G : Type}.
  Variables (mul : Q -> Q -> Q) (stats_ok : grid num -> bool) (path : str) (s0 : rstore G).
  Variables (parts : list (list str)) (l : list cop).
  Hypothesis Hil : interleaving (map cops parts) l.

  Lemma il_ops o : In o l <-> exists t, In t (concat parts) /\ (o = OpTile t \/ o = OpMax t).
  Proof.
    assert (E : concat (map cops parts) = cops (concat parts)).
    { clear Hil. unfold cops. induction parts as [|p ps IH]; [reflexivity|]. cbn [map concat]. rewrite IH, flat_map_app. reflexivity. }
    rewrite <- in_cops, <- E. split; apply Permutation_in; [|apply Permutation_sym]; apply il_perm; exact Hil.
  Qed.

  Lemma parallel_convert :
    match foldM (cop_run mul stats_ok path) l s0 with
    | Ok g =>
        (forall t, In t (concat parts) -> m3_of mul stats_ok path s0 t <> None /\ g (m3_path path t) = m3_of mul stats_ok path s0 t) /\
        (forall t, In t (concat parts) -> m3max_of mul stats_ok path s0 t <> None /\ g (m3max_path path t) = m3max_of mul stats_ok path s0 t) /\
        (forall x, (forall t, In t (concat parts) -> x <> m3_path path t /\ x <> m3max_path path t) -> g x = s0 x)
    | Err _ => exists t, In t (concat parts) /\ (m3_of mul stats_ok path s0 t = None \/ m3max_of mul stats_ok path s0 t = None)
    end.
  Proof.
    pose proof (run_val mul stats_ok path s0 l [] s0 (fun x => eq_refl)) as R.
    assert (O : ordered [] l).
    { apply (il_ordered _ _ Hil). intros p Hp. apply in_map_iff in Hp. destruct Hp as (q & <- & _). apply cops_ordered. }
    specialize (R O). destruct (foldM _ l s0) as [g|e].
    - destruct R as [R1 R2]. rewrite app_nil_r in R2.
      assert (K : forall o, In o l -> oval mul stats_ok path s0 o <> None /\ g (opath path o) = oval mul stats_ok path s0 o).
      { intros o Ho. split; [apply R1; exact Ho|]. rewrite R2. apply look_op. apply -> in_rev. exact Ho. }
      split; [|split].
      + intros t Ht. apply (K (OpTile t)). apply il_ops. eauto.
      + intros t Ht. apply (K (OpMax t)). apply il_ops. eauto.
      + intros x Hx. rewrite R2. apply look_other. intros o Ho. apply in_rev in Ho. apply il_ops in Ho.
        destruct Ho as (t & Ht & [->| ->]); apply (Hx t Ht).
    - destruct R as (o & Ho & E). apply il_ops in Ho. destruct Ho as (t & Ht & [->| ->]); exists t; (split; [exact Ht|]); auto.
  Qed.
End CR2.
