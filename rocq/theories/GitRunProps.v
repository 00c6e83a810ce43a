(** * C108: runs of a source whose version git cannot tell. *)
From Coq Require Import Ascii String.
From Verif Require Import Base BaseLemmas PyStr NameModel NameSpec PipeModel RunModel RunSpec RunProofs RunProps GitRunModel.

Definition erase (g : gop) : op := match g with Do o => o | Save p => OpWrite p end.
Lemma erase_tile out t b : map erase (gtile out t b) = tile_ops out t b.
Proof. unfold gtile, tile_ops. rewrite map_app. destruct b; [|reflexivity]. rewrite !map_app, !map_map. reflexivity. Qed.
Lemma execs_known code l : forall st, match foldM exec (map erase l) st with Ok st' => gexecs None code l st = (st', None) | Err e => exists st', gexecs None code l st = (st', Some e) end.
Proof.
  induction l as [|g l IH]; intros st; [reflexivity|]. cbn [map foldM gexecs]. assert (E : gexec None code st g = match exec st (erase g) with Ok st' => (st', None) | Err e => (st, Some e) end) by (destruct g; reflexivity).
  rewrite E. destruct (exec st (erase g)) as [st'|e]; cbn [bind]; [apply IH|exists st; reflexivity].
Qed.

(** Where git tells the version, this is the run of RunModel. *)
Theorem C108_known : forall code cwd f out tiles,
  match run cwd f out tiles with Ok st => grun None code cwd f out tiles = (st, None) | Err e => exists st, grun None code cwd f out tiles = (st, Some e) end.
Proof.
  intros code cwd f out tiles. unfold run, grun. destruct (do_output_directory_creation f (resolve cwd out)) as [g|e]; cbn [bind]; [|eexists; reflexivity]. unfold run_tiles. generalize (cwd, g). clear.
  induction tiles as [|[t b] tiles IH]; intros st; [reflexivity|]. cbn [foldM gtiles fst snd]. pose proof (execs_known code (gtile out t b) st) as K. rewrite erase_tile in K. destruct (foldM exec (tile_ops out t b) st) as [st'|e]; cbn [bind]; [rewrite K; apply IH|].
  destruct K as (st' & ->). exists st'. reflexivity.
Qed.
Print Assumptions C108_known.

Lemma execs_do git code l r : forall st st', foldM exec l st = Ok st' -> gexecs git code (map Do l ++ r) st = gexecs git code r st'.
Proof.
  induction l as [|o l IH]; intros st st' E; [injection E as ->; reflexivity|]. cbn [foldM] in E. cbn [map app gexecs gexec]. destruct (exec st o) as [s1|e]; [|discriminate]. cbn [bind] in E. apply IH. exact E.
Qed.
Lemma between_empty base o done g : (forall t, In t done -> snd t = false) -> between base o done g -> forall p, g p = base p.
Proof. intros H [_ B] p. apply B. intros t Ht. specialize (H _ Ht). discriminate. Qed.

(** Otherwise the run stops at its first tile with data, in the folder of the source, with that
    tile's two temporary rasters left behind and without a single multiplier file; only a run
    without any data completes. *)
Theorem C108_unknown : forall e code cwd f out o tiles base, wf f -> o <> [] -> resolve cwd out = o -> do_output_directory_creation f o = Ok base ->
  exists cwd' f' r, grun (Some e) code cwd f out tiles = ((cwd', f'), r) /\
  ((r = None /\ (forall t, In t tiles -> snd t = false) /\ cwd' = cwd /\ forall p, f' p = base p) \/
   (r = Some e /\ cwd' = code /\ exists before t after, tiles = before ++ (t, true) :: after /\ (forall x, In x before -> snd x = false) /\
     f' (o ++ [t ++ lit "_dem.img"]) = Some FileE /\ f' (o ++ [t ++ lit ".img"]) = Some FileE /\
     forall p, p <> o ++ [t ++ lit "_dem.img"] -> p <> o ++ [t ++ lit ".img"] -> f' p = base p)).
Proof.
  intros e code cwd f out o tiles base W N Out E. pose proof (C59_fresh f o base W N E) as Fr. unfold grun. rewrite Out, E.
  assert (K : forall tiles done g, (forall t, In t done -> snd t = false) -> between base o done g ->
    exists cwd' f' r, gtiles (Some e) code out tiles (cwd, g) = ((cwd', f'), r) /\
    ((r = None /\ (forall t, In t tiles -> snd t = false) /\ cwd' = cwd /\ forall p, f' p = base p) \/
     (r = Some e /\ cwd' = code /\ exists before t after, tiles = before ++ (t, true) :: after /\ (forall x, In x before -> snd x = false) /\
       f' (o ++ [t ++ lit "_dem.img"]) = Some FileE /\ f' (o ++ [t ++ lit ".img"]) = Some FileE /\
       forall p, p <> o ++ [t ++ lit "_dem.img"] -> p <> o ++ [t ++ lit ".img"] -> f' p = base p))); [|apply (K tiles [] base); [intros t []|apply between_nil]].
  clear tiles. induction tiles as [|[t b] tiles IH]; intros done g D B; cbn [gtiles].
  - do 3 eexists. split; [reflexivity|]. left. split; [reflexivity|]. split; [intros t []|]. split; [reflexivity|]. exact (between_empty base o done g D B).
  - cbn [fst snd]. destruct b.
    + set (pd := o ++ [dem_name t]). set (pl := o ++ [lcv_name t]). assert (P : forall p, g p = base p) by exact (between_empty base o done g D B).
      assert (Fd : g pd = None) by (rewrite P; apply (base_top base f o Fr), dem_not_sub). assert (Fl : g pl = None) by (rewrite P; apply (base_top base f o Fr), img_not_sub). assert (Fo : g o = Some DirE) by (rewrite P; exact (proj1 Fr)).
      assert (Dl : pd <> pl) by (intros X; apply app_inj_tail in X; destruct X as [_ X]; exact (dem_lcv t X)). assert (Do' : o <> pd) by (intros X; symmetry in X; exact (snoc_neq _ _ X)).
      assert (E1 : foldM exec [OpWrite (add out (dem_name t)); OpOpen (add out (dem_name t)); OpWrite (add out (lcv_name t)); OpOpen (add out (lcv_name t))] (cwd, g) = Ok (cwd, upd (upd g pd (Some FileE)) pl (Some FileE))).
      { cbn [foldM]. rewrite write_ok; rewrite ?res_add, ?Out, ?removelast_snoc; fold pd; [|exact Fo|rewrite Fd; discriminate]. cbn [bind]. rewrite exec_open by (rewrite res_add, Out; apply upd_same). cbn [bind].
        rewrite write_ok; rewrite ?res_add, ?Out, ?removelast_snoc; fold pd; fold pl; [|rewrite upd_other by exact Do'; exact Fo|rewrite upd_other by (intros X; apply Dl; symmetry; exact X); rewrite Fl; discriminate]. cbn [bind]. rewrite exec_open by (rewrite res_add, Out; apply upd_same). reflexivity. }
      match goal with |- context [gexecs ?a ?b (gtile out t true) ?s] => assert (E2 : gexecs a b (gtile out t true) s = ((code, upd (upd g pd (Some FileE)) pl (Some FileE)), Some e)) end.
      { match type of E1 with foldM exec ?l _ = _ => match goal with |- gexecs _ _ (gtile out t true) _ = _ => unfold gtile; cbn [app]; refine (eq_trans (execs_do (Some e) code l _ _ _ E1) _) end end. reflexivity. }
      rewrite E2. do 3 eexists. split; [reflexivity|]. right. split; [reflexivity|]. split; [reflexivity|]. exists [], t, tiles. split; [reflexivity|]. split; [intros x []|]. fold (dem_name t) (lcv_name t). fold pd pl. split; [rewrite upd_other by exact Dl; apply upd_same|]. split; [apply upd_same|].
      intros p X1 X2. rewrite !upd_other by assumption. apply P.
    + destruct (tile_empty base f o Fr out cwd Out t done g B) as (h & Eh & Bh). pose proof (execs_do (Some e) code (tile_ops out t false) [] _ _ Eh) as X. rewrite app_nil_r in X. change (map Do (tile_ops out t false)) with (gtile out t false) in X. rewrite X. cbn [gexecs].
      destruct (IH (done ++ [(t, false)]) h) as (c' & f' & r & E' & R); [intros x Hx; apply in_app_or in Hx; destruct Hx as [Hx|[<-|[]]]; [apply D; exact Hx|reflexivity]|exact Bh|]. exists c', f', r. split; [exact E'|]. destruct R as [(R1 & R2 & R3)|(R1 & R2 & bf & t' & af & R3 & R4 & R5)].
      * left. split; [exact R1|]. split; [|exact R3]. intros x [<-|Hx]; [reflexivity|apply R2; exact Hx].
      * right. split; [exact R1|]. split; [exact R2|]. exists ((t, false) :: bf), t', af. split; [rewrite R3; reflexivity|]. split; [|exact R5]. intros x [<-|Hx]; [reflexivity|apply R4; exact Hx].
Qed.
Print Assumptions C108_unknown.

(** In particular no multiplier file of any tile exists afterwards. *)
Theorem C108_no_results : forall e code cwd f out o tiles base t p, wf f -> o <> [] -> resolve cwd out = o -> do_output_directory_creation f o = Ok base ->
  result_file o t p -> snd (fst (grun (Some e) code cwd f out tiles)) p = None.
Proof.
  intros e code cwd f out o tiles base t p W N Out E R. destruct (C108_unknown e code cwd f out o tiles base W N Out E) as (c & f' & r & -> & H). cbn [fst snd].
  apply result_form in R. destruct R as (s & u & d & ->). assert (B : base (o ++ [s; nc_name t u d]) = None) by (apply (base_deep base f o (C59_fresh f o base W N E)); cbn; lia).
  destruct H as [(_ & _ & _ & H)|(_ & _ & bf & t' & af & _ & _ & _ & _ & H)]; [rewrite H; exact B|]. rewrite H; [exact B| |]; intros X; apply app_inv_head in X; discriminate.
Qed.
Print Assumptions C108_no_results.

Example C108_ex : let r := grun (Some OSError) [lit "code"] [lit "data"] ex_fs (Rel [lit "out"]) [(lit "a", false); (lit "b", true); (lit "c", true)] in
  (exists base, do_output_directory_creation ex_fs [lit "data"; lit "out"] = Ok base) /\ snd r = Some OSError /\ fst (fst r) = [lit "code"] /\ snd (fst r) [lit "data"; lit "out"; lit "b_dem.img"] = Some FileE /\
  snd (fst r) [lit "data"; lit "out"; lit "c_dem.img"] = None /\ snd (fst r) [lit "data"; lit "out"; lit "terrain"; lit "b_mz_n.nc"] = None /\
  snd (grun None [lit "code"] [lit "data"] ex_fs (Abs [lit "data"; lit "out"]) [(lit "a", false); (lit "b", true); (lit "c", true)]) = None.
Proof. cbv zeta. split; [eexists; vm_compute; reflexivity|]. vm_compute. repeat split; reflexivity. Qed.
