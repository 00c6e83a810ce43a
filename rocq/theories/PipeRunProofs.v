From Verif Require Import Base BaseLemmas TileModel PyStr NameModel NameSpec NameProofs
  SchedModel SchedSpec SchedProofs SchedStoreProofs PipeModel PipeSpec PipeProofs.
Open Scope nat_scope.

Section R.
  Context {T V : Type} (name : T -> str) (out lcv : str) (sg : stages T V).
  Notation fstore := (@store cell V).
  Notation pw := (pwrites name out).
  Notation pr := (preads name out lcv).
  Notation cut := (cut_dem name out sg).
  Notation work := (multipliers_calculate name out lcv sg).

  Lemma name_inj tiles t t' : NoDup (map name tiles) -> In t tiles -> In t' tiles -> name t = name t' -> t = t'.
  Proof.
    induction tiles as [|x l IH]; intros H H1 H2 E; [contradiction|]. simpl in H. inversion H; subst.
    destruct H1 as [->|H1], H2 as [->|H2]; auto.
    - exfalso. apply H4. rewrite E. apply in_map. exact H2.
    - exfalso. apply H4. rewrite <- E. apply in_map. exact H1.
  Qed.

  Lemma run_ok_independent tiles : run_ok name out lcv tiles -> independent pr pw tiles.
  Proof.
    intros (_ & G & N & L). split.
    - intros t x It H. apply pr_spec. auto.
    - intros t t' x It It' H H'. apply pr_spec in H'. destruct H' as [H'| ->].
      + apply (name_inj tiles); auto. apply (pw_tile name out t t' x); auto.
      + rewrite (L t It) in H. discriminate.
  Qed.
  Lemma run_ok_nodup tiles : run_ok name out lcv tiles -> NoDup tiles.
  Proof. intros (_ & _ & N & _). eapply NoDup_map_inv; eauto. Qed.
  Lemma run_ok_cut tiles t : run_ok name out lcv tiles -> In t tiles -> local_total pr pw t (cut t).
  Proof. intros _ _. apply cut_local. Qed.
  Lemma run_ok_work tiles t a : run_ok name out lcv tiles -> In t tiles -> In a (work t) -> local_action pr pw t a.
  Proof. intros (O & G & _ & _) It H. apply (calc_local name out lcv sg t O (G t It) a H). Qed.

  (** Result of the whole serial run. *)
  Definition lc_ok (s0 : fstore) (tiles : list T) (l : V) : Prop :=
    s0 (File lcv) = Some l \/ (forall t, In t tiles -> has_data sg (clip sg t) = false).

  Lemma one_ok tiles s0 l t : run_ok name out lcv tiles -> lc_ok s0 tiles l -> In t tiles ->
    exists g, run_actions (work t) (cut t s0) = Ok g /\ forall c, g c = tile_result name out sg s0 l t c.
  Proof.
    intros (O & G & N & L) Hl It. destruct (has_data sg (clip sg t)) eqn:Hd.
    - destruct Hl as [Hl|Hl]; [|rewrite Hl in Hd by exact It; discriminate].
      pose proof (calc_data name out lcv sg t O (G t It) s0 Hd (L t It)) as C. rewrite Hl in C. exact C.
    - destruct (calc_nodata name out lcv sg t s0 Hd) as (g & E & F). exists g. split; [exact E|].
      intros c. rewrite F. unfold tile_result. rewrite Hd. reflexivity.
  Qed.

  Lemma serial_result tiles s0 l : run_ok name out lcv tiles -> lc_ok s0 tiles l ->
    exists g, serial cut work tiles s0 = Ok g /\
      (forall t c, In t tiles -> pw t c = true -> g c = tile_result name out sg s0 l t c) /\
      (forall c, (forall t, In t tiles -> pw t c = false) -> g c = s0 c).
  Proof.
    intros RO Hl.
    pose proof (serial_spec pr pw cut work tiles (run_ok_independent tiles RO)
      (fun t => run_ok_cut tiles t RO) (fun t a => run_ok_work tiles t a RO) tiles (run_ok_nodup tiles RO) (fun t H => H) s0) as SP.
    change (foldM (one cut work) tiles s0) with (serial cut work tiles s0) in SP.
    destruct (serial cut work tiles s0) as [g|e].
    - exists g. split; [reflexivity|]. destruct SP as [S1 S2]. split; [|exact S2].
      intros t c It Hc. destruct (S1 t It) as (h & E & A). rewrite A by (apply pr_spec; auto).
      destruct (one_ok tiles s0 l t RO Hl It) as (h' & E' & F). unfold one in E. rewrite E in E'. inversion E'; subst. apply F.
    - destruct SP as (t & It & e' & E). destruct (one_ok tiles s0 l t RO Hl It) as (h' & E' & _). unfold one in E. congruence.
  Qed.

  Lemma pipeline_result tiles k s0 l s : run_ok name out lcv tiles -> lc_ok s0 tiles l -> 1 <= k ->
    reach cut work tiles k s0 s ->
    (finished k s \/ exists s', step cut work tiles k false s s') /\
    (m s = MDone ->
      (forall t c, In t tiles -> pw t c = true -> fs s c = tile_result name out sg s0 l t c) /\
      (forall c, (forall t, In t tiles -> pw t c = false) -> fs s c = s0 c)).
  Proof.
    intros RO Hl Hk R. destruct (serial_result tiles s0 l RO Hl) as (g & E & F1 & F2).
    pose proof (run_ok_independent tiles RO) as RI. pose proof (run_ok_nodup tiles RO) as RN.
    assert (RC := fun t => run_ok_cut tiles t RO). assert (RW := fun t a => run_ok_work tiles t a RO).
    split.
    - exact (serial_ok_finishes pr pw cut work tiles k RN RI RC RW s0 g s E R).
    - intros Em.
      assert (Q := parallel_serial pr pw cut work tiles k RN RI RC RW Hk s0 g s E R Em).
      split; intros; rewrite Q; auto.
  Qed.

  (** No temporary cell of any tile is left. *)
  Lemma temp_gone tiles s0 l t p : run_ok name out lcv tiles -> In t tiles ->
    (forall p, In p (temp_files out (name t)) -> s0 (File p) = None) ->
    In p (temp_files out (name t)) -> tile_result name out sg s0 l t (File p) = None.
  Proof.
    intros (O & G & N & L) It E Hp. unfold tile_result.
    assert (Hk : exists k, match k with FNc _ _ => False | _ => True end /\ p = pathk out (name t) k).
    { simpl in Hp. destruct Hp as [<-|[<-|[<-|[]]]]; [exists FDem|exists FLcv|exists FMs]; split; try exact I; reflexivity. }
    assert (Ep : s0 (File p) = None) by (apply E; exact Hp). clear Hp.
    destruct Hk as (k & Hk & ->).
    assert (NF : forall ty d, File (pathk out (name t) k) <> File (pathk out (name t) (FNc ty d))).
    { intros ty d. apply pk_ne; [apply G, It|]. destruct k; try contradiction; discriminate. }
    change (fun d : dir => cell_eqb (File (pathk out (name t) k)) (File (convert_nc out (name t) Terrain d)))
      with (fun d => cell_eqb (File (pathk out (name t) k)) (File (pathk out (name t) (FNc Terrain d)))).
    change (fun d : dir => cell_eqb (File (pathk out (name t) k)) (File (convert_nc out (name t) Shielding d)))
      with (fun d => cell_eqb (File (pathk out (name t) k)) (File (pathk out (name t) (FNc Shielding d)))).
    change (fun d : dir => cell_eqb (File (pathk out (name t) k)) (File (convert_nc out (name t) Topographic d)))
      with (fun d => cell_eqb (File (pathk out (name t) k)) (File (pathk out (name t) (FNc Topographic d)))).
    rewrite !find_none by (intros; apply NF).
    rewrite pw_k. destruct (has_data sg (clip sg t)); [reflexivity|].
    destruct (_ || _); [reflexivity|exact Ep].
  Qed.

  (** ** Crash points of one tile *)
  Section Crash.
    Variable t : T.
    Hypothesis Hok : ok_dir out.
    Hypothesis Hg : good_tile (name t).
    Notation dem := (File (pathk out (name t) FDem)).

    Definition keeps (a : action fstore) : Prop := forall f g, a f = Ok g -> g dem = f dem.

    Lemma keeps_when op : (forall v, keeps (op v)) -> keeps (when_data name sg t op).
    Proof.
      intros H f g. unfold when_data. destruct (f (Local (name t))) as [v|]; [|discriminate].
      destruct (has_data sg v); [apply H|]. intros E. inversion E. reflexivity.
    Qed.
    Lemma keeps_file p (op : V -> fstore -> res fstore) : (forall v, keeps (op v)) -> keeps (fun f => with_file p (fun v => op v f) f).
    Proof. intros H f g. unfold with_file. destruct (f (File p)) as [v|]; [apply H|discriminate]. Qed.
    Lemma keeps_put c v : dem <> c -> keeps (fun f => Ok (put f c v)).
    Proof. intros H f g E. inversion E. subst g. apply put_ne. exact H. Qed.
    Lemma keeps_del c : dem <> c -> keeps (fun f => Ok (del f c)).
    Proof. intros H f g E. inversion E. subst g. apply del_ne. exact H. Qed.

    Definition before_rm : list (action fstore) :=
      [open_dem name out t; op_resample name out lcv sg t] ++ map (op_terrain name out sg t) stage_dirs ++
      [op_ms_init name out sg t] ++ map (op_shield name out sg t) stage_dirs ++ [op_rm_ms name out sg t] ++
      map (op_topo name out sg t) topo_dirs.

    Lemma before_keeps a : In a before_rm -> keeps a.
    Proof.
      unfold before_rm. rewrite !in_app_iff, !in_map_iff. simpl In.
      intros [[<-|[<-|[]]]|[(d & <- & _)|[[<-|[]]|[(d & <- & _)|[[<-|[]]|(d & <- & _)]]]]].
      - intros f g E. unfold open_dem in E. destruct (f (File (dem_of name out t))) as [v|]; [|discriminate]. inversion E. subst g. apply (put_ne f (Local (name t)) v). discriminate.
      - apply keeps_when. intros v.
        apply (keeps_file lcv (fun l f => Ok (put f (File (lcv_of name out t)) (resample sg l v)))). intros l.
        apply keeps_put. rewrite lcv_eq. apply pk_ne; [exact Hg|discriminate].
      - apply keeps_when. intros v.
        apply (keeps_file (lcv_of name out t) (fun v f => if no_terrain sg v then Ok f else Ok (put f (File (terrain_nc (lcv_of name out t) d)) (mz sg t v d)))).
        intros w. destruct (no_terrain sg w); [intros f g E; inversion E; reflexivity|].
        apply keeps_put. rewrite mz_eq by assumption. apply pk_ne; [exact Hg|discriminate].
      - apply keeps_when. intros v.
        apply (keeps_file (lcv_of name out t) (fun v f => Ok (put f (File (ms_of name out t)) (ms_init sg v)))). intros w.
        apply keeps_put. rewrite ms_eq by assumption. apply pk_ne; [exact Hg|discriminate].
      - apply keeps_when. intros v.
        apply (keeps_file (ms_of name out t) (fun v f => with_file (dem_of name out t) (fun z => Ok (put f (File (shield_nc (ms_of name out t) d)) (ms sg t v z d))) f)).
        intros w. apply (keeps_file (dem_of name out t) (fun z f => Ok (put f (File (shield_nc (ms_of name out t) d)) (ms sg t w z d)))).
        intros z. apply keeps_put. rewrite msn_eq by assumption. apply pk_ne; [exact Hg|discriminate].
      - apply keeps_when. intros v. apply keeps_del. rewrite ms_eq by assumption. apply pk_ne; [exact Hg|discriminate].
      - apply keeps_when. intros v.
        apply (keeps_file (dem_of name out t) (fun v f => Ok (put f (File (topo_nc (dem_of name out t) d)) (mt sg t v d)))). intros w.
        apply keeps_put. rewrite mt_eq by assumption. apply pk_ne; [exact Hg|discriminate].
    Qed.

    Lemma keeps_run l : (forall a, In a l -> keeps a) -> keeps (run_actions l).
    Proof.
      induction l as [|a l IH]; intros H f g E.
      - inversion E. reflexivity.
      - rewrite run_cons in E. destruct (a f) as [f'|e] eqn:Ea; [|discriminate]. cbn [bind] in E.
        rewrite (IH (fun b Hb => H b (or_intror Hb)) _ _ E). apply (H a (or_introl eq_refl) _ _ Ea).
    Qed.

    Lemma before_length : length before_rm = 28.
    Proof. reflexivity. Qed.
    Lemma calc_split : work t = before_rm ++ [op_rm_dem name out sg t; op_rm_lcv name out sg t; op_return name t].
    Proof. unfold multipliers_calculate, before_rm. do 6 (cbn [app]; rewrite <- ?app_assoc). reflexivity. Qed.

    Lemma in_firstn' {B} n (x : B) l : In x (firstn n l) -> In x l.
    Proof. intros H. rewrite <- (firstn_skipn n l). apply in_app_iff. auto. Qed.

    Lemma after_keeps a : In a [op_rm_lcv name out sg t; op_return name t] -> keeps a.
    Proof.
      intros [<-|[<-|[]]].
      - apply keeps_when. intros v. apply (keeps_file (lcv_of name out t) (fun _ f => Ok (del f (File (lcv_of name out t))))).
        intros w. apply keeps_del. rewrite lcv_eq. apply pk_ne; [exact Hg|discriminate].
      - apply keeps_del. discriminate.
    Qed.

    Lemma crash n f g : run_actions (firstn n (work t)) (cut t f) = Ok g ->
      g (File (dem_tmp out (name t))) = if n <=? 28 then Some (clip sg t) else None.
    Proof.
      rewrite calc_split. intros E. change (dem_tmp out (name t)) with (pathk out (name t) FDem).
      assert (E0 : cut t f dem = Some (clip sg t)) by apply put_eq.
      destruct (Nat.leb_spec n 28) as [H|H].
      - rewrite firstn_app, before_length in E. replace (n - 28) with 0 in E by lia. rewrite firstn_O, app_nil_r in E.
        rewrite (keeps_run (firstn n before_rm)) with (f := cut t f) (g := g); auto.
        intros a Ha. apply before_keeps. eapply in_firstn'; eauto.
      - rewrite firstn_app, before_length in E. rewrite firstn_all2 in E by (rewrite before_length; lia).
        destruct (n - 28) as [|n'] eqn:En; [lia|]. cbn [firstn] in E. rewrite run_app in E.
        destruct (run_actions before_rm (cut t f)) as [f1|e] eqn:E1; [|discriminate]. cbn [bind] in E.
        rewrite run_cons in E. unfold op_rm_dem at 1 in E.
        destruct (f1 (Local (name t))) as [v|]; [|discriminate].
        assert (Q : exists f2, f2 dem = None /\ run_actions (firstn n' [op_rm_lcv name out sg t; op_return name t]) f2 = Ok g).
        { destruct (has_data sg v); [unfold with_file in E; destruct (f1 (File (dem_of name out t))); [|discriminate]|];
            cbn [bind] in E; eexists; (split; [|exact E]); apply del_eq. }
        destruct Q as (f2 & N & R). rewrite <- N.
        apply (keeps_run (firstn n' [op_rm_lcv name out sg t; op_return name t])); [|exact R].
        intros a Ha. apply after_keeps. eapply in_firstn'; eauto.
    Qed.
  End Crash.
End R.

(** ** Executing a worker's operations *)
Section Exec.
  Context {T St : Type} (cut : T -> St -> St) (work : T -> list (action St)) (tiles : list T) (k : nat).
  Lemma reach_worker s0 d t l : 1 <= d <= k -> forall s g,
    reach cut work tiles k s0 s -> wk s d = WBusy t l -> run_actions l (fs s) = Ok g ->
    exists s', reach cut work tiles k s0 s' /\ fs s' = g /\ wk s' d = WBusy t [] /\
      m s' = m s /\ (forall d', d' <> d -> wk s' d' = wk s d').
  Proof.
    intros Hd. induction l as [|a l IH]; intros s g R E Hr.
    - inversion Hr. exists s. auto.
    - unfold run_actions in Hr. simpl in Hr. destruct (a (fs s)) as [f|e] eqn:Ea; [|discriminate].
      destruct (IH (set_fs (set_wk s d (WBusy t l)) f) g) as (s' & R' & E1 & E2 & E3 & E4).
      + destruct R as (n & R). exists (S n). eapply steps_S; [exact R|]. eapply w_ok; eauto.
      + simpl. apply upd_eq.
      + exact Hr.
      + exists s'. split; [exact R'|]. split; [exact E1|]. split; [exact E2|]. split; [exact E3|].
        intros d' Hd'. rewrite E4 by exact Hd'. simpl. apply upd_ne. exact Hd'.
  Qed.
End Exec.

Section Clash.
  Context {T V : Type} (name : T -> str) (out lcv : str) (sg : stages T V).
  Notation fstore := (@store cell V).
  Notation cut := (cut_dem name out sg).
  Notation work := (multipliers_calculate name out lcv sg).

  (** Two tiles of the same name on two workers: one worker can remove the DEM
      the other one is about to open. *)
  Lemma clash t1 t2 s0 l : ok_dir out -> good_tile (name t1) -> name t1 = name t2 ->
    has_data sg (clip sg t2) = false \/ (s0 (File lcv) = Some l /\ pwrites name out t1 (File lcv) = false) ->
    exists s, reach cut work [t1; t2] 2 s0 s /\ wk s 2 = WFail t2.
  Proof.
    intros Ho Hg En Hl.
    set (s1 := accept work 1 (Some t1) (after_send 1 (Some t1) true (pick cut [t1; t2] 1 true (init 2 s0)))).
    assert (R1 : reach cut work [t1; t2] 2 s0 s1).
    { exists 2. eapply steps_S with (b := false); [eapply steps_S with (b := false); [constructor|]|].
      - apply st_init with (d := 1); [reflexivity|lia].
      - apply st_send_direct; reflexivity. }
    set (s2 := accept work 2 (Some t2) (after_send 2 (Some t2) true (pick cut [t1; t2] 2 true s1))).
    assert (R2 : reach cut work [t1; t2] 2 s0 s2).
    { destruct R1 as (n & R1). exists (S (S n)). eapply steps_S with (b := false); [eapply steps_S with (b := false); [exact R1|]|].
      - apply st_init with (d := 2); [reflexivity|lia].
      - apply st_send_direct; reflexivity. }
    (* the file system both workers start from *)
    assert (F2 : fs s2 = cut t2 (cut t1 s0)) by reflexivity.
    set (sg' := Stages (fun _ => clip sg t2) (has_data sg) (resample sg) (no_terrain sg) (mz sg) (ms_init sg) (ms sg) (mt sg)).
    assert (W1 : exists g, run_actions (work t1) (fs s2) = Ok g /\ g (File (dem_of name out t2)) = None).
    { assert (C : fs s2 = cut_dem name out sg' t1 (cut t1 s0)).
      { rewrite F2. unfold cut_dem, dem_of. rewrite En. reflexivity. }
      rewrite C. change (work t1) with (multipliers_calculate name out lcv sg' t1).
      assert (Q : exists g, run_actions (multipliers_calculate name out lcv sg' t1) (cut_dem name out sg' t1 (cut t1 s0)) = Ok g).
      { destruct (has_data sg (clip sg t2)) eqn:Hd.
        - destruct Hl as [Hl|[Hl Hw]]; [discriminate|].
          pose proof (calc_data name out lcv sg' t1 Ho Hg (cut t1 s0) Hd Hw) as CD.
          replace (cut t1 s0 (File lcv)) with (Some l) in CD.
          + destruct CD as (g & E & _). eauto.
          + symmetry. rewrite <- Hl. apply put_ne. intros E. rewrite E in Hw.
            pose proof (pw_k name out t1 FDem) as P. unfold dem_of, dem_tmp in Hw. simpl pathk in P. simpl sfx in P. simpl lit in Hw. congruence.
        - destruct (calc_nodata name out lcv sg' t1 (cut t1 s0) Hd) as (g & E & _). eauto. }
      destruct Q as (g & E). exists g. split; [exact E|].
      unfold dem_of. rewrite <- En.
      pose proof (crash name out lcv sg' t1 Ho Hg 31 (cut t1 s0) g) as CR. simpl Nat.leb in CR. apply CR.
      rewrite firstn_all2 by (rewrite calc_split, app_length, before_length; simpl; lia). exact E. }
    destruct W1 as (g & E & N).
    destruct (reach_worker cut work [t1; t2] 2 s0 1 t1 (work t1)) with (s := s2) (g := g) as (s3 & R3 & E1 & E2 & E3 & E4); auto.
    exists (set_wk s3 2 (WFail t2)). split.
    - destruct R3 as (n & R3). exists (S n). eapply steps_S; [exact R3|].
      apply w_raise with (a := open_dem name out t2) (r := tl (work t2)) (e := OSError); [lia| |].
      + rewrite E4 by lia. reflexivity.
      + rewrite E1. unfold open_dem. rewrite N. reflexivity.
    - simpl. apply upd_eq.
  Qed.
End Clash.

(** ** Tiles of a tile grid *)
From Verif Require Import TileSpec TileProofs TileNameProofs.
Open Scope Z_scope.

Definition info_name (i : str * extent * extent) : str := fst (fst i).

Lemma get_tileinfo_names fl show tg nums infos : get_tileinfo fl show tg nums = Ok infos ->
  Forall2 (fun t i => get_tilename fl show tg t = Ok (info_name i)) nums infos.
Proof.
  unfold get_tileinfo. revert infos. induction nums as [|t nums IH]; intros infos E; cbn [mapM] in E.
  - inversion E. constructor.
  - destruct (get_tilename fl show tg t) as [n|] eqn:En; [|discriminate]. cbn [bind] in E.
    destruct (get_tile_extent_buffer fl tg t) as [eb|]; [|discriminate]. cbn [bind] in E.
    destruct (get_tile_extent fl tg t) as [ee|]; [|discriminate]. cbn [bind] in E.
    destruct (mapM _ nums) as [is|] eqn:Em; [|discriminate]. cbn [bind] in E. injection E as <-.
    constructor; [rewrite En; reflexivity|]. apply IH. reflexivity.
Qed.

Lemma tiles_names fl show upwind ds tg infos :
  fl_ok fl -> good_raster upwind ds -> mk_tilegrid fl upwind ds = Ok tg ->
  prints_floats show -> coords_printable fl tg -> names_distinct fl show tg ->
  get_tiles fl show tg = Ok infos ->
  NoDup (map info_name infos) /\ (forall i, In i infos -> good_tile (info_name i)).
Proof.
  intros H1 H2 H3 H4 H5 HD E. apply get_tileinfo_names in E.
  assert (Hin : forall t, In t (zrange (num_tiles tg)) -> 0 <= t < num_tiles tg) by (intros t H; apply in_zrange; exact H).
  pose proof (zrange_NoDup (num_tiles tg)) as ND. revert ND Hin.
  induction E as [|t i nums infos Et E IH]; intros ND Hin; [split; [constructor|contradiction]|].
  inversion ND; subst. destruct IH as [I1 I2]; [assumption|intros; apply Hin; right; assumption|].
  assert (G : good_tile (info_name i)).
  { destruct (tilename_good fl show upwind ds tg H1 H2 H3 H4 H5 t) as (n & En & G); [apply Hin; left; reflexivity|].
    rewrite Et in En. injection En as ->. exact G. }
  split; [|intros j [<-|Hj]; auto].
  simpl. constructor; [|exact I1]. intros C. apply in_map_iff in C. destruct C as (j & Ej & Ij).
  assert (Q : exists t', In t' nums /\ get_tilename fl show tg t' = Ok (info_name j)).
  { clear - E Ij. induction E as [|x y l l' Hx E IH]; [contradiction|]. destruct Ij as [->|Ij].
    - exists x. split; [left; reflexivity|exact Hx].
    - destruct (IH Ij) as (t' & I & H). exists t'. split; [right; exact I|exact H]. }
  destruct Q as (t' & It' & Et'). assert (t = t').
  { eapply HD; eauto; [apply Hin; left; reflexivity|apply Hin; right; exact It']. }
  subst. contradiction.
Qed.
