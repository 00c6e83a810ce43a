From Verif Require Import Base BaseLemmas TileModel PyStr NameModel NameSpec NameProofs
  SchedModel SchedSpec SchedProofs SchedStoreProofs PipeModel PipeSpec.
Open Scope Z_scope.

(** ** Kinds of files of a tile *)
Inductive fk := FDem | FLcv | FMs | FNc (ty : mtype) (d : dir).
Definition sfx (k : fk) : str :=
  match k with
  | FDem => lit "_dem.img" | FLcv => lit ".img" | FMs => lit "_ms.img"
  | FNc ty d => lit "_" ++ unit_lower ty ++ lit "_" ++ dir_str d ++ lit ".nc" end.
Definition pathk (out n : str) (k : fk) : str :=
  match k with
  | FDem => pjoin out (n ++ sfx FDem) | FLcv => pjoin out (n ++ sfx FLcv)
  | FMs => pjoin (pjoin out (lit "shielding")) (n ++ sfx FMs)
  | FNc ty d => convert_nc out n ty d end.

Lemma sfx_noslash k : ~ In slash (sfx k).
Proof. destruct k as [| | |[] []]; notin_lit. Qed.

Lemma base_pathk out n k : good_tile n -> basename (pathk out n k) = n ++ sfx k.
Proof.
  intros (Hs & _). assert (H : ~ In slash (n ++ sfx k)) by (apply notin_app; [exact Hs|apply sfx_noslash]).
  destruct k; simpl pathk; try (apply basename_pjoin; exact H).
Qed.

Lemma sfx_inj k k' : sfx k = sfx k' -> k = k'.
Proof.
  destruct k as [| | |[] []], k' as [| | |[] []]; try reflexivity; intros E; discriminate E.
Qed.

Lemma sfx_us k : k = FLcv \/ exists r, sfx k = underscore :: r.
Proof. destruct k; [right|left; reflexivity|right|right]; eexists; reflexivity. Qed.

Lemma pathk_inj out n n' k k' : good_tile n -> good_tile n' ->
  pathk out n k = pathk out n' k' -> n = n' /\ k = k'.
Proof.
  intros G G' E. apply (f_equal basename) in E. rewrite !base_pathk in E by assumption.
  destruct G as (_ & Hu & _), G' as (_ & Hu' & _).
  assert (N : n = n').
  { destruct (sfx_us k) as [->|(r & Er)], (sfx_us k') as [->|(r' & Er')].
    - apply app_inv_tail in E. exact E.
    - exfalso. rewrite Er' in E. assert (C : In underscore (n ++ sfx FLcv)) by (rewrite E; apply in_elt).
      revert C. apply notin_app; [exact Hu|notin_lit].
    - exfalso. rewrite Er in E. assert (C : In underscore (n' ++ sfx FLcv)) by (rewrite <- E; apply in_elt).
      revert C. apply notin_app; [exact Hu'|notin_lit].
    - rewrite Er, Er' in E. apply split_unique in E; tauto. }
  split; [exact N|]. subst n'. apply app_inv_head in E. apply sfx_inj. exact E.
Qed.

Definition all_fk : list fk := FDem :: FLcv :: FMs :: flat_map (fun ty => map (FNc ty) all_dirs) all_types.
Lemma all_fk_in k : In k all_fk.
Proof. destruct k as [| | |[] []]; simpl; auto 30. Qed.

Lemma tile_cells_fk out n : tile_cells out n = Local n :: map (fun k => File (pathk out n k)) all_fk.
Proof. reflexivity. Qed.

Lemma cell_eqb_spec a b : cell_eqb a b = true <-> a = b.
Proof.
  destruct a, b; simpl; try (destruct (list_eq_dec ascii_dec _ _); subst; split; intros; congruence);
    split; discriminate.
Qed.
Lemma cell_eqb_refl a : cell_eqb a a = true.
Proof. apply cell_eqb_spec. reflexivity. Qed.
Lemma cell_eqb_false a b : cell_eqb a b = false <-> a <> b.
Proof.
  split.
  - intros H ->. rewrite cell_eqb_refl in H. discriminate.
  - intros H. destruct (cell_eqb a b) eqn:E; [|reflexivity]. apply cell_eqb_spec in E. contradiction.
Qed.

Lemma in_cells_spec l c : in_cells l c = true <-> In c l.
Proof.
  unfold in_cells. rewrite existsb_exists. split.
  - intros (x & H & E). apply cell_eqb_spec in E. subst. exact H.
  - intros H. exists c. split; [exact H|apply cell_eqb_refl].
Qed.

Lemma run_app {St} (l l' : list (action St)) f : run_actions (l ++ l') f = bind (run_actions l f) (run_actions l').
Proof.
  unfold run_actions. revert f. induction l as [|a l IH]; intros f; simpl; [reflexivity|].
  destruct (a f); simpl; [apply IH|reflexivity].
Qed.

Section P.
  Context {T V : Type} (name : T -> str) (out lcv : str) (sg : stages T V).
  Notation fstore := (@store cell V).
  Notation pw := (pwrites name out).
  Notation pr := (preads name out lcv).
  Notation pk t k := (File (pathk out (name t) k)).

  Lemma pw_spec t c : pw t c = true <-> c = Local (name t) \/ exists k, c = pk t k.
  Proof.
    unfold pwrites. rewrite in_cells_spec, tile_cells_fk. split.
    - intros [<-|H]; [auto|]. right. apply in_map_iff in H. destruct H as (k & <- & _). eauto.
    - intros [->|(k & ->)]; [left; reflexivity|]. right. apply in_map_iff. exists k. split; [reflexivity|apply all_fk_in].
  Qed.

  Lemma pr_spec t c : pr t c = true <-> pw t c = true \/ c = File lcv.
  Proof. unfold preads. rewrite orb_true_iff, cell_eqb_spec. reflexivity. Qed.

  Lemma pw_tile t t' c : good_tile (name t) -> good_tile (name t') ->
    pw t c = true -> pw t' c = true -> name t = name t'.
  Proof.
    rewrite !pw_spec. intros G G' [->|(k & ->)] [E|(k' & E)]; try discriminate; inversion E; auto.
    apply (pathk_inj out _ _ k k'); auto.
  Qed.

  (** ** The stage paths are the listed ones *)
  Section One.
    Variable t : T.
    Hypothesis Hok : ok_dir out.
    Hypothesis Hg : good_tile (name t).

    Lemma dem_eq : dem_of name out t = pathk out (name t) FDem.
    Proof. reflexivity. Qed.
    Lemma lcv_eq : lcv_of name out t = pathk out (name t) FLcv.
    Proof. reflexivity. Qed.
    Lemma ms_eq : ms_of name out t = pathk out (name t) FMs.
    Proof.
      destruct Hg as (Hs & Hu & c & t' & En & Hc). unfold ms_of, ms_orig_path, lcv_of, lcv_tmp. rewrite En in *.
      assert (Hn : ~ In slash ((c :: t') ++ lit ".img")) by (apply notin_app; [assumption|notin_lit]).
      rewrite (pjoin_dirname out ((c :: t') ++ lit ".img")), (basename_pjoin out) by assumption.
      assert (E : splitext_root ((c :: t') ++ lit ".img") = c :: t').
      { rewrite <- (app_nil_r (c :: t')) at 2.
        apply (splitext_tile (c :: t') [] (lit "img")); [notin_lit|notin_lit|rewrite app_nil_r; assumption|].
        rewrite app_nil_r. eauto. }
      rewrite E. reflexivity.
    Qed.
    Lemma mz_eq d : terrain_nc (lcv_of name out t) d = pathk out (name t) (FNc Terrain d).
    Proof. apply terrain_name; assumption. Qed.
    Lemma msn_eq d : shield_nc (ms_of name out t) d = pathk out (name t) (FNc Shielding d).
    Proof. apply shield_name; assumption. Qed.
    Lemma mt_eq d : topo_nc (dem_of name out t) d = pathk out (name t) (FNc Topographic d).
    Proof. apply topo_name; assumption. Qed.

    Lemma pw_k k : pw t (pk t k) = true.
    Proof. apply pw_spec. eauto. Qed.
    Lemma pw_l : pw t (Local (name t)) = true.
    Proof. apply pw_spec. auto. Qed.
    Lemma pr_w c : pw t c = true -> pr t c = true.
    Proof. intros H. apply pr_spec. auto. Qed.

    (** ** Locality of each operation *)
    Notation la := (local_action pr pw t).
    Notation agr := (agree pr t).

    Lemma put_agree (f g : fstore) c v : agr f g -> agr (put f c v) (put g c v).
    Proof. intros H x Hx. unfold put. destruct (cell_eqb x c); auto. Qed.
    Lemma del_agree (f g : fstore) c : agr f g -> agr (del f c) (del g c).
    Proof. intros H x Hx. unfold del. destruct (cell_eqb x c); auto. Qed.
    Lemma put_frame (f : fstore) c v x : pw t c = true -> pw t x = false -> put f c v x = f x.
    Proof.
      intros H H'. unfold put. destruct (cell_eqb x c) eqn:E; [|reflexivity]. apply cell_eqb_spec in E. congruence.
    Qed.
    Lemma del_frame (f : fstore) c x : pw t c = true -> pw t x = false -> del f c x = f x.
    Proof.
      intros H H'. unfold del. destruct (cell_eqb x c) eqn:E; [|reflexivity]. apply cell_eqb_spec in E. congruence.
    Qed.

    (** Families of operations given the value they depend on. *)
    Definition lfam (op : V -> fstore -> res fstore) : Prop := forall v, la (op v).

    Lemma la_put c v : pw t c = true -> la (fun f : fstore => Ok (put f c v)).
    Proof.
      intros H. split.
      - intros f f' x E Hx. inversion E. apply put_frame; assumption.
      - intros f g Hfg. simpl. apply put_agree. exact Hfg.
    Qed.
    Lemma la_del c : pw t c = true -> la (fun f : fstore => Ok (del f c)).
    Proof.
      intros H. split.
      - intros f f' x E Hx. inversion E. apply del_frame; assumption.
      - intros f g Hfg. simpl. apply del_agree. exact Hfg.
    Qed.
    Lemma la_ok : la (fun f : fstore => Ok f).
    Proof. split; [intros f f' x E _; inversion E; reflexivity|intros f g H; exact H]. Qed.
    Lemma la_read c (e : exn) (op : V -> fstore -> res fstore) : pr t c = true -> lfam op ->
      la (fun f => match f c with Some v => op v f | None => Err e end).
    Proof.
      intros H L. split.
      - intros f f' x E Hx. destruct (f c) as [v|]; [|discriminate]. destruct (L v) as [L1 _]. eapply L1; eauto.
      - intros f g Hfg. rewrite <- (Hfg c H). destruct (f c) as [v|]; [|reflexivity]. destruct (L v) as [_ L2]. apply L2. exact Hfg.
    Qed.
    Lemma la_if (b : bool) op1 op2 : la op1 -> la op2 -> la (fun f : fstore => if b then op1 f else op2 f).
    Proof. intros. destruct b; assumption. Qed.
    Lemma la_when op : lfam op -> la (when_data name sg t op).
    Proof.
      intros H. apply la_read; [apply pr_w, pw_l|]. intros v. apply la_if; [apply H|apply la_ok].
    Qed.
    Lemma la_file p (op : V -> fstore -> res fstore) : pr t (File p) = true -> lfam op ->
      la (fun f => with_file p (fun v => op v f) f).
    Proof. intros H L. exact (la_read (File p) OSError op H L). Qed.

    Lemma pr_lcv : pr t (File lcv) = true.
    Proof. apply pr_spec. auto. Qed.

    Lemma calc_local a : In a (multipliers_calculate name out lcv sg t) -> la a.
    Proof.
      unfold multipliers_calculate. rewrite !in_app_iff, !in_map_iff. simpl In.
      intros [[<-|[<-|[]]]|[(d & <- & _)|[[<-|[]]|[(d & <- & _)|[[<-|[]]|[(d & <- & _)|[<-|[<-|[<-|[]]]]]]]]]].
      - apply (la_read (pk t FDem) OSError (fun v f => Ok (put f (Local (name t)) v))); [apply pr_w, pw_k|].
        intros v. apply la_put, pw_l.
      - apply la_when. intros v. apply (la_file lcv (fun l f => Ok (put f (File (lcv_of name out t)) (resample sg l v)))); [apply pr_lcv|].
        intros l. apply la_put. rewrite lcv_eq. apply pw_k.
      - apply la_when. intros v.
        apply (la_file (lcv_of name out t) (fun v f => if no_terrain sg v then Ok f else Ok (put f (File (terrain_nc (lcv_of name out t) d)) (mz sg t v d)))).
        + rewrite lcv_eq. apply pr_w, pw_k.
        + intros w. apply la_if; [apply la_ok|]. rewrite mz_eq. apply la_put, pw_k.
      - apply la_when. intros v. apply (la_file (lcv_of name out t) (fun v f => Ok (put f (File (ms_of name out t)) (ms_init sg v)))).
        + rewrite lcv_eq. apply pr_w, pw_k.
        + intros w. rewrite ms_eq. apply la_put, pw_k.
      - apply la_when. intros v.
        apply (la_file (ms_of name out t) (fun v f => with_file (dem_of name out t) (fun z => Ok (put f (File (shield_nc (ms_of name out t) d)) (ms sg t v z d))) f)).
        + rewrite ms_eq. apply pr_w, pw_k.
        + intros w. apply (la_file (dem_of name out t) (fun z f => Ok (put f (File (shield_nc (ms_of name out t) d)) (ms sg t w z d)))).
          * rewrite dem_eq. apply pr_w, pw_k.
          * intros z. rewrite msn_eq. apply la_put, pw_k.
      - apply la_when. intros v. rewrite ms_eq. apply la_del, pw_k.
      - apply la_when. intros v. apply (la_file (dem_of name out t) (fun v f => Ok (put f (File (topo_nc (dem_of name out t) d)) (mt sg t v d)))).
        + rewrite dem_eq. apply pr_w, pw_k.
        + intros w. rewrite mt_eq. apply la_put, pw_k.
      - apply (la_read (Local (name t)) KeyError (fun v f => if has_data sg v then with_file (dem_of name out t) (fun _ => Ok (del f (File (dem_of name out t)))) f else Ok (del f (File (dem_of name out t))))).
        + apply pr_w, pw_l.
        + intros v. apply la_if.
          * apply (la_file (dem_of name out t) (fun _ f => Ok (del f (File (dem_of name out t))))); [apply pr_w, (pw_k FDem)|intros w; apply la_del, (pw_k FDem)].
          * apply la_del, (pw_k FDem).
      - apply la_when. intros v. apply (la_file (lcv_of name out t) (fun _ f => Ok (del f (File (lcv_of name out t))))); [apply pr_w, (pw_k FLcv)|intros w; apply la_del, (pw_k FLcv)].
      - apply la_del, pw_l.
    Qed.

    Lemma cut_local : local_total pr pw t (cut_dem name out sg t).
    Proof.
      split.
      - intros f x H. apply put_frame; [apply (pw_k FDem)|exact H].
      - intros f g H. apply put_agree. exact H.
    Qed.

    (** ** The result of one tile *)
    Lemma put_eq (f : fstore) c v : put f c v c = Some v.
    Proof. unfold put. rewrite cell_eqb_refl. reflexivity. Qed.
    Lemma put_ne (f : fstore) c v x : x <> c -> put f c v x = f x.
    Proof. intros H. unfold put. apply cell_eqb_false in H. rewrite H. reflexivity. Qed.
    Lemma del_eq (f : fstore) c : del f c c = None.
    Proof. unfold del. rewrite cell_eqb_refl. reflexivity. Qed.
    Lemma del_ne (f : fstore) c x : x <> c -> del f c x = f x.
    Proof. intros H. unfold del. apply cell_eqb_false in H. rewrite H. reflexivity. Qed.
    Lemma pk_ne k k' : k <> k' -> pk t k <> pk t k'.
    Proof. intros H E. inversion E as [E']. apply pathk_inj in E'; tauto. Qed.
    Lemma run_cons (a : action fstore) l f : run_actions (a :: l) f = bind (a f) (run_actions l).
    Proof. reflexivity. Qed.

    (** Writing one file per direction. *)
    Definition wr (ty : mtype) (val : dir -> V) (f : fstore) (c : cell) : option V :=
      match find (fun d => cell_eqb c (pk t (FNc ty d))) all_dirs with
      | Some d => Some (val d) | None => f c end.

    Lemma find_dir ty d : find (fun d' => cell_eqb (pk t (FNc ty d)) (pk t (FNc ty d'))) all_dirs = Some d.
    Proof.
      assert (H : forall l, In d l -> find (fun d' => cell_eqb (pk t (FNc ty d)) (pk t (FNc ty d'))) l = Some d).
      { induction l as [|d' l IH]; intros H; [contradiction|]. cbn [find].
        destruct (cell_eqb (pk t (FNc ty d)) (pk t (FNc ty d'))) eqn:E.
        - apply cell_eqb_spec in E. inversion E as [E']. apply convert_nc_inj in E'; auto. destruct E' as (_ & _ & ->). reflexivity.
        - destruct H as [->|H]; [rewrite cell_eqb_refl in E; discriminate|auto]. }
      apply H. destruct d; simpl; auto 10.
    Qed.
    Lemma find_none ty c : (forall d, c <> pk t (FNc ty d)) -> find (fun d => cell_eqb c (pk t (FNc ty d))) all_dirs = None.
    Proof.
      intros H. destruct (find _ all_dirs) as [d|] eqn:E; [|reflexivity].
      apply find_some in E. destruct E as [_ E]. apply cell_eqb_spec in E. exfalso. exact (H d E).
    Qed.

    Lemma dirs_run ty val (op : dir -> action fstore) (P : fstore -> Prop) :
      (forall d f, P f -> op d f = Ok (put f (pk t (FNc ty d)) (val d))) ->
      (forall d f v, P f -> P (put f (pk t (FNc ty d)) v)) ->
      forall ds, (forall d, In d ds) -> forall f, P f ->
      exists g, run_actions (map op ds) f = Ok g /\ P g /\ forall c, g c = wr ty val f c.
    Proof.
      intros H1 H2 ds HA.
      assert (G : forall l f, P f -> exists g, run_actions (map op l) f = Ok g /\ P g /\
         forall c, g c = match find (fun d => cell_eqb c (pk t (FNc ty d))) l with Some d => Some (val d) | None => f c end).
      { induction l as [|d l IH]; intros f Hf; simpl map.
        - exists f. repeat split; auto.
        - rewrite run_cons, (H1 d f Hf). cbn [bind]. destruct (IH _ (H2 d f (val d) Hf)) as (g & E1 & E2 & E3).
          exists g. split; [exact E1|]. split; [exact E2|]. intros c. rewrite E3. cbn [find].
          destruct (cell_eqb c (pk t (FNc ty d))) eqn:E.
          + apply cell_eqb_spec in E. subst c.
            destruct (find _ l) as [d'|] eqn:F; [|apply put_eq].
            apply find_some in F. destruct F as [_ F]. apply cell_eqb_spec in F. inversion F as [F'].
            apply convert_nc_inj in F'; auto. destruct F' as (_ & _ & ->). reflexivity.
          + destruct (find _ l); [reflexivity|]. apply put_ne. apply cell_eqb_false. exact E. }
      intros f Hf. destruct (G ds f Hf) as (g & E1 & E2 & E3). exists g. split; [exact E1|]. split; [exact E2|].
      intros c. rewrite E3. unfold wr.
      destruct (find (fun d => cell_eqb c (pk t (FNc ty d))) ds) as [d|] eqn:F.
      - apply find_some in F. destruct F as [_ F]. apply cell_eqb_spec in F. subst c. rewrite find_dir. reflexivity.
      - destruct (find _ all_dirs) as [d|] eqn:F'; [|reflexivity].
        pose proof (List.find_none _ _ F) as Q. apply find_some in F'. destruct F' as [_ F']. specialize (Q d (HA d)). cbv beta in Q, F'. congruence.
    Qed.

    Definition st (dem cov : V) (mo : option V) (f : fstore) : Prop :=
      f (Local (name t)) = Some dem /\ f (pk t FDem) = Some dem /\ f (pk t FLcv) = Some cov /\ f (pk t FMs) = mo.

    Lemma st_put dem cov mo ty d f v : st dem cov mo f -> st dem cov mo (put f (pk t (FNc ty d)) v).
    Proof.
      intros (H1 & H2 & H3 & H4). unfold st.
      rewrite !put_ne by (first [discriminate|apply pk_ne; discriminate]). auto.
    Qed.

    Lemma when_yes dem op f : f (Local (name t)) = Some dem -> has_data sg dem = true ->
      when_data name sg t op f = op dem f.
    Proof. intros H1 H2. unfold when_data. rewrite H1, H2. reflexivity. Qed.
    Lemma when_no dem op f : f (Local (name t)) = Some dem -> has_data sg dem = false ->
      when_data name sg t op f = Ok f.
    Proof. intros H1 H2. unfold when_data. rewrite H1, H2. reflexivity. Qed.
    Lemma with_yes p v (k : V -> res fstore) f : f (File p) = Some v -> with_file p k f = k v.
    Proof. intros H. unfold with_file. rewrite H. reflexivity. Qed.

    Lemma stage_all d : In d stage_dirs.
    Proof. destruct d; simpl; auto 10. Qed.
    Lemma topo_all d : In d topo_dirs.
    Proof. destruct d; simpl; auto 10. Qed.

    Lemma skip_run dem l f : has_data sg dem = false -> f (Local (name t)) = Some dem ->
      (forall a, In a l -> exists op, a = when_data name sg t op) -> run_actions l f = Ok f.
    Proof.
      intros Hd Hf. induction l as [|a l IH]; intros H; [reflexivity|].
      rewrite run_cons. destruct (H a (or_introl eq_refl)) as (op & ->). rewrite (when_no dem) by assumption. cbn [bind].
      apply IH. intros b Hb. apply H. right. exact Hb.
    Qed.

    Definition calc1 (f : fstore) : res fstore :=
      run_actions (multipliers_calculate name out lcv sg t) (cut_dem name out sg t f).

    Lemma calc_nodata f : has_data sg (clip sg t) = false ->
      exists g, calc1 f = Ok g /\ forall c, g c = if cell_eqb c (pk t FDem) || cell_eqb c (Local (name t)) then None else f c.
    Proof.
      intros Hd. unfold calc1, multipliers_calculate.
      set (mid := map (op_terrain name out sg t) stage_dirs ++ [op_ms_init name out sg t] ++ map (op_shield name out sg t) stage_dirs ++
         [op_rm_ms name out sg t] ++ map (op_topo name out sg t) topo_dirs).
      replace ([open_dem name out t; op_resample name out lcv sg t] ++ map (op_terrain name out sg t) stage_dirs ++
    [op_ms_init name out sg t] ++ map (op_shield name out sg t) stage_dirs ++ [op_rm_ms name out sg t] ++
    map (op_topo name out sg t) topo_dirs ++ [op_rm_dem name out sg t; op_rm_lcv name out sg t; op_return name t])
      with ([open_dem name out t : action fstore] ++ (op_resample name out lcv sg t :: mid) ++ [op_rm_dem name out sg t] ++ [op_rm_lcv name out sg t] ++ [op_return name t])
      by (subst mid; do 6 (cbn [app]; rewrite <- ?app_assoc); reflexivity).
      set (f1 := cut_dem name out sg t f).
      assert (E1 : f1 (pk t FDem) = Some (clip sg t)) by apply put_eq.
      set (f2 := put f1 (Local (name t)) (clip sg t)).
      assert (O2 : open_dem name out t f1 = Ok f2) by (unfold open_dem; change (dem_of name out t) with (pathk out (name t) FDem); rewrite E1; reflexivity).
      rewrite run_app, run_cons, O2. cbn [bind]. change (run_actions [] f2) with (Ok f2). cbn [bind].
      assert (E2 : f2 (Local (name t)) = Some (clip sg t)) by apply put_eq.
      rewrite run_app, (skip_run (clip sg t) _ f2 Hd E2).
      2:{ subst mid. intros a [<-|H]; [eexists; reflexivity|].
          rewrite !in_app_iff, !in_map_iff in H. simpl In in H.
          destruct H as [(d & <- & _)|[[<-|[]]|[(d & <- & _)|[[<-|[]]|(d & <- & _)]]]]; eexists; reflexivity. }
      cbn [bind app]. rewrite run_cons. unfold op_rm_dem. rewrite E2, Hd. cbn [bind].
      rewrite run_cons. unfold op_rm_lcv. rewrite (when_no (clip sg t)); [|rewrite del_ne by discriminate; exact E2|exact Hd].
      cbn [bind]. eexists. split; [reflexivity|]. intros c. subst f2 f1. unfold del, put, cut_dem, put.
      rewrite !dem_eq. destruct (cell_eqb c (Local (name t))), (cell_eqb c (pk t FDem)); reflexivity.
    Qed.

    Lemma calc_data f : has_data sg (clip sg t) = true -> pw t (File lcv) = false ->
      match f (File lcv) with
      | Some l => exists g, calc1 f = Ok g /\ forall c, g c = tile_result name out sg f l t c
      | None => calc1 f = Err OSError
      end.
    Proof.
      intros Hd Hl. unfold calc1, multipliers_calculate.
      set (f1 := cut_dem name out sg t f).
      assert (E1 : f1 (pk t FDem) = Some (clip sg t)) by apply put_eq.
      set (f2 := put f1 (Local (name t)) (clip sg t)).
      assert (O2 : open_dem name out t f1 = Ok f2) by (unfold open_dem; change (dem_of name out t) with (pathk out (name t) FDem); rewrite E1; reflexivity).
      cbn [app]. rewrite run_cons, O2. cbn [bind]. rewrite run_cons.
      assert (E2 : f2 (Local (name t)) = Some (clip sg t)) by apply put_eq.
      assert (El : f2 (File lcv) = f (File lcv)).
      { subst f2 f1. rewrite put_ne by discriminate. apply put_ne. intros E. rewrite E in Hl. pose proof (pw_k FDem) as Q. unfold dem_of in Hl. simpl pathk in Q. unfold dem_tmp in Hl. simpl sfx in Q. simpl lit in Hl. congruence. }
      destruct (f (File lcv)) as [l|] eqn:Fl.
      2:{ unfold op_resample. rewrite (when_yes (clip sg t)) by assumption. unfold with_file at 1. rewrite El. reflexivity. }
      unfold op_resample. rewrite (when_yes (clip sg t)) by assumption. rewrite (with_yes _ l) by exact El.
      cbn [bind]. set (cov := resample sg l (clip sg t)). set (dem := clip sg t) in *. rewrite lcv_eq.
      set (f3 := put f2 (pk t FLcv) cov).
      assert (S3 : st dem cov (f (pk t FMs)) f3).
      { unfold st. subst f3 f2 f1. unfold cut_dem. rewrite dem_eq.
        repeat split; rewrite ?put_eq; try (rewrite !put_ne by (first [discriminate|apply pk_ne; discriminate]));
          rewrite ?put_eq; reflexivity. }
      assert (F3 : forall c, c <> pk t FDem -> c <> pk t FLcv -> c <> Local (name t) -> f3 c = f c).
      { intros c N1 N2 N3. subst f3 f2 f1. rewrite !put_ne by assumption. apply put_ne. rewrite dem_eq. exact N1. }
      (* terrain *)
      assert (G4 : exists f4, run_actions (map (op_terrain name out sg t) stage_dirs) f3 = Ok f4 /\ st dem cov (f (pk t FMs)) f4 /\
         forall c, f4 c = if no_terrain sg cov then f3 c else wr Terrain (mz sg t cov) f3 c).
      { destruct (no_terrain sg cov) eqn:Nt.
        - exists f3. split; [|auto]. induction stage_dirs as [|d ds IH]; [reflexivity|]. simpl map. rewrite run_cons.
          unfold op_terrain at 1. destruct S3 as (H1 & H2 & H3 & H4).
          rewrite (when_yes dem), (with_yes _ cov), Nt by assumption. exact IH.
        - destruct (dirs_run Terrain (mz sg t cov) (op_terrain name out sg t) (st dem cov (f (pk t FMs)))) with (ds := stage_dirs) (f := f3)
            as (g & R1 & R2 & R3); auto using stage_all.
          + intros d h (H1 & H2 & H3 & H4). unfold op_terrain. rewrite (when_yes dem), (with_yes _ cov), Nt, mz_eq by assumption. reflexivity.
          + intros. apply st_put. assumption.
          + exists g. auto. }
      destruct G4 as (f4 & R4 & S4 & V4). rewrite run_app, R4. cbn [bind].
      cbn [app]. rewrite run_cons. unfold op_ms_init. destruct S4 as (A1 & A2 & A3 & A4).
      rewrite (when_yes dem), (with_yes _ cov) by assumption. cbn [bind]. rewrite ms_eq.
      set (f5 := put f4 (pk t FMs) (ms_init sg cov)).
      assert (S5 : st dem cov (Some (ms_init sg cov)) f5).
      { unfold st. subst f5. rewrite put_eq, !put_ne by (first [discriminate|apply pk_ne; discriminate]). auto. }
      destruct (dirs_run Shielding (ms sg t (ms_init sg cov) dem) (op_shield name out sg t) (st dem cov (Some (ms_init sg cov)))) with (ds := stage_dirs) (f := f5)
            as (f6 & R6 & S6 & V6); auto using stage_all.
      { intros d h (H1 & H2 & H3 & H4). unfold op_shield. rewrite (when_yes dem) by assumption.
        rewrite (with_yes _ (ms_init sg cov)) by (rewrite ms_eq; exact H4). rewrite (with_yes _ dem) by exact H2. rewrite msn_eq. reflexivity. }
      { intros. apply st_put. assumption. }
      rewrite run_app, R6. cbn [bind]. rewrite run_cons. unfold op_rm_ms. destruct S6 as (B1 & B2 & B3 & B4).
      rewrite (when_yes dem) by assumption. cbn [bind]. rewrite ms_eq.
      set (f7 := del f6 (pk t FMs)).
      assert (S7 : st dem cov None f7).
      { unfold st. subst f7. rewrite del_eq, !del_ne by (first [discriminate|apply pk_ne; discriminate]). auto. }
      destruct (dirs_run Topographic (mt sg t dem) (op_topo name out sg t) (st dem cov None)) with (ds := topo_dirs) (f := f7)
            as (f8 & R8 & S8 & V8); auto using topo_all.
      { intros d h (H1 & H2 & H3 & H4). unfold op_topo. rewrite (when_yes dem), (with_yes _ dem), mt_eq by assumption. reflexivity. }
      { intros. apply st_put. assumption. }
      rewrite run_app, R8. cbn [bind]. destruct S8 as (C1 & C2 & C3 & C4).
      rewrite run_cons. unfold op_rm_dem. rewrite C1, Hd, (with_yes _ dem) by exact C2. cbn [bind]. rewrite dem_eq.
      rewrite run_cons. unfold op_rm_lcv. rewrite (when_yes dem) by (try (rewrite del_ne by discriminate); assumption).
      rewrite (with_yes _ cov) by (rewrite del_ne by (rewrite lcv_eq; apply pk_ne; discriminate); exact C3).
      cbn [bind]. rewrite run_cons. unfold op_return. cbn [bind].
      eexists. split; [reflexivity|]. intros c. rewrite lcv_eq. unfold tile_result.
      change (resample sg l (clip sg t)) with cov. change (clip sg t) with dem. rewrite Hd.
      change (fun d : dir => cell_eqb c (File (convert_nc out (name t) Terrain d))) with (fun d => cell_eqb c (pk t (FNc Terrain d))).
      change (fun d : dir => cell_eqb c (File (convert_nc out (name t) Shielding d))) with (fun d => cell_eqb c (pk t (FNc Shielding d))).
      change (fun d : dir => cell_eqb c (File (convert_nc out (name t) Topographic d))) with (fun d => cell_eqb c (pk t (FNc Topographic d))).
      destruct (pw t c) eqn:Pw.
      - apply pw_spec in Pw. destruct Pw as [->|(k & ->)].
        + rewrite del_eq, !find_none by discriminate. reflexivity.
        + assert (NF : forall k', match k' with FNc _ _ => False | _ => True end -> forall ty d, pk t k' <> pk t (FNc ty d)).
          { intros k' Hk' ty d. apply pk_ne. destruct k'; try contradiction; discriminate. }
          destruct k as [| | |ty d].
          * rewrite !find_none by (intros; apply NF; exact I). rewrite del_ne by discriminate. rewrite del_ne by (apply pk_ne; discriminate). apply del_eq.
          * rewrite !find_none by (intros; apply NF; exact I). rewrite del_ne by discriminate. apply del_eq.
          * rewrite !find_none by (intros; apply NF; exact I). rewrite !del_ne by (first [discriminate|apply pk_ne; discriminate]). exact C4.
          * rewrite !del_ne by (first [discriminate|apply pk_ne; discriminate]).
            rewrite V8. unfold wr at 1. destruct ty.
            -- rewrite (find_none Topographic (pk t (FNc Shielding d))), (find_none Terrain (pk t (FNc Shielding d))), find_dir by (intros; apply pk_ne; discriminate).
               subst f7. rewrite del_ne by (apply pk_ne; discriminate). rewrite V6. unfold wr. rewrite find_dir. reflexivity.
            -- rewrite (find_none Topographic (pk t (FNc Terrain d))), find_dir by (intros; apply pk_ne; discriminate).
               subst f7. rewrite del_ne by (apply pk_ne; discriminate). rewrite V6. unfold wr.
               rewrite (find_none Shielding (pk t (FNc Terrain d))) by (intros; apply pk_ne; discriminate).
               subst f5. rewrite put_ne by (apply pk_ne; discriminate). rewrite V4. unfold wr. rewrite find_dir.
               destruct (no_terrain sg cov); [|reflexivity]. apply F3; try apply pk_ne; discriminate.
            -- rewrite (find_none Shielding (pk t (FNc Topographic d))), (find_none Terrain (pk t (FNc Topographic d))), find_dir by (intros; apply pk_ne; discriminate). reflexivity.
      - assert (NC : forall k, c <> pk t k) by (intros k ->; rewrite pw_k in Pw; discriminate).
        assert (NL : c <> Local (name t)) by (intros ->; rewrite pw_l in Pw; discriminate).
        rewrite !find_none by (intros; apply NC).
        rewrite !del_ne by auto. rewrite V8. unfold wr. rewrite find_none by (intros; apply NC). subst f7.
        rewrite del_ne by auto. rewrite V6. unfold wr. rewrite find_none by (intros; apply NC). subst f5.
        rewrite put_ne by auto. rewrite V4. unfold wr. rewrite find_none by (intros; apply NC).
        rewrite F3 by auto. destruct (no_terrain sg cov); reflexivity.
    Qed.
  End One.
End P.
