(** * Proofs about runs on actual rasters. *)
From Coq Require Import Qabs.
From Verif Require Import Base BaseLemmas PyStr Rounding TileModel TileSpec TileProofs ClipModel ClipProofs TileProps NameModel TerrModel TerrSpec TerrProofs TerrRunProofs TerrProps
  ShldModel ShldSpec ShldProofs ShldKernProofs ShldRunProofs ShldProps TilingProps TopoModel TopoSpec TopoStageProofs ReprModel ReprSpec ReprProofs ReprProps ConvModel PipeModel WholeSpec
  StageModel StageSpec.
Open Scope Z_scope.

Lemma Qopp_twice q : (- - q)%Q = q.
Proof. destruct q as [a b]. unfold Qopp. cbn. rewrite Z.opp_involutive. reflexivity. Qed.

Lemma dir_eqb_eq a b : dir_eqb a b = true <-> a = b.
Proof. destruct a, b; cbn; split; intros H; try reflexivity; try discriminate. Qed.
Lemma pick_in d l : NoDup (map fst l) -> forall o, In (d, o) l -> pick d l = o.
Proof.
  intros N o I. unfold pick. induction l as [|[e x] l IH]; [destruct I|]. cbn [find fst]. inversion N as [|? ? N1 N2]; subst. destruct (dir_eqb e d) eqn:E.
  - apply dir_eqb_eq in E. subst e. destruct I as [X|X]; [injection X as <-; reflexivity|]. exfalso. apply N1. apply (in_map fst) in X. exact X.
  - destruct I as [X|X]; [injection X as <- <-; rewrite (proj2 (dir_eqb_eq e e) eq_refl) in E; discriminate|]. apply IH; assumption.
Qed.

(** Terrain of a tile whose classes are those of a window of the raster. *)
Lemma terrain_part fl table (data w : grid Z) gw B tr0 tr1 tc0 tc1 r0 r1 c0 c1 lz : fl_ok fl -> (0 < gw)%Q -> (gw <= 353)%Q ->
  0 <= tr0 < tr1 /\ tr1 <= g_rows data -> 0 <= tc0 < tc1 /\ tc1 <= g_cols data ->
  (forall d, fst (widths fl gw d) + snd (widths fl gw d) <= B) ->
  0 <= r0 <= Z.max 0 (tr0 - B) -> Z.min (g_rows data) (tr1 + B) <= r1 <= g_rows data ->
  0 <= c0 <= Z.max 0 (tc0 - B) -> Z.min (g_cols data) (tc1 + B) <= c1 <= g_cols data ->
  part_of r0 r1 c0 c1 data w -> positive_table table -> (exists i j, tr0 <= i < tr1 /\ tc0 <= j < tc1 /\ listed table (g_at data i j)) ->
  terrain fl table data gw = Ok (Some lz) ->
  exists lw, terrain fl table w gw = Ok (Some lw) /\ map fst lw = dire /\
    forall d ow o, In (d, ow) lw -> In (d, o) lz ->
      g_rows ow = r1 - r0 /\ g_cols ow = c1 - c0 /\
      forall i j, tr0 <= i < tr1 -> tc0 <= j < tc1 -> same_num (g_at ow (i - r0) (j - c0)) (g_at o i j).
Proof.
  intros Hf Hg H353 Hr Hc HB R0 R1 C0 C1 (Wr & Wc & Wv) PT (pi & pj & Hpi & Hpj & L) E.
  assert (B0 : 0 <= B) by (pose proof (HB W_); pose proof (widths_nonneg fl gw Hf Hg W_); lia).
  destruct (terrain_skip_or_run _ _ _ _ _ E) as [|(l' & El & Ed & K)]; [discriminate|]. injection El as <-.
  assert (T : forall d, match terrain_dir d (zero_to_nan (class2mz table w)) (fst (widths fl gw d)) (snd (widths fl gw d)),
                              terrain_dir d (zero_to_nan (class2mz table data)) (fst (widths fl gw d)) (snd (widths fl gw d)) with
    | Ok ow, Ok o => forall i j, tr0 <= i < tr1 -> tc0 <= j < tc1 -> same_num (g_at ow (i - r0) (j - c0)) (g_at o i j)
    | Err e, Err e' => e = e' | _, _ => False end).
  { intros d. pose proof (widths_nonneg fl gw Hf Hg d) as P. pose proof (avg_positive fl gw Hf Hg d H353) as A. specialize (HB d).
    apply (terrain_dir_window (g_rows data) (g_cols data) r0 r1 c0 c1 B tr0 tr1 tc0 tc1); try assumption; try reflexivity; try lia.
    intros r c H1 H2. unfold zero_to_nan, class2mz, gmap. cbn [g_at]. rewrite Wv by assumption. reflexivity. }
  assert (Din : forall d, In d dire) by (intros d; destruct d; cbn; tauto).
  assert (Whole : forall d, exists o, In (d, o) lz).
  { intros d. pose proof (Din d) as I. rewrite <- Ed in I. apply in_map_iff in I. destruct I as ((d' & o) & X & I). cbn in X. subst d'. eauto. }
  assert (Tile : exists r, terrain fl table w gw = Ok r).
  { unfold terrain. destruct (np_max_ok (class2mz table w)) as (mx & ->); [cbn [class2mz g_rows]; lia|cbn [class2mz g_cols]; lia|].
    cbn [bind]. destruct (is_zero mx); [eauto|]. cbv zeta.
    destruct (mapM_ok (fun d => let '(avg, lag) := widths fl gw d in let* o := terrain_dir d (zero_to_nan (class2mz table w)) avg lag in Ok (d, o)) dire) as (l & ->); [|cbn [bind]; eauto].
    intros d _. specialize (T d). destruct (Whole d) as (o & Io). rewrite (K d o Io) in T. destruct (widths fl gw d) as [avg lag]. cbn [fst snd] in T.
    destruct (terrain_dir d _ avg lag) as [ow|]; [cbn [bind]; eauto|contradiction]. }
  destruct Tile as ([lw|] & Ew).
  2:{ exfalso. apply (proj1 (C24_skipped fl table w gw PT ltac:(lia) ltac:(lia)) Ew (pi - r0) (pj - c0)); try lia.
      rewrite Wv by lia. replace (r0 + (pi - r0)) with pi by lia. replace (c0 + (pj - c0)) with pj by lia. exact L. }
  destruct (terrain_skip_or_run _ _ _ _ _ Ew) as [|(l' & El & Edw & Kw)]; [discriminate|]. injection El as <-.
  exists lw. split; [exact Ew|]. split; [exact Edw|]. intros d ow o Iw Io. specialize (T d). rewrite (K d o Io), (Kw d ow Iw) in T.
  specialize (Kw d ow Iw).
  destruct (terrain_dir_cases fl gw d (zero_to_nan (class2mz table w)) Hf Hg) as [[_ X]|[_ (o' & X & X1 & X2)]]; try (cbn; lia); rewrite Kw in X; [discriminate X|].
  injection X as <-. split; [rewrite X1; cbn; lia|]. split; [rewrite X2; cbn; lia|exact T].
Qed.

(** ** The files of tile [k] before the multipliers *)
Section Tile.
  Variables (fl : Q -> Q) (tr : str -> str -> Q * Q -> Q * Q) (upwind : Q) (ds : TileModel.raster) (tg : tilegrid) (dem lcv : image) (lc : grid Z) (k : Z).
  Hypothesis Hfl : fl_ok fl.
  Hypothesis Hg : good_raster upwind ds.
  Hypothesis Hco : coords_ok ds.
  Hypothesis Hmk : mk_tilegrid fl upwind ds = Ok tg.
  Hypothesis Hk : 0 <= k < num_tiles tg.
  Hypothesis Htr : forall p q, tr p p q = q.
  Hypothesis Hel : elevation ds dem.
  Hypothesis Hlu : north_up lcv.
  Hypothesis Hlc : land_cover tr lcv dem lc.

  Notation Z_ := (st_clip fl tr tg dem k).
  Notation L_ := (st_resample tr (as_file lcv) Z_).

  Lemma tile_files x1 x2 y1 y2 ext extb X1 X2 Y1 Y2 :
    get_gridlimit tg k = Ok (x1, x2, y1, y2) -> get_gridlimit_buffer tg k = Ok (X1, X2, Y1, Y2) ->
    get_tile_extent fl tg k = Ok ext -> get_tile_extent_buffer fl tg k = Ok extb ->
    part_of Y1 Y2 X1 X2 (heights (as_file dem)) (heights Z_) /\ m_nodata (r_geo Z_) = None /\
    m_proj (r_geo Z_) = im_proj dem /\ m_x (r_geo Z_) = fst (fst (fst extb)) /\ m_y (r_geo Z_) = snd (fst (fst extb)) /\ m_dx (r_geo Z_) = gt1 ds /\ m_dy (r_geo Z_) = gt5 ds /\
    part_of Y1 Y2 X1 X2 lc (classes L_) /\ m_nodata (r_geo L_) = None /\
    m_proj (r_geo L_) = im_proj dem /\ m_x (r_geo L_) = m_x (r_geo Z_) /\ m_y (r_geo L_) = m_y (r_geo Z_) /\ m_dx (r_geo L_) = gt1 ds /\ m_dy (r_geo L_) = gt5 ds.
  Proof.
    intros GL GB TE TB. destruct Hel as (Ex & Edx & Ey & Edy & Er & Ec & Nd & Nt & Kp).
    destruct (C76_tile fl tr upwind ds dem tg k Hfl Hg Hco Hmk Hk Htr Ex Edx Ey Edy Er Ec Nd Kp) as (A1 & A2 & B1 & B2 & e & GB' & TB' & Pr & Dx & Dy & _ & Ox & Oy & Rr & Rc & V).
    rewrite GB in GB'. injection GB' as <- <- <- <-. rewrite TB in TB'. injection TB' as <-.
    destruct (C03_buffer_contains fl upwind ds tg k Hfl Hg Hmk Hk) as (a1 & a2 & b1 & b2 & A1 & A2 & B1 & B2 & GL' & GB' & P).
    rewrite GB in GB'. injection GB' as <- <- <- <-.
    assert (EB : extent_with_buffer fl tg k = extb) by (unfold extent_with_buffer; rewrite TB; reflexivity).
    assert (Dyy : im_dy (clip_dataset fl tr dem extb) = gt5 ds).
    { unfold clip_dataset. destruct extb as [[[e0 e1] e2] e3]. destruct (clip_dataset_size _ _ _ _) as [wd hg]. cbn [warp im_dy]. rewrite Qopp_twice. exact Edy. }
    assert (Org : im_x (clip_dataset fl tr dem extb) = fst (fst (fst extb)) /\ im_y (clip_dataset fl tr dem extb) = snd (fst (fst extb))).
    { unfold clip_dataset. destruct extb as [[[e0 e1] e2] e3]. destruct (clip_dataset_size _ _ _ _) as [wd hg]. split; reflexivity. }
    assert (Nod : im_nodata (clip_dataset fl tr dem extb) = None).
    { unfold clip_dataset. destruct extb as [[[e0 e1] e2] e3]. destruct (clip_dataset_size _ _ _ _) as [wd hg]. reflexivity. }
    unfold st_clip. rewrite EB. set (o := clip_dataset fl tr dem extb) in *. destruct Org as [Oxx Oyy]. clearbody o.
    split; [split; [exact Rr|split; [exact Rc|]]|].
    { intros r c Hr Hc. unfold heights, as_file, band1, gmap. cbn [r_bands b_data g_at]. f_equal. apply Qred_complete. exact (V r c Hr Hc). }
    cbn [as_file r_geo m_nodata m_proj m_x m_y m_dx m_dy]. do 4 (split; [assumption|]). split; [congruence|]. split; [assumption|].
    destruct (reproject_dataset tr (fun _ => []) (fun _ => None) (Opened (as_image (as_file lcv))) (Opened (as_image (as_file o))) None) as [w|] eqn:Ew; [|discriminate].
    assert (EL : st_resample tr (as_file lcv) (as_file o) = as_file w) by (unfold st_resample; rewrite Ew; reflexivity). rewrite EL.
    assert (EW : w = warp tr (as_image (as_file lcv)) (im_proj o) (im_x o) (im_dx o) (im_y o) (im_dy o) (g_rows (im_cells o)) (g_cols (im_cells o))) by (injection Ew as <-; reflexivity).
    assert (Wr : g_rows (im_cells w) = Y2 - Y1) by (rewrite EW; exact Rr). assert (Wc : g_cols (im_cells w) = X2 - X1) by (rewrite EW; exact Rc).
    split; [|rewrite EW; cbn [as_file r_geo warp im_nodata im_proj im_x im_y im_dx im_dy m_nodata m_proj m_x m_y m_dx m_dy]; repeat split; congruence].
    split; [exact Wr|]. split; [exact Wc|]. intros r c Hr Hc. unfold classes, as_file at 1, band1, gmap. cbn [r_bands b_data g_at].
    destruct Hlc as (Lr & Lc & Lv). rewrite Er in Lr. rewrite Ec in Lc.
    destruct (tr (im_proj o) (im_proj lcv) (centre_x o c, centre_y o r)) as [px py] eqn:Et.
    pose proof (C76_values tr (fun _ => []) (fun _ => None) (as_image (as_file lcv)) (as_image (as_file o)) w r c px py Hlu Ew Et) as [W1 W2].
    rewrite Pr in Et.
    assert (Cv : cover_at lcv px py (g_at lc (Y1 + r) (X1 + c))).
    { apply (Lv (Y1 + r) (X1 + c) (centre_x o c) (centre_y o r) px py); [lia|lia| | |exact Et].
      - unfold centre_x. rewrite Dx, inject_Z_plus. apply Qabs_le_iff. apply Qabs_le_iff in Ox. lra.
      - unfold centre_y. rewrite Dyy, Edy, inject_Z_plus. rewrite Edy in Oy. apply Qabs_le_iff. apply Qabs_le_iff in Oy. lra. }
    assert (Q0 : forall q z, (q == inject_Z z)%Q -> Qfloor q = z) by (intros q z ->; apply Qfloor_Z).
    apply Q0. destruct Cv as [(i & j & Pin & Ev & Kv & Nv)|[-> [No|(i & j & n & Pin & En & Ev)]]].
    - destruct (W1 i j Pin) as [_ A]. rewrite <- Ev. apply A; [exact Nv|exact Kv].
    - apply W2. exact No.
    - destruct (W1 i j Pin) as [A _]. apply A. exists n. split; [exact En|exact Ev].
  Qed.
End Tile.

Lemma clip_type fl tr tg dem k : m_type (r_geo (st_clip fl tr tg dem k)) = match im_type dem with Int32 => Int32 | _ => Float32 end.
Proof.
  unfold st_clip, clip_dataset. destruct (extent_with_buffer fl tg k) as [[[e0 e1] e2] e3]. destruct (clip_dataset_size _ _ _ _) as [wd hg]. reflexivity.
Qed.

(** ** Topographic multipliers depend on the cells of the raster only *)
Lemma flat_part {A} (g h : grid A) : g_rows h = g_rows g -> g_cols h = g_cols g -> 0 <= g_rows g -> 0 <= g_cols g ->
  (forall r c, 0 <= r < g_rows g -> 0 <= c < g_cols g -> g_at h r c = g_at g r c) -> flat h = flat g.
Proof.
  intros Er Ec R0 C0 V. unfold flat. rewrite Er, Ec. apply map_ext_in. intros l Hl. apply in_zrange in Hl. apply V.
  - apply Z.mod_pos_bound. nia.
  - split; [apply Z.div_pos; nia|apply Z.div_lt_upper_bound; nia].
Qed.
Lemma smooth_part (g h : grid Q) r c : g_rows h = g_rows g -> g_cols h = g_cols g ->
  (forall r c, 0 <= r < g_rows g -> 0 <= c < g_cols g -> g_at h r c = g_at g r c) -> g_at (smooth h) r c = g_at (smooth g) r c.
Proof.
  intros Er Ec V. unfold smooth. cbn [g_at]. assert (G : forall r c, qget h r c = qget g r c).
  { intros i j. unfold qget. rewrite Er, Ec. destruct (_ && _) eqn:E; [|reflexivity]. rewrite !andb_true_iff, !Z.leb_le, !Z.ltb_lt in E. apply V; lia. }
  cbn [fold_right fst snd]. rewrite !G. reflexivity.
Qed.
Lemma topo_dir_part fl sqrt2 cs xl yu (g h : grid num) d o : g_rows h = g_rows g -> g_cols h = g_cols g -> 0 <= g_rows g -> 0 <= g_cols g ->
  (forall r c, 0 <= r < g_rows g -> 0 <= c < g_cols g -> g_at h r c = g_at g r c) ->
  topo_dir fl sqrt2 cs xl yu g d = Ok o ->
  exists o', topo_dir fl sqrt2 cs xl yu h d = Ok o' /\ forall r c, 0 <= r < g_rows g -> 0 <= c < g_cols g -> g_at o' r c = g_at o r c.
Proof.
  intros Er Ec R0 C0 V. unfold topo_dir. rewrite Er, Ec, (flat_part g h Er Ec R0 C0 V).
  destruct (foldM _ _ _) as [mh|]; cbn [bind]; [|discriminate]. intros E. injection E as <-. eexists. split; [reflexivity|].
  intros r c Hr Hc. cbn [g_at]. rewrite (V r c Hr Hc). destruct (g_at g r c); [reflexivity|]. f_equal. apply smooth_part.
  - destruct (in_tasmania xl yu); reflexivity.
  - destruct (in_tasmania xl yu); reflexivity.
  - intros i j Hi Hj. destruct (in_tasmania xl yu); [|reflexivity]. cbn [g_at g_rows g_cols] in *. rewrite (V i j Hi Hj). reflexivity.
Qed.
Lemma topomult_part fl sqrt2 cs xl yu (g h : grid num) outs : g_rows h = g_rows g -> g_cols h = g_cols g -> 0 <= g_rows g -> 0 <= g_cols g ->
  (forall r c, 0 <= r < g_rows g -> 0 <= c < g_cols g -> g_at h r c = g_at g r c) ->
  topomult fl sqrt2 cs xl yu None g = Ok outs ->
  exists outs', topomult fl sqrt2 cs xl yu None h = Ok outs' /\
    Forall2 (fun x y => fst x = fst y /\ forall r c, 0 <= r < g_rows g -> 0 <= c < g_cols g -> g_at (snd y) r c = g_at (snd x) r c) outs outs'.
Proof.
  intros Er Ec R0 C0 V. unfold topomult. cbv zeta. generalize topo_directions. intros l. revert outs.
  assert (D : forall d o, topo_dir fl sqrt2 cs xl yu (mask_elevation None g) d = Ok o ->
    exists o', topo_dir fl sqrt2 cs xl yu (mask_elevation None h) d = Ok o' /\ forall r c, 0 <= r < g_rows g -> 0 <= c < g_cols g -> g_at o' r c = g_at o r c).
  { intros d o. apply (topo_dir_part fl sqrt2 cs xl yu (mask_elevation None g) (mask_elevation None h)); try assumption.
    intros r c Hr Hc. unfold mask_elevation, gmap. cbn [g_at]. rewrite V by assumption. reflexivity. }
  induction l as [|d l IH]; intros outs; cbn [mapM]; [intros E; injection E as <-; exists []; split; [reflexivity|constructor]|].
  destruct (topo_dir fl sqrt2 cs xl yu (mask_elevation None g) d) as [o|] eqn:Eo; cbn [bind]; [|discriminate].
  destruct (D d o Eo) as (o' & -> & Vo). cbn [bind]. destruct (mapM _ l) as [ol|] eqn:El; cbn [bind]; [|discriminate].
  intros E. injection E as <-. destruct (IH ol eq_refl) as (ol' & -> & F). cbn [bind]. eexists. split; [reflexivity|]. constructor; [split; [reflexivity|exact Vo]|exact F].
Qed.
Lemma Forall2_pick (P : grid num -> grid num -> Prop) l l' d o : Forall2 (fun x y => fst x = fst y /\ P (snd x) (snd y)) l l' -> NoDup (map fst l) -> In (d, o) l ->
  exists o', In (d, o') l' /\ pick d l' = o' /\ P o o'.
Proof.
  intros F N I. assert (E : map fst l = map fst l') by (clear -F; induction F as [|x y ? ? [H _] _ IH]; cbn; [reflexivity|congruence]).
  assert (X : exists o', In (d, o') l' /\ P o o').
  { clear N E. induction F as [|[a x] [b y] l l' [H1 H2] F IH]; [destruct I|]. cbn [fst snd] in *. subst b. destruct I as [J|J].
    - injection J as -> ->. exists y. split; [left; reflexivity|exact H2].
    - destruct (IH J) as (o' & J1 & J2). exists o'. split; [right; exact J1|exact J2]. }
  destruct X as (o' & I' & H). exists o'. split; [exact I'|]. split; [|exact H]. apply pick_in; [rewrite <- E; exact N|exact I'].
Qed.

(** ** Small facts used for a tile *)
Lemma terrain_widths fl table data a b : (forall d, widths fl a d = widths fl b d) -> terrain fl table data a = terrain fl table data b.
Proof.
  intros W. unfold terrain. destruct (np_max _); cbn [bind]; [|reflexivity]. destruct (is_zero _); [reflexivity|]. cbv zeta.
  match goal with |- bind (mapM ?f _) _ = bind (mapM ?g _) _ => assert (X : forall l, mapM f l = mapM g l) by (intros l; induction l as [|d l IH]; cbn [mapM]; [reflexivity|rewrite W, IH; reflexivity]) end.
  rewrite X. reflexivity.
Qed.
Lemma part_window {A} rows cols r0 r1 c0 c1 (g w : grid A) : g_rows g = rows -> g_cols g = cols -> part_of r0 r1 c0 c1 g w -> is_window rows cols r0 r1 c0 c1 g w.
Proof. intros H1 H2 (A1 & A2 & A3). unfold is_window. auto. Qed.
Lemma convo_dirs_keys s slope aspect l : forall data, map fst (convo_dirs s slope aspect l data) = l.
Proof. induction l as [|d l IH]; intros data; cbn [convo_dirs map]; [reflexivity|]. destruct (0 <? s); cbv zeta; cbn [map fst]; rewrite IH; reflexivity. Qed.
Lemma convo_keys fl gw slope aspect data : map fst (convo_combine fl gw slope aspect data) = dire.
Proof. apply convo_dirs_keys. Qed.
Lemma Forall2_in_fst (P : grid num -> grid num -> Prop) l l' (d : dir) o : Forall2 (fun x y => fst x = fst y /\ P (snd x) (snd y)) l l' -> In (d, o) l -> exists o', In (d, o') l' /\ P o o'.
Proof.
  intros F I. induction F as [|[a x] [b y] l l' [H1 H2] F IH]; [destruct I|]. cbn [fst snd] in *. subst b. destruct I as [J|J].
  - injection J as -> ->. exists y. split; [left; reflexivity|exact H2].
  - destruct (IH J) as (o' & J1 & J2). exists o'. split; [right; exact J1|exact J2].
Qed.
Lemma good_pos upwind ds : good_raster upwind ds -> (0 < gt1 ds)%Q /\ (gt5 ds < 0)%Q.
Proof. intros (_ & _ & A & B & _). split; assumption. Qed.
