(** * C87: what rounding does to stored multipliers. *)
From Verif Require Import Base BaseLemmas NameModel TerrModel TerrSpec TerrProofs TerrRunProofs TerrProps ShldModel ShldSpec
  PyStr NameSpec PipeSpec ConvModel ConvSpec ConvProps FloatSpec FloatModel FloatRndProofs FloatTerrProofs FloatShldProofs.
Open Scope Z_scope.

(** Rounding to nearest, ties to even, is such a rounding. *)
Theorem C87_rounding p : 1 <= p -> binary p (rnd p).
Proof. exact (rnd_binary p). Qed.
Print Assumptions C87_rounding.

(** ** Terrain *)

(** The stored terrain multiplier is the exact average of the stored table values, rounded once. *)
Theorem C87_terrain acc dbl sgl fl table data gw : double acc -> double dbl -> single sgl -> fl_ok fl -> (1 <= gw)%Q ->
  (forall cat v, In (cat, Num v) table -> (v == 0 \/ 1#2 <= v <= 2)%Q) ->
  match terrain_fl acc dbl sgl fl table data gw, terrain fl (map (fun row => (fst row, nround sgl (snd row))) table) data gw with
  | Err e, Err e' => e = e'
  | Ok None, Ok None => True
  | Ok (Some l), Ok (Some l') =>
      Forall2 (fun x y => fst x = fst y /\ g_rows (snd x) = g_rows (snd y) /\ g_cols (snd x) = g_cols (snd y) /\
        forall i j, 0 <= i < g_rows (snd y) -> 0 <= j < g_cols (snd y) ->
          same_num (g_at (snd x) i j) (nround (fun q => sgl (dbl q)) (g_at (snd y) i j))) l l'
  | _, _ => False
  end.
Proof.
  intros Ha Hd Hs Hf Hg Ht. pose proof (terrain_fl_same acc dbl sgl Ha Hd Hs fl table data gw Hf Hg Ht) as T. unfold rounded_table in T.
  destruct (terrain_fl acc dbl sgl fl table data gw) as [[l|]|e]; destruct (terrain fl _ data gw) as [[l'|]|e']; cbn [rres] in T; exact T || contradiction.
Qed.
Print Assumptions C87_terrain.

(** A tile of one class keeps the stored value of that class exactly. *)
Theorem C87_terrain_uniform acc dbl sgl fl table data gw l cat v d o i j : double acc -> double dbl -> single sgl -> fl_ok fl -> (1 <= gw)%Q ->
  (forall cat v, In (cat, Num v) table -> (v == 0 \/ 1#2 <= v <= 2)%Q) ->
  (forall r c, 0 <= r < g_rows data -> 0 <= c < g_cols data -> g_at data r c = cat) -> last_row table cat (Num v) -> ~ (v == 0)%Q ->
  terrain_fl acc dbl sgl fl table data gw = Ok (Some l) -> In (d, o) l -> 0 <= i < g_rows data -> 0 <= j < g_cols data ->
  same_num (g_at o i j) (Num (sgl v)).
Proof.
  intros Ha Hd Hs Hf Hg Ht U L V E Ho Hi Hj.
  pose proof (terrain_fl_same acc dbl sgl Ha Hd Hs fl table data gw Hf Hg Ht) as T. rewrite E in T.
  destruct (terrain fl (rounded_table sgl table) data gw) as [[l'|]|e'] eqn:E'; cbn [rres] in T; try contradiction.
  destruct (Forall2_in_l _ _ _ _ T Ho) as ((d' & o') & Io & Ed & Er & Ec & S). cbn [fst snd] in *. subst d'.
  destruct (terrain_uniform fl (rounded_table sgl table) data gw l' cat (sgl v) d o' i j Hf ltac:(lra) U) as [Kr [Kc K]]; try assumption.
  { destruct L as (l1 & l2 & -> & N). exists (rounded_table sgl l1), (rounded_table sgl l2). split; [unfold rounded_table; rewrite map_app; reflexivity|].
    unfold rounded_table. rewrite map_map. exact N. }
  { intros Z0. apply V. apply (sgl_zero sgl v Hs). exact Z0. }
  specialize (S i j ltac:(lia) ltac:(lia)). destruct (g_at o' i j) as [|q]; cbn [same_num] in K; [contradiction|].
  cbn [nround] in S. destruct (g_at o i j) as [|p]; cbn [same_num] in *; [contradiction|]. rewrite S.
  rewrite (bin_proper _ _ Hs _ _ (bin_proper _ _ Hd _ _ K)). rewrite (bin_proper _ _ Hs _ _ (dbl_of_single dbl sgl v Hd Hs)). apply (sgl_idem sgl Hs).
Qed.
Print Assumptions C87_terrain_uniform.

(** Between bounds of the table that enclose 1, which stands for missing classes. *)
Theorem C87_terrain_bounds acc dbl sgl fl table data gw l lo hi d o i j q : double acc -> double dbl -> single sgl -> fl_ok fl -> (1 <= gw)%Q ->
  (forall cat v, In (cat, Num v) table -> (v == 0 \/ 1#2 <= v <= 2)%Q) ->
  (lo <= 1 <= hi)%Q -> (forall cat v, In (cat, Num v) table -> (v == 0 \/ lo <= v <= hi)%Q) ->
  terrain_fl acc dbl sgl fl table data gw = Ok (Some l) -> In (d, o) l -> 0 <= i < g_rows data -> 0 <= j < g_cols data ->
  g_at o i j = Num q -> (sgl lo <= q <= sgl hi)%Q.
Proof.
  intros Ha Hd Hs Hf Hg Ht B Hb E Ho Hi Hj Eq.
  pose proof (terrain_fl_same acc dbl sgl Ha Hd Hs fl table data gw Hf Hg Ht) as T. rewrite E in T.
  destruct (terrain fl (rounded_table sgl table) data gw) as [[l'|]|e'] eqn:E'; cbn [rres] in T; try contradiction.
  destruct (Forall2_in_l _ _ _ _ T Ho) as ((d' & o') & Io & Ed & Er & Ec & S). cbn [fst snd] in *. subst d'.
  destruct (terrain_between fl (rounded_table sgl table) data gw l' d o' i j (sgl lo) (sgl hi) Hf ltac:(lra) E' Io Hi Hj) as (Kr & Kc & K).
  { intros r c _ _. change (g_at (fill (zero_to_nan (class2mz (rounded_table sgl table) data))) r c) with
      (match g_at (zero_to_nan (class2mz (rounded_table sgl table) data)) r c with Num q => q | NaN => 1%Q end).
    destruct (g_at (zero_to_nan (class2mz (rounded_table sgl table) data)) r c) as [|x] eqn:X.
    - pose proof (sgl_1 sgl Hs) as S1. pose proof (bin_mono _ _ Hs _ _ (proj1 B)). pose proof (bin_mono _ _ Hs _ _ (proj2 B)). lra.
    - apply (init_from sgl Hs table data r c) in X. destruct X as (cat & v & I & -> & N).
      destruct (Hb cat v I) as [Z0|Z0]; [contradiction|]. split; apply (bin_mono _ _ Hs); apply Z0. }
  specialize (S i j ltac:(lia) ltac:(lia)). rewrite Eq in S. destruct (g_at o' i j) as [|q']; cbn [nround same_num] in S; [contradiction|]. rewrite S.
  assert (M : forall x, (sgl (dbl (sgl x)) == sgl x)%Q).
  { intros x. rewrite (bin_proper _ _ Hs _ _ (dbl_of_single dbl sgl x Hd Hs)). apply (sgl_idem sgl Hs). }
  rewrite <- (M lo), <- (M hi). split; apply (bin_mono _ _ Hs), (bin_mono _ _ Hd); apply K.
Qed.
Print Assumptions C87_terrain_bounds.

(** Tiles: with a large enough border the stored multiplier is that of the whole raster, exactly. *)
Theorem C87_terrain_tiles acc dbl sgl fl table (data : grid Z) gw B tr0 tr1 tc0 tc1 r0 r1 c0 c1 l lw d o ow :
  double acc -> double dbl -> single sgl -> fl_ok fl -> (1 <= gw)%Q ->
  (forall cat v, In (cat, Num v) table -> (v == 0 \/ 1#2 <= v <= 2)%Q) ->
  0 <= tr0 < tr1 /\ tr1 <= g_rows data -> 0 <= tc0 < tc1 /\ tc1 <= g_cols data ->
  1 <= fst (widths fl gw d) -> fst (widths fl gw d) + snd (widths fl gw d) <= B ->
  0 <= r0 <= Z.max 0 (tr0 - B) -> Z.min (g_rows data) (tr1 + B) <= r1 <= g_rows data ->
  0 <= c0 <= Z.max 0 (tc0 - B) -> Z.min (g_cols data) (tc1 + B) <= c1 <= g_cols data ->
  terrain_fl acc dbl sgl fl table data gw = Ok (Some l) -> In (d, o) l ->
  terrain_fl acc dbl sgl fl table (window data r0 r1 c0 c1) gw = Ok (Some lw) -> In (d, ow) lw ->
  forall i j, tr0 <= i < tr1 -> tc0 <= j < tc1 -> same_num (g_at ow (i - r0) (j - c0)) (g_at o i j).
Proof.
  intros Ha Hd Hs Hf Hg Ht Hr Hc A HB R0 R1 C0 C1 E Ho Ew How i j Hi Hj.
  pose proof (terrain_fl_same acc dbl sgl Ha Hd Hs fl table data gw Hf Hg Ht) as T. rewrite E in T.
  pose proof (terrain_fl_same acc dbl sgl Ha Hd Hs fl table (window data r0 r1 c0 c1) gw Hf Hg Ht) as Tw. rewrite Ew in Tw.
  destruct (terrain fl (rounded_table sgl table) data gw) as [[l'|]|e'] eqn:E'; cbn [rres] in T; try contradiction.
  destruct (terrain fl (rounded_table sgl table) (window data r0 r1 c0 c1) gw) as [[lw'|]|e'] eqn:Ew'; cbn [rres] in Tw; try contradiction.
  destruct (Forall2_in_l _ _ _ _ T Ho) as ((d' & o') & Io & Ed & Er & Ec & S). cbn [fst snd] in *. subst d'.
  destruct (Forall2_in_l _ _ _ _ Tw How) as ((d' & ow') & Iow & Ed & Erw & Ecw & Sw). cbn [fst snd] in *. subst d'.
  pose proof (C25_tiling_independent fl (rounded_table sgl table) data gw B tr0 tr1 tc0 tc1 r0 r1 c0 c1 l' lw' d o' ow' Hf ltac:(lra)
    Hr Hc A HB R0 R1 C0 C1 E' Io Ew' Iow i j Hi Hj) as K.
  assert (G0 : (0 < gw)%Q) by lra. destruct (widths_nonneg fl gw Hf G0 d) as [_ W2].
  assert (D : g_rows o' = g_rows data /\ g_cols o' = g_cols data) by (apply (terrain_shape _ _ _ _ _ _ _ Hf G0 E' Io); lia).
  assert (Dw : g_rows ow' = r1 - r0 /\ g_cols ow' = c1 - c0) by (apply (terrain_shape _ _ _ _ _ _ _ Hf G0 Ew' Iow); cbn [window g_rows g_cols]; lia).
  specialize (S i j ltac:(lia) ltac:(lia)). specialize (Sw (i - r0) (j - c0) ltac:(lia) ltac:(lia)).
  destruct (g_at o' i j) as [|q], (g_at ow' (i - r0) (j - c0)) as [|qw]; cbn [same_num] in K; try contradiction;
    destruct (g_at o i j), (g_at ow (i - r0) (j - c0)); cbn [nround same_num] in *; try contradiction; [exact I|].
  rewrite S, Sw. apply (bin_proper _ _ Hs), (bin_proper _ _ Hd), K.
Qed.
Print Assumptions C87_terrain_tiles.

(** ** Shielding: within a millionth of the exact value, missing at the same pixels. *)
Theorem C87_shielding dbl sgl fl cast table nodata terrain slope aspect gw : double dbl -> single sgl -> fl_ok fl -> (1 <= gw <= 100)%Q ->
  Forall (fun row => (0 <= snd row <= 100)%Q) table ->
  Forall2 (fun a b => fst a = fst b /\ g_rows (snd a) = g_rows (snd b) /\ g_cols (snd a) = g_cols (snd b) /\
                      forall r c, within (1 # 1000000) (g_at (snd a) r c) (g_at (snd b) r c))
    (shield_fl dbl sgl fl cast table nodata terrain slope aspect gw)
    (convo_combine fl gw slope aspect (class2ms cast nodata table terrain)).
Proof.
  intros Hd Hs Hf Hg Ht. pose proof (shield_near dbl sgl Hd Hs fl cast table nodata terrain slope aspect gw Hf Hg Ht) as S.
  induction S as [|a b la lb (A1 & A2 & A3 & A4) _ IH]; constructor; [|exact IH].
  split; [exact A1|]. split; [exact A2|]. split; [exact A3|]. intros r c. specialize (A4 r c).
  destruct (g_at (snd a) r c), (g_at (snd b) r c); cbn [within] in *; try exact A4. apply Qle_trans with (1 # 1048576); [exact A4|discriminate].
Qed.
Print Assumptions C87_shielding.

(** ** The product of three stored multipliers: two roundings. *)
Lemma product_near sgl a b c : single sgl ->
  (Qabs (mul_fl sgl (mul_fl sgl a b) c - a * b * c) <= (1 # 8388607) * Qabs (a * b * c))%Q.
Proof.
  intros Hs. unfold mul_fl. set (x := (a * b)%Q). pose proof (bin_near _ _ Hs x) as N1. pose proof (bin_near _ _ Hs (sgl x * c)%Q) as N2.
  change (Qpower 2 (- (24))) with (1 # 16777216)%Q in *. set (y := sgl x) in *. set (z := sgl (y * c)%Q) in *.
  rewrite (Qabs_Qmult x c). rewrite (Qabs_Qmult y c) in N2.
  assert (Y : (Qabs y <= (16777217 # 16777216) * Qabs x)%Q).
  { pose proof (Qabs_triangle (y - x) x) as P. setoid_replace (y - x + x)%Q with y in P by ring. lra. }
  pose proof (Qabs_triangle (z - y * c) (y * c - x * c)) as P. setoid_replace (z - y * c + (y * c - x * c))%Q with (z - x * c)%Q in P by ring.
  assert (D : (Qabs (y * c - x * c) <= (1 # 16777216) * (Qabs x * Qabs c))%Q).
  { setoid_replace (y * c - x * c)%Q with ((y - x) * c)%Q by ring. rewrite Qabs_Qmult.
    rewrite Qmult_assoc. apply Qmult_le_compat_r; [exact N1|apply Qabs_nonneg]. }
  assert (M : (Qabs y * Qabs c <= (16777217 # 16777216) * (Qabs x * Qabs c))%Q).
  { rewrite Qmult_assoc. apply Qmult_le_compat_r; [exact Y|apply Qabs_nonneg]. }
  pose proof (Qabs_nonneg x). pose proof (Qabs_nonneg c). assert (0 <= Qabs x * Qabs c)%Q by (apply Qmult_le_0_compat; assumption). lra.
Qed.

Theorem C87_product {G} sgl stats_ok (f : rstore G) path tile nx ny v e : single sgl -> stats_spec stats_ok ->
  (forall ty d, holds f (convert_nc path tile ty d) nx ny (v ty d)) ->
  f (convert_nc path tile Shielding E_) = Some e ->
  (forall d, exists r c a b x, 0 <= r < ny /\ 0 <= c < nx /\ v Shielding d r c = Num a /\ v Terrain d r c = Num b /\ v Topographic d r c = Num x) ->
  exists f' bs, process_tile (mul_fl sgl) stats_ok path tile f = Ok f' /\
    f' (pjoin (pjoin path (lit "M3")) (tile ++ lit ".tif")) = Some (Raster (r_geo e) bs) /\
    Forall2 (fun d b => b_desc b = dir_str d /\ g_cols (b_data b) = nx /\ g_rows (b_data b) = ny /\
      forall r c, 0 <= r < ny -> 0 <= c < nx ->
        match v Shielding d r c, v Terrain d r c, v Topographic d r c with
        | Num x, Num y, Num z => exists q, g_at (b_data b) r c = Num q /\ (Qabs (q - x * y * z) <= (1 # 8388607) * Qabs (x * y * z))%Q
        | _, _, _ => g_at (b_data b) r c = NaN
        end) band_dirs bs.
Proof.
  intros Hs Hst Hh He Hex.
  destruct (C16_product (mul_fl sgl) stats_ok f path tile nx ny v e Hst Hh He) as (f' & bs & E1 & E2 & B & _).
  { intros d. destruct (Hex d) as (r & c & a & b & x & Hr & Hc & Ea & Eb & Ex). exists r, c. eexists. split; [exact Hr|]. split; [exact Hc|].
    rewrite Ea, Eb, Ex. reflexivity. }
  exists f', bs. split; [exact E1|]. split; [exact E2|]. clear - B Hs. induction B as [|d b ds bs (B1 & B2 & B3 & B4) _ IH]; constructor; [|exact IH].
  split; [exact B1|]. split; [exact B2|]. split; [exact B3|]. intros r c Hr Hc. rewrite B4 by assumption. unfold product3.
  destruct (v Shielding d r c) as [|x], (v Terrain d r c) as [|y], (v Topographic d r c) as [|z]; try reflexivity.
  eexists. split; [reflexivity|]. apply product_near. exact Hs.
Qed.
Print Assumptions C87_product.

(** ** Without rounding, the functions of this model are those the other properties are about. *)
Lemma terrain_fl_id fl table data gw :
  rres (fun a b => match a, b with
    | None, None => True
    | Some l, Some l' => Forall2 (fun x y => fst x = fst y /\ g_rows (snd x) = g_rows (snd y) /\ g_cols (snd x) = g_cols (snd y) /\
        forall i j, 0 <= i < g_rows (snd y) -> 0 <= j < g_cols (snd y) -> g_at (snd x) i j = g_at (snd y) i j) l l'
    | _, _ => False end)
    (terrain_fl (fun x => x) (fun x => x) (fun x => x) fl table data gw) (terrain fl table data gw).
Proof.
  unfold terrain_fl, terrain. replace (map (fun row => (fst row, nround (fun x => x) (snd row))) table) with table
    by (induction table as [|[k [|q]] l IH]; cbn; congruence).
  set (re := class2mz table data). destruct (np_max re) as [mx|e]; cbn [bind]; [|reflexivity]. destruct (is_zero mx); [exact I|].
  set (init := zero_to_nan re). set (f := fun d => let '(avg, lag) := widths fl gw d in let* o := terrain_dir_fl _ _ _ d init avg lag in Ok (d, o)).
  set (g := fun d => let '(avg, lag) := widths fl gw d in let* o := terrain_dir d init avg lag in Ok (d, o)).
  assert (M : rres (Forall2 (fun x y => fst x = fst y /\ g_rows (snd x) = g_rows (snd y) /\ g_cols (snd x) = g_cols (snd y) /\
        forall i j, 0 <= i < g_rows (snd y) -> 0 <= j < g_cols (snd y) -> g_at (snd x) i j = g_at (snd y) i j)) (mapM f dire) (mapM g dire)).
  { apply rres_mapM. intros d _. unfold f, g. destruct (widths fl gw d) as [avg lag]. unfold terrain_dir_fl, terrain_dir. cbv zeta.
    destruct (g_rows init <? lag); [cbn [rres bind fst snd]; repeat split; reflexivity|].
    set (avg' := if g_rows init <? avg + lag then g_rows init - lag else avg). unfold convo_fl, convo.
    assert (L : rres (fun a b => g_rows a = g_rows (fill init) /\ g_cols a = g_cols (fill init) /\ g_rows b = g_rows (fill init) /\ g_cols b = g_cols (fill init) /\
        forall i j, 0 <= i < g_rows (fill init) -> 0 <= j < g_cols (fill init) -> g_at a i j = g_at b i j)
      (grid_loop 0%Q (g_rows (fill init)) (g_cols (fill init)) (convo_cell_fl (fun x => x) (fun x => x) (fun x => x) d (fill init) avg' lag))
      (grid_loop 0%Q (g_rows (fill init)) (g_cols (fill init)) (convo_cell d (fill init) avg' lag))).
    { apply rres_grid_loop. intros i j _ _. unfold convo_cell_fl, convo_cell. destruct (0 <? _).
      - destruct (foldM _ _ _) as [s|e]; cbn [bind]; [|reflexivity]. unfold py_div. destruct (Qeq_bool _ 0); reflexivity.
      - destruct (gget _ _ _); reflexivity. }
    destruct (grid_loop 0%Q _ _ (convo_cell_fl _ _ _ d (fill init) avg' lag)) as [a|e];
      destruct (grid_loop 0%Q _ _ (convo_cell d (fill init) avg' lag)) as [b|e']; cbn [rres bind] in *; try contradiction; [|exact L].
    destruct L as (R1 & C1 & R2 & C2 & V). cbn [fst snd g_rows g_cols g_at]. split; [reflexivity|]. split; [congruence|]. split; [congruence|].
    intros i j Hi Hj. rewrite R2 in Hi. rewrite C2 in Hj. rewrite V by assumption. reflexivity. }
  destruct (mapM f dire), (mapM g dire); cbn [rres bind] in *; exact M.
Qed.

Theorem C87_same_program fl : (forall table data gw,
  match terrain_fl (fun x => x) (fun x => x) (fun x => x) fl table data gw, terrain fl table data gw with
  | Err e, Err e' => e = e'
  | Ok None, Ok None => True
  | Ok (Some l), Ok (Some l') => Forall2 (fun x y => fst x = fst y /\ g_rows (snd x) = g_rows (snd y) /\ g_cols (snd x) = g_cols (snd y) /\
      forall i j, 0 <= i < g_rows (snd y) -> 0 <= j < g_cols (snd y) -> g_at (snd x) i j = g_at (snd y) i j) l l'
  | _, _ => False
  end) /\
  (forall cast table nodata terrain slope aspect gw,
   Forall2 (fun x y => fst x = fst y /\ g_rows (snd x) = g_rows (snd y) /\ g_cols (snd x) = g_cols (snd y) /\
      forall r c, g_at (snd x) r c = g_at (snd y) r c)
    (shield_fl (fun x => x) (fun x => x) fl cast table nodata terrain slope aspect gw)
    (convo_combine fl gw slope aspect (class2ms cast nodata table terrain))).
Proof.
  split.
  - intros table data gw. pose proof (terrain_fl_id fl table data gw) as T.
    destruct (terrain_fl _ _ _ fl table data gw) as [[l|]|e]; destruct (terrain fl table data gw) as [[l'|]|e']; cbn [rres] in T; exact T || contradiction.
  - intros cast table nodata terrain slope aspect gw. unfold shield_fl, convo_combine, class2ms_fl.
    set (s := kernel_size fl gw).
    assert (K : forall ds a b, g_rows a = g_rows b -> g_cols a = g_cols b -> (forall r c, g_at a r c = g_at b r c) ->
      Forall2 (fun x y => fst x = fst y /\ g_rows (snd x) = g_rows (snd y) /\ g_cols (snd x) = g_cols (snd y) /\ forall r c, g_at (snd x) r c = g_at (snd y) r c)
        (convo_dirs_fl (fun x => x) (fun x => x) s slope aspect ds a) (convo_dirs s slope aspect ds b)).
    { induction ds as [|d ds IH]; intros a b R C V; [constructor|]. cbn [convo_dirs_fl convo_dirs].
      assert (X : forall ms' ms sl asp, ms' = ms -> combine_cell_fl (fun x => x) (fun x => x) d sl asp ms' = combine_cell d sl asp ms) by (intros ms' ms sl asp ->; reflexivity).
      destruct (0 <? s).
      - constructor; [|apply IH; assumption]. cbn [fst snd]. split; [reflexivity|]. split; [exact R|]. split; [exact C|]. intros r c.
        unfold combine_fl, combine. cbn [g_at]. apply X. unfold blur_fl, blur. cbn [g_at].
        assert (CV : forall y z, cval a y z = cval b y z) by (intros y z; unfold cval; rewrite R, C, V; reflexivity).
        assert (NI : forall n, nround (fun x => x) n = n) by (intros [|q]; reflexivity). rewrite NI.
        change (kern_fl (fun x => x) d s) with (gmap (fun x => x) (kern d s)).
        change (kernel_cells (gmap (fun x => x) (kern d s))) with (kernel_cells (kern d s)).
        change (g_rows (gmap (fun x => x) (kern d s))) with (g_rows (kern d s)). change (g_cols (gmap (fun x => x) (kern d s))) with (g_cols (kern d s)).
        generalize (Num 0). induction (kernel_cells (kern d s)) as [|p l IHl]; intros n0; [reflexivity|]. cbn [fold_left].
        rewrite !NI, CV. cbn [gmap g_at]. apply IHl.
      - constructor; [|].
        + cbn [fst snd]. split; [reflexivity|]. split; [exact R|]. split; [exact C|]. intros r c. unfold combine_fl, combine. cbn [g_at]. apply X, V.
        + apply IH; [exact R|exact C|]. intros r c. unfold combine_fl, combine. cbn [g_at]. apply X, V. }
    apply K; [reflexivity|reflexivity|]. intros r c. cbn [gmap g_at]. destruct (g_at (class2ms cast nodata table terrain) r c); reflexivity.
Qed.
Print Assumptions C87_same_program.

(** ** Sums kept in single precision would change a tile of one class (NumPy 2 would keep them so). *)
Theorem C87_single_sum_refuted : exists table data gw l o q, (forall cat v, In (cat, Num v) table -> (1#2 <= v <= 2)%Q) /\ (1 <= gw)%Q /\
  (forall r c, g_at data r c = 1) /\ last_row table 1 (Num (81#100)) /\
  terrain_fl (rnd 24) (rnd 53) (rnd 24) (fun x => x) table data gw = Ok (Some l) /\ nth_error l 0 = Some (W_, o) /\
  g_at o 3 7 = Num q /\ ~ (q == rnd 24 (81#100))%Q.
Proof.
  exists [(1, Num (81#100))], (Grid 8 8 (fun _ _ => 1)), 100%Q.
  assert (X : match terrain_fl (rnd 24) (rnd 53) (rnd 24) (fun x => x) [(1, Num (81#100))] (Grid 8 8 (fun _ _ => 1)) 100%Q with
    | Ok (Some ((W_, o) :: _)) => match g_at o 3 7 with Num q => Qeq_bool q (rnd 24 (81#100)) = false | NaN => False end | _ => False end) by (vm_compute; reflexivity).
  destruct (terrain_fl _ _ _ _ _ _ _) as [[[|[[] o] l]|]|]; try contradiction. destruct (g_at o 3 7) as [|q] eqn:Eq; [contradiction|].
  exists ((W_, o) :: l), o, q. split; [intros cat v [H|[]]; injection H as <- <-; lra|]. split; [discriminate|]. split; [reflexivity|].
  split; [exists [], []; split; [reflexivity|intros []]|]. split; [reflexivity|]. split; [reflexivity|]. split; [exact Eq|]. apply Qeq_bool_neq. exact X.
Qed.
Print Assumptions C87_single_sum_refuted.

(** The same tile with sums in double precision. *)
Example C87_ex : match terrain_fl (rnd 53) (rnd 53) (rnd 24) (fun x => x) [(1, Num (81#100))] (Grid 8 8 (fun _ _ => 1)) 100%Q with
  | Ok (Some ((W_, o) :: _)) => match g_at o 3 7 with Num q => Qeq_bool q (rnd 24 (81#100)) = true /\ Qeq_bool q (81#100) = false | NaN => False end | _ => False end /\
  Qeq_bool (rnd 24 (1#10)) (13421773 # 134217728) = true /\ double (rnd 53) /\ single (rnd 24).
Proof. split; [vm_compute; split; reflexivity|]. split; [reflexivity|]. split; apply C87_rounding; lia. Qed.
Example C87_ex_shielding : match shield_fl (rnd 53) (rnd 24) (fun x => x) (fun z => z) [(1, 80%Q)] None (Grid 2 2 (fun r c => r + c))
    (Grid 2 2 (fun _ _ => Num 5)) (Grid 2 2 (fun _ _ => 5)) 50%Q with
  | (d, o) :: _ => match g_at o 1 1 with Num q => Qltb (3#5) q = true /\ Qltb q 1 = true | NaN => False end | [] => False end.
Proof. vm_compute. split; reflexivity. Qed.
