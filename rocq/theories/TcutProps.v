(** * Does the topographic multiplier depend on the tiling? (C80) *)
From Verif Require Import Base BaseLemmas Rounding TileModel TileSpec TileProofs ClipModel ClipProofs TileProps NameModel TerrSpec TopoModel TopoSpec TopoLineProofs TopoMhProofs TopoCalcProofs TopoHillProofs TopoPathProofs TopoRunProofs TopoStageProofs TopoProps TilingProps TcutSpec TcutProofs TcutGridProofs TcutRampProofs.
Open Scope Z_scope.

(** ** When it does not. *)
(** A line: enough of it is kept. *)
Theorem C80_line line ds o e k : (0 < ds)%Q -> 0 <= o <= e -> e <= last_pt line -> o <= k < e -> enough (floors line) o e ds k ->
  exists m mw, multiplier_calc (fun x => x) line ds = Ok m /\ multiplier_calc (fun x => x) (part o e line) ds = Ok mw /\
    (nth (Z.to_nat (k - o)) mw 0 == nth (Z.to_nat k) m 0)%Q.
Proof. exact (cut_line line ds o e k). Qed.
Print Assumptions C80_line.

(** A raster, of which a window is used: the nine pixels that are averaged are
    in the window, with enough of the lines through them. *)
Theorem C80_window elev d Y1 Y2 X1 X2 sqrt2 cellsize xl yu xl' yu' :
  0 <= Y1 < Y2 -> Y2 <= g_rows elev -> 0 <= X1 < X2 -> X2 <= g_cols elev -> (0 < sqrt2)%Q -> (0 < cellsize)%Q ->
  ((143 < xl)%Q /\ (40 < yu)%Q <-> (143 < xl')%Q /\ (40 < yu')%Q) ->
  exists whole cut,
    topo_dir (fun x => x) sqrt2 cellsize xl yu elev d = Ok whole /\
    topo_dir (fun x => x) sqrt2 cellsize xl' yu' (window elev Y1 Y2 X1 X2) d = Ok cut /\
    g_rows cut = Y2 - Y1 /\ g_cols cut = X2 - X1 /\
    forall r c, in_rect Y1 Y2 X1 X2 (r, c) ->
      Y1 < r \/ Y1 = 0 -> r + 1 < Y2 \/ Y2 = g_rows elev -> X1 < c \/ X1 = 0 -> c + 1 < X2 \/ X2 = g_cols elev ->
      (forall p, In p (around (g_rows elev) (g_cols elev) r c) -> line_enough elev d Y1 Y2 X1 X2 (point_step sqrt2 cellsize d) p) ->
      same_num (g_at cut (r - Y1) (c - X1)) (g_at whole r c).
Proof.
  intros H1 H2 H3 H4 Hs Hc Box.
  destruct (window_value elev d Y1 Y2 X1 X2 H1 H2 H3 H4 sqrt2 cellsize xl yu xl' yu' Hs Hc) as (whole & cut & E & E' & R & C & V).
  { unfold in_tasmania. apply eq_true_iff_eq. rewrite !andb_true_iff, !Qltb_lt. exact Box. }
  exists whole, cut. do 4 (split; [assumption|]). exact V.
Qed.
Print Assumptions C80_window.

Lemma in_topomult fl sqrt2 cellsize xl yu nodata dem outs d o : topomult fl sqrt2 cellsize xl yu nodata dem = Ok outs -> In (d, o) outs ->
  topo_dir fl sqrt2 cellsize xl yu (mask_elevation nodata dem) d = Ok o.
Proof.
  unfold topomult. cbv zeta. generalize topo_directions. intros l. revert outs. induction l as [|x l IH]; intros outs E I; cbn [mapM] in E; [injection E as <-; destruct I|].
  destruct (topo_dir fl sqrt2 cellsize xl yu (mask_elevation nodata dem) x) as [g|] eqn:G; cbn [bind] in E; [|discriminate].
  destruct (mapM _ l) as [os|] eqn:Em; cbn [bind] in E; [|discriminate]. injection E as <-. destruct I as [I|I]; [injection I as <- <-; exact G|exact (IH os eq_refl I)].
Qed.
Lemma line_enough_heights nodata dem d Y1 Y2 X1 X2 ds p : line_enough (heights nodata dem) d Y1 Y2 X1 X2 ds p -> line_enough (mask_elevation nodata dem) d Y1 Y2 X1 X2 ds p.
Proof.
  intros H r0 c0 n k o e W Hk1 Hk2 Ek Int. destruct (H r0 c0 n k o e W Hk1 Hk2 Ek Int) as [A B]. split; [exact A|].
  assert (line_profile (mask_elevation nodata dem) d r0 c0 n = line_profile (heights nodata dem) d r0 c0 n) as ->; [|exact B].
  unfold line_profile. apply map_ext. intros t. cbn. destruct (g_at dem _ _), nodata; reflexivity.
Qed.

(** The file written for a tile: the stage run on the window the tile grid cuts
    and clipped to the tile, against the stage run on the whole raster. *)
Theorem C80_tiles fl upwind ds tg k sqrt2 cellsize nodata dem :
  fl_ok fl -> good_raster upwind ds -> mk_tilegrid fl upwind ds = Ok tg -> coords_ok ds -> 0 <= k < num_tiles tg ->
  1 <= x_buffer tg -> 1 <= y_buffer tg -> g_rows dem = r_ysize ds -> g_cols dem = r_xsize ds -> (0 < sqrt2)%Q -> (0 < cellsize)%Q ->
  exists x1 x2 y1 y2 X1 X2 Y1 Y2 ext extb,
    get_gridlimit tg k = Ok (x1, x2, y1, y2) /\ get_gridlimit_buffer tg k = Ok (X1, X2, Y1, Y2) /\
    get_tile_extent fl tg k = Ok ext /\ get_tile_extent_buffer fl tg k = Ok extb /\
    forall xl yu xl' yu',
      (Qabs (xl' - fst (fst (fst extb))) <= gt1 ds / 8)%Q -> (Qabs (- yu' - snd (fst (fst extb))) <= - gt5 ds / 8)%Q ->
      ((143 < xl)%Q /\ (40 < yu)%Q <-> (143 < xl')%Q /\ (40 < yu')%Q) ->
      exists outs cuts,
        topomult (fun x => x) sqrt2 cellsize xl yu nodata dem = Ok outs /\
        topomult (fun x => x) sqrt2 cellsize xl' yu' nodata (window dem Y1 Y2 X1 X2) = Ok cuts /\
        map fst outs = [N_; S_; E_; W_; NE; NW; SE; SW] /\ map fst cuts = [N_; S_; E_; W_; NE; NW; SE; SW] /\
        forall d whole cut, In (d, whole) outs -> In (d, cut) cuts ->
          let out := clip_array fl cut xl' yu' (gt1 ds) (- gt5 ds) ext in
          g_rows out = y2 - y1 /\ g_cols out = x2 - x1 /\
          forall i j, y1 <= i < y2 -> x1 <= j < x2 ->
            (forall p, In p (around (g_rows dem) (g_cols dem) i j) -> line_enough (heights nodata dem) d Y1 Y2 X1 X2 (point_step sqrt2 cellsize d) p) ->
            same_num (g_at out (i - y1) (j - x1)) (g_at whole i j).
Proof.
  intros Hfl Hg Hmk Hco Hk Bx By D1 D2 Hs Hc.
  destruct (tile_of_window fl upwind ds tg k Hfl Hg Hmk Hco Hk) as (x1 & x2 & y1 & y2 & ext & extb & G & GB & TE & TB & P1 & P2 & P3 & P4 & P5 & P6 & K).
  do 10 eexists. do 4 (split; [eassumption|]). intros xl yu xl' yu' Hxl Hyu Box.
  set (Y1 := Z.max 0 (y1 - y_buffer tg)) in *. set (Y2 := Z.min (r_ysize ds) (y2 + y_buffer tg)) in *.
  set (X1 := Z.max 0 (x1 - x_buffer tg)) in *. set (X2 := Z.min (r_xsize ds) (x2 + x_buffer tg)) in *.
  set (M := Z.max (g_rows dem) (g_cols dem)).
  destruct (C45_total (fun x => x) M sqrt2 cellsize xl yu nodata dem (fl_line_id M) Hs Hc ltac:(unfold M; lia) ltac:(unfold M; lia)) as (outs & Eo & Fo & _).
  destruct (C45_total (fun x => x) M sqrt2 cellsize xl' yu' nodata (window dem Y1 Y2 X1 X2) (fl_line_id M) Hs Hc ltac:(cbn; unfold M; lia) ltac:(cbn; unfold M; lia)) as (cuts & Ec & Fc & Sc).
  exists outs, cuts. do 4 (split; [assumption|]). intros d whole cut Io Ic out.
  destruct (Sc d cut Ic) as (S1 & S2 & _). destruct (K num cut xl' yu' Hxl Hyu S1 S2) as (O1 & O2 & V). split; [exact O1|]. split; [exact O2|].
  intros i j Hi Hj H. unfold out. rewrite V by assumption.
  pose proof (in_topomult _ _ _ _ _ _ _ _ _ _ Eo Io) as T1. pose proof (in_topomult _ _ _ _ _ _ _ _ _ _ Ec Ic) as T2.
  change (mask_elevation nodata (window dem Y1 Y2 X1 X2)) with (window (mask_elevation nodata dem) Y1 Y2 X1 X2) in T2.
  destruct (C80_window (mask_elevation nodata dem) d Y1 Y2 X1 X2 sqrt2 cellsize xl yu xl' yu') as (whole' & cut' & E & E' & _ & _ & W); try assumption; try (cbn; lia).
  assert (whole' = whole) as -> by congruence. assert (cut' = cut) as -> by congruence.
  apply W; [unfold in_rect; cbn; lia|lia|cbn; lia|lia|cbn; lia|]. intros p Hp. apply line_enough_heights. apply H. exact Hp.
Qed.
Print Assumptions C80_tiles.

(** ** When it does: no buffer is wide enough. *)
(** Whatever the width [b] of the buffer there are land and a window such that a
    pixel with [b] pixels of the window on every side gets less than it gets on
    the whole raster: land rising evenly from before the window. *)
Theorem C80_buffer_refuted b sqrt2 cellsize : 1 <= b -> (0 < sqrt2)%Q -> (1 <= cellsize)%Q ->
  exists n s rows X1, 0 < X1 /\
  let elev := Grid rows (n + 2) (fun _ c => Num (ramp n s c)) in
  exists r c whole cut q q', b <= r < rows - b /\ X1 + b <= c < n + 2 - b /\
    topo_dir (fun x => x) sqrt2 cellsize 120 30 elev W_ = Ok whole /\
    topo_dir (fun x => x) sqrt2 cellsize 120 30 (window elev 0 rows X1 (n + 2)) W_ = Ok cut /\
    g_at whole r c = Num q /\ g_at cut r (c - X1) = Num q' /\ (q' < q)%Q.
Proof.
  intros Hb Hs2 Hc. set (B := b + 4). assert (HB : B = b + 4) by reflexivity. clearbody B. set (s := Qceiling cellsize).
  assert (S1 : (cellsize <= inject_Z s)%Q) by apply Qle_ceiling. assert (S2 : (inject_Z s < cellsize + 1)%Q) by (pose proof (Qceiling_lt cellsize) as X; fold s in X; rewrite <- (Z.sub_add 1 s), inject_Z_plus; change (inject_Z 1) with 1%Q; lra).
  assert (S3 : 1 <= s) by (rewrite Zle_Qle; change (inject_Z 1) with 1%Q; lra). assert (S4 : (inject_Z s <= 2 * cellsize)%Q) by lra.
  set (R := 2 * B + 1). assert (HR : R = 2 * B + 1) by reflexivity. clearbody R. exists (3 * B), s, R, B. split; [lia|]. cbv zeta. set (elev := Grid R (3 * B + 2) (fun _ c => Num (ramp (3 * B) s c))).
  set (W := window elev 0 R B (3 * B + 2)). set (M := 3 * B + 2).
  assert (Hc0 : (0 < cellsize)%Q) by lra.
  destruct (stage_dir (fun x => x) M sqrt2 cellsize 120 30 elev W_ (fl_line_id M) Hs2 Hc0 ltac:(cbn [g_rows elev W window]; unfold M; lia) ltac:(cbn [g_cols elev W window]; unfold M; lia)) as (raw & whole & E & _ & _ & L & _ & _ & V).
  destruct (stage_dir (fun x => x) M sqrt2 cellsize 120 30 W W_ (fl_line_id M) Hs2 Hc0 ltac:(cbn [g_rows elev W window]; unfold M; lia) ltac:(cbn [g_cols elev W window]; unfold M; lia)) as (raw' & cut & E' & _ & _ & L' & _ & _ & V').
  destruct (V B (2 * B) _ eq_refl) as (q & Eq & Vq). destruct (V' B (2 * B - B) _ eq_refl) as (q' & Eq' & Vq').
  exists B, (2 * B), whole, cut, q, q'. split; [lia|]. split; [lia|]. split; [exact E|]. split; [exact E'|]. split; [exact Eq|]. split; [exact Eq'|].
  rewrite Vq, Vq'. cbn [g_rows g_cols elev W window].
  assert (K : forall i j, B - 1 <= i <= B + 1 -> 2 * B - 1 <= j <= 2 * B + 1 ->
    (box_field 120 30 W raw' i (j - B) <= box_field 120 30 elev raw i j)%Q /\ (j = 2 * B -> (box_field 120 30 W raw' i (j - B) < box_field 120 30 elev raw i j)%Q)).
  { intros i j Hi Hj. destruct (ramp_cut B s cellsize j ltac:(lia) S3 Hc0 S1 Hj) as (m & mw & Em & Emw & V1 & V2 & V3).
    destruct (L i 0 (3 * B + 2) (west_line R (3 * B + 2) i ltac:(lia) ltac:(lia) ltac:(lia))) as (m1 & Em1 & _ & At).
    destruct (L' i 0 (2 * B + 2)) as (m2 & Em2 & _ & At').
    { cbn [W window g_rows g_cols]. replace (R - 0) with R by lia. replace (3 * B + 2 - B) with (2 * B + 2) by lia. apply west_line; lia. }
    assert (P1 : line_profile elev W_ i 0 (3 * B + 2) = ramp_line (3 * B) s).
    { unfold line_profile, ramp_line. apply map_ext. intros t. rewrite west_cell. reflexivity. }
    assert (P2 : line_profile W W_ i 0 (2 * B + 2) = part B (3 * B + 1) (ramp_line (3 * B) s)).
    { apply nth_ext with (d := 0%Q) (d' := 0%Q).
      - pose proof (profile_len W W_ i 0 (2 * B + 2) ltac:(lia)) as A1. assert (A2 : zlen (ramp_line (3 * B) s) = 3 * B + 2) by (unfold ramp_line, zlen; rewrite map_length, zrange_length; lia).
        pose proof (part_len B (3 * B + 1) (ramp_line (3 * B) s) ltac:(lia) ltac:(lia)) as A3. unfold zlen in *. lia.
      - intros z Hz. pose proof (profile_len W W_ i 0 (2 * B + 2) ltac:(lia)) as A1. unfold zlen in A1.
        pose proof (part_at B (3 * B + 1) (ramp_line (3 * B) s) (Z.of_nat z) ltac:(lia) ltac:(lia)) as PA. unfold elev_at in PA. rewrite Nat2Z.id in PA. rewrite PA.
        unfold ramp_line. rewrite nth_map_zrange by lia. replace z with (Z.to_nat (Z.of_nat z)) at 1 by lia. unfold line_profile. rewrite nth_map_zrange by lia. rewrite west_cell. reflexivity. }
    rewrite P1 in Em1. rewrite P2 in Em2. change (spacing (fun x => x) sqrt2 cellsize W_) with cellsize in *. assert (m1 = m) as -> by congruence. assert (m2 = mw) as -> by congruence.
    specialize (At j ltac:(lia)). specialize (At' (j - B) ltac:(lia)). rewrite west_cell in At, At'. cbn [fst snd] in At, At'.
    unfold box_field. rewrite At, At'. change (in_tasmania 120 30) with false. cbn [W window elev g_at tas_factor andb].
    split; [|intros Ej; specialize (V3 Ej S4)].
    - rewrite !Qmult_1_r. apply cons_mono. exact V2.
    - rewrite !Qmult_1_r. apply cons_strict; assumption. }
  assert (A1 : around R (3 * B + 2) B (2 * B) = [(B - 1, 2 * B - 1); (B - 1, 2 * B); (B - 1, 2 * B + 1); (B, 2 * B - 1); (B, 2 * B); (B, 2 * B + 1); (B + 1, 2 * B - 1); (B + 1, 2 * B); (B + 1, 2 * B + 1)]).
  { unfold around. cbn [filter fst snd]. repeat match goal with |- context [?a <=? ?b] => rewrite (proj2 (Z.leb_le a b)) by lia end.
    repeat match goal with |- context [?a <? ?b] => rewrite (proj2 (Z.ltb_lt a b)) by lia end. reflexivity. }
  assert (A2 : around (R - 0) (3 * B + 2 - B) B (2 * B - B) = map (fun p => (fst p, snd p - B)) (around R (3 * B + 2) B (2 * B))).
  { rewrite A1. unfold around. cbn [filter fst snd]. repeat match goal with |- context [?a <=? ?b] => rewrite (proj2 (Z.leb_le a b)) by lia end.
    repeat match goal with |- context [?a <? ?b] => rewrite (proj2 (Z.ltb_lt a b)) by lia end. cbn [andb map fst snd].
    do 9 (apply f_equal2; [apply f_equal2; lia|]). reflexivity. }
  rewrite A2, map_map, A1. cbn [map total fold_right fst snd].
  assert (X : forall a b : Q, (a < b)%Q -> (a / 9 < b / 9)%Q) by (intros x y Hxy; assert (x / 9 == (1#9) * x)%Q as -> by field; assert (y / 9 == (1#9) * y)%Q as -> by field; lra).
  apply X.
  pose proof (proj1 (K (B - 1) (2 * B - 1) ltac:(lia) ltac:(lia))). pose proof (proj1 (K (B - 1) (2 * B) ltac:(lia) ltac:(lia))). pose proof (proj1 (K (B - 1) (2 * B + 1) ltac:(lia) ltac:(lia))).
  pose proof (proj1 (K B (2 * B - 1) ltac:(lia) ltac:(lia))). pose proof (proj2 (K B (2 * B) ltac:(lia) ltac:(lia)) eq_refl). pose proof (proj1 (K B (2 * B + 1) ltac:(lia) ltac:(lia))).
  pose proof (proj1 (K (B + 1) (2 * B - 1) ltac:(lia) ltac:(lia))). pose proof (proj1 (K (B + 1) (2 * B) ltac:(lia) ltac:(lia))). pose proof (proj1 (K (B + 1) (2 * B + 1) ltac:(lia) ltac:(lia))). lra.
Qed.
Print Assumptions C80_buffer_refuted.

(** The Tasmanian factor goes by the corner of the raster the stage is given.
    Level land above 500 m, south of 40 degrees: a window whose corner is east of
    143 degrees, cut from a raster whose corner is not, gets the factor; the
    raster does not. *)
Lemma level_value sqrt2 cellsize xl yu rows cols h d : (0 < sqrt2)%Q -> (0 < cellsize)%Q -> 1 <= rows -> 1 <= cols -> exists o,
  topo_dir (fun x => x) sqrt2 cellsize xl yu (Grid rows cols (fun _ _ => Num h)) d = Ok o /\
  forall r c, 0 < r < rows - 1 -> 0 < c < cols - 1 -> exists q, g_at o r c = Num q /\ (q == tas_factor (Qltb 143 xl && Qltb 40 yu) (Num h))%Q.
Proof.
  intros Hs Hc Hr Hco. set (M := Z.max rows cols). set (elev := Grid rows cols (fun _ _ => Num h)).
  destruct (C43_factor (fun x => x) M sqrt2 cellsize elev d (fl_line_id M) Hs Hc ltac:(cbn; unfold M; lia) ltac:(cbn; unfold M; lia)) as (raw & F).
  destruct (F xl yu) as (o & E & V). destruct (F 120%Q 30%Q) as (o' & E' & V').
  destruct (stage_dir (fun x => x) M sqrt2 cellsize xl yu elev d (fl_line_id M) Hs Hc ltac:(cbn; unfold M; lia) ltac:(cbn; unfold M; lia)) as (raw' & o2 & E2 & _ & _ & L & _ & _ & V2).
  assert (o2 = o) as -> by congruence. exists o. split; [exact E|]. intros r c Br Bc. destruct (V2 r c h eq_refl) as (q & Eq & Vq). exists q. split; [exact Eq|]. rewrite Vq.
  set (f := tas_factor (Qltb 143 xl && Qltb 40 yu) (Num h)).
  assert (Hds : (0 < spacing (fun x => x) sqrt2 cellsize d)%Q) by (unfold spacing; destruct d; try exact Hc; apply Qmult_lt_0_compat; assumption).
  rewrite (total_ext _ (fun _ => f)).
  - assert (LA : length (around rows cols r c) = 9%nat) by (pose proof (around_interior rows cols r c Br Bc) as X; unfold zlen in X; lia).
    change (g_rows elev) with rows. change (g_cols elev) with cols. destruct (around rows cols r c) as [|p1 [|p2 [|p3 [|p4 [|p5 [|p6 [|p7 [|p8 [|p9 [|]]]]]]]]]]; try discriminate LA. cbn [map total fold_right]. field.
  - intros p Hp. apply in_around in Hp. assert (I : inside (g_rows elev) (g_cols elev) (fst p, snd p) = true) by (apply inside_ins; exact Hp).
    destruct (cell_on_line rows cols d ltac:(lia) ltac:(lia) _ _ I) as (r0 & c0 & n & t & W & Ht & Ec). destruct (L _ _ _ W) as (m & Em & Lm & At). specialize (At t Ht).
    rewrite Ec in At. cbn [fst snd] in At. assert (Hn : 1 <= n) by apply W.
    destruct (C38_no_rise (fun x => x) n (line_profile elev d r0 c0 n) (spacing (fun x => x) sqrt2 cellsize d) (fl_line_id n) ltac:(lia) Hds) as (m' & Em' & _ & One).
    + rewrite profile_len by lia. lia.
    + rewrite profile_len by lia. intros k Hk. unfold elev_at, line_profile. rewrite !nth_map_zrange by lia. cbn [elev g_at or_sea]. apply Qle_refl.
    + assert (m' = m) as -> by congruence. specialize (One t ltac:(rewrite profile_len; lia)). rewrite <- At in One.
      unfold box_field. change (g_at elev (fst p) (snd p)) with (Num h). fold f. change (in_tasmania xl yu) with (Qltb 143 xl && Qltb 40 yu). fold f. rewrite (cons_id (g_at raw' (fst p) (snd p))) by lra. rewrite One. ring.
Qed.
Theorem C80_box_refuted sqrt2 cellsize rows cols X1 xl px yu h d : (0 < sqrt2)%Q -> (0 < cellsize)%Q -> 3 <= rows -> 0 < X1 -> X1 + 3 <= cols ->
  (xl <= 143)%Q -> (143 < xl + inject_Z X1 * px)%Q -> (40 < yu)%Q -> (500 < h)%Q ->
  let elev := Grid rows cols (fun _ _ => Num h) in
  exists whole cut,
    topo_dir (fun x => x) sqrt2 cellsize xl yu elev d = Ok whole /\
    topo_dir (fun x => x) sqrt2 cellsize (xl + inject_Z X1 * px) yu (window elev 0 rows X1 cols) d = Ok cut /\
    forall r c, 0 < r < rows - 1 -> X1 < c < cols - 1 -> exists q q',
      g_at whole r c = Num q /\ (q == 1)%Q /\ g_at cut r (c - X1) = Num q' /\ (q' == 1 + (15#100000) * h)%Q.
Proof.
  intros Hs Hc Hr HX Hco B1 B2 B3 Hh elev.
  destruct (level_value sqrt2 cellsize xl yu rows cols h d Hs Hc ltac:(lia) ltac:(lia)) as (whole & E & V).
  destruct (level_value sqrt2 cellsize (xl + inject_Z X1 * px) yu (rows - 0) (cols - X1) h d Hs Hc ltac:(lia) ltac:(lia)) as (cut & E' & V').
  exists whole, cut. split; [exact E|]. split; [exact E'|]. intros r c H1 H2. destruct (V r c ltac:(lia) ltac:(lia)) as (q & Eq & Vq). destruct (V' r (c - X1) ltac:(lia) ltac:(lia)) as (q' & Eq' & Vq').
  exists q, q'. split; [exact Eq|]. split; [|split; [exact Eq'|]].
  - rewrite Vq. rewrite (proj2 (Qltb_ge 143 xl)) by exact B1. reflexivity.
  - rewrite Vq'. rewrite (proj2 (Qltb_lt 143 _)) by exact B2. rewrite (proj2 (Qltb_lt 40 _)) by exact B3. cbn [andb tas_factor]. rewrite (proj2 (Qltb_lt 500 h)) by exact Hh. reflexivity.
Qed.
Print Assumptions C80_box_refuted.

(** The hypotheses can be met: two hills of 100 m, 1 km apart; the part keeps one
    of them and the point asked for is its flank. *)
Definition c80_line : list Q := ([0; 50; 100; 50] ++ repeat 0 36 ++ [50; 100; 50; 0; 0; 0; 0; 0; 0; 0])%Q.
Example C80_example : (forall k, 39 <= k <= 41 -> enough (floors c80_line) 30 46 25 k) /\ rising_run (floors c80_line) 39 41 /\
  exists m, multiplier_calc (fun x => x) c80_line 25 = Ok m /\ (1 < nth 40 m 0)%Q.
Proof.
  assert (U : forall k, 0 <= k < 49 -> (elev_at (floors c80_line) k < elev_at (floors c80_line) (k + 1))%Q -> k = 0 \/ k = 1 \/ k = 39 \/ k = 40).
  { intros k Hk. assert (K : In k (zrange 49)) by (apply in_zrange; lia). clear Hk. cbv [zrange Z.to_nat Pos.to_nat Pos.iter_op seq map Init.Nat.add] in K.
    repeat (destruct K as [<-|K]; [vm_compute; intros X; first [discriminate X|tauto]|]). destruct K. }
  split; [|split].
  - intros k Hk v r (A & B & C & D & E). change (last_pt (floors c80_line)) with 49 in *.
    assert (V : v = 0 \/ v = 1 \/ v = 39 \/ v = 40) by (apply U; [lia|apply C; lia]).
    assert (W : r - 1 = 0 \/ r - 1 = 1 \/ r - 1 = 39 \/ r - 1 = 40) by (apply U; [lia|apply C; lia]).
    assert (N : ~ (v <= 2 < r)). { intros X. specialize (C 2 X). vm_compute in C. discriminate C. }
    assert (N1 : v <> 1). { intros ->. destruct D as [D|D]; [lia|]. vm_compute in D. apply D. reflexivity. }
    assert (N2 : v <> 40). { intros ->. destruct D as [D|D]; [lia|]. vm_compute in D. apply D. reflexivity. }
    assert (N3 : r <> 1). { intros ->. destruct E as [E|E]; [lia|]. vm_compute in E. apply E. reflexivity. }
    assert (N4 : r <> 40). { intros ->. destruct E as [E|E]; [lia|]. vm_compute in E. apply E. reflexivity. }
    assert (G : v = 0 /\ r = 2 \/ v = 39 /\ r = 41) by lia. destruct G as [[-> ->]|[-> ->]].
    + right. left. left. assert (K : k = 39 \/ k = 40 \/ k = 41) by lia. destruct K as [->|[->| ->]]; vm_compute; discriminate.
    + left. split; [lia|]. change (last_pt (floors c80_line)) with 49. lia.
  - unfold rising_run. change (last_pt (floors c80_line)) with 49. split; [lia|]. split; [lia|]. split; [|split; right; vm_compute; discriminate].
    intros k Hk. assert (K : k = 39 \/ k = 40) by lia. destruct K as [-> | ->]; reflexivity.
  - eexists. split; [vm_compute; reflexivity|]. vm_compute. reflexivity.
Qed.

(** A raster with these heights in each of its rows, of which columns 30 to 46 are
    used: pixel (1, 40) keeps its multiplier for wind from the west. *)
Definition c80_dem : grid num := Grid 3 50 (fun _ c => Num (nth (Z.to_nat c) c80_line 0%Q)).
Example C80_window_example : forall p, In p (around 3 50 1 40) -> line_enough c80_dem W_ 0 3 30 47 25 p.
Proof.
  intros [r c] Hp. assert (I : 0 <= r < 3 /\ 39 <= c <= 41) by (cbn in Hp; repeat (destruct Hp as [Hp|Hp]; [injection Hp as <- <-; lia|]); destruct Hp).
  intros r0 c0 n k o e W Hk1 Hk2 Ek Int. change (g_rows c80_dem) with 3 in W. change (g_cols c80_dem) with 50 in W.
  pose proof (west_line 3 50 r ltac:(lia) ltac:(lia) ltac:(lia)) as W0.
  destruct (line_unique 3 50 W_ ltac:(lia) ltac:(lia) r0 c0 n k r 0 50 c W W0 ltac:(lia) ltac:(lia)) as (-> & -> & -> & ->); [rewrite Ek, west_cell; reflexivity|].
  assert (J : forall t, 0 <= t < 50 -> (o <= t <= e <-> 30 <= t < 47)) by (intros t Ht; rewrite (Int t Ht), west_cell; unfold in_rect; cbn [fst snd]; lia).
  pose proof (J o ltac:(lia)). pose proof (J e ltac:(lia)). pose proof (J 30 ltac:(lia)). pose proof (J 46 ltac:(lia)). assert (o = 30) by lia. assert (e = 46) by lia. subst o e.
  split; [lia|]. assert (line_profile c80_dem W_ r 0 50 = c80_line) as ->; [|apply C80_example; lia].
  unfold line_profile. transitivity (map (fun t => nth (Z.to_nat t) c80_line 0%Q) (zrange 50)); [|reflexivity].
  apply map_ext. intros t. rewrite west_cell. reflexivity.
Qed.
