(** * The stages on the tiles of the tile grid (C25, C65).

    The theorems of TerrProps and ShldProps speak of any sufficiently large
    window; here the window is the one the tile grid cuts, and the result is
    the one written to the tile's file: computed on the buffered window and
    clipped to the tile's extent.  As there, the pixel width in metres is the
    same for the window and for the whole raster. *)
From Verif Require Import Base BaseLemmas Rounding TileModel TileSpec TileProofs ClipModel ClipProofs TileProps.
From Verif Require Import NameModel TerrModel TerrSpec TerrProofs TerrProps TerrRunProofs ShldModel ShldSpec ShldProofs ShldProps.
Open Scope Z_scope.

(** The buffered window reaches the buffer beyond the tile, or to the raster's edge. *)
Theorem C03_buffer_reach fl upwind ds tg k :
  fl_ok fl -> good_raster upwind ds -> mk_tilegrid fl upwind ds = Ok tg -> 0 <= k < num_tiles tg ->
  exists x1 x2 y1 y2,
    get_gridlimit tg k = Ok (x1, x2, y1, y2) /\
    get_gridlimit_buffer tg k = Ok (Z.max 0 (x1 - x_buffer tg), Z.min (r_xsize ds) (x2 + x_buffer tg),
                                    Z.max 0 (y1 - y_buffer tg), Z.min (r_ysize ds) (y2 + y_buffer tg)).
Proof.
  intros Hfl Hg Hmk Hk. pose proof Hg as (Dx & Dy & _).
  destruct (mk_tilegrid_inv fl upwind ds tg Hfl Hg Hmk)
    as (Ex & Ey & _ & _ & _ & _ & _ & _ & _ & _ & Sx & Sy & Bx & By & Ec & Er & En & El).
  destruct (tile_index_range fl upwind ds tg k Hfl Hg Hmk Hk) as (R & Hi & Hj).
  rewrite (get_gridlimit_eq fl upwind ds) by assumption.
  unfold get_gridlimit_buffer. rewrite (tilegrid_pyget fl upwind ds) by assumption. cbn [bind].
  rewrite Ex, Ey.
  destruct (lim1_in_dim _ _ _ (r_xsize ds) ltac:(lia) Sx Bx Hi).
  destruct (lim1_in_dim _ _ _ (r_ysize ds) ltac:(lia) Sy By Hj).
  do 4 eexists. split; [reflexivity|]. revert H H0 H1 H2. unfold lim1, span. cbn [fst snd].
  repeat match goal with |- context [if negb ?c then _ else _] => destruct c eqn:?; cbn [negb] end; intros;
    match goal with |- Ok (?a, ?b, ?c, ?d) = Ok (?a', ?b', ?c', ?d') =>
      replace a' with a by lia; replace b' with b by lia; replace c' with c by lia; replace d' with d by lia; reflexivity end.
Qed.
Print Assumptions C03_buffer_reach.

(** What the tile grid provides for a computation [f] on the buffered window of
    tile [k]: clipped to the tile's extent, it is [f]'s result on the tile. *)
Lemma tile_of_window fl upwind ds tg k : fl_ok fl -> good_raster upwind ds -> mk_tilegrid fl upwind ds = Ok tg -> coords_ok ds -> 0 <= k < num_tiles tg ->
  exists x1 x2 y1 y2 ext extb,
    get_gridlimit tg k = Ok (x1, x2, y1, y2) /\
    get_gridlimit_buffer tg k = Ok (Z.max 0 (x1 - x_buffer tg), Z.min (r_xsize ds) (x2 + x_buffer tg),
                                    Z.max 0 (y1 - y_buffer tg), Z.min (r_ysize ds) (y2 + y_buffer tg)) /\
    get_tile_extent fl tg k = Ok ext /\ get_tile_extent_buffer fl tg k = Ok extb /\
    0 <= x1 < x2 /\ x2 <= r_xsize ds /\ 0 <= y1 < y2 /\ y2 <= r_ysize ds /\ 0 <= x_buffer tg /\ 0 <= y_buffer tg /\
    forall (A : Type) (ow : grid A) xl yu,
      (Qabs (xl - fst (fst (fst extb))) <= gt1 ds / 8)%Q -> (Qabs (- yu - snd (fst (fst extb))) <= - gt5 ds / 8)%Q ->
      g_rows ow = Z.min (r_ysize ds) (y2 + y_buffer tg) - Z.max 0 (y1 - y_buffer tg) ->
      g_cols ow = Z.min (r_xsize ds) (x2 + x_buffer tg) - Z.max 0 (x1 - x_buffer tg) ->
      let out := clip_array fl ow xl yu (gt1 ds) (- gt5 ds) ext in
      g_rows out = y2 - y1 /\ g_cols out = x2 - x1 /\
      forall i j, y1 <= i < y2 -> x1 <= j < x2 ->
        g_at out (i - y1) (j - x1) = g_at ow (i - Z.max 0 (y1 - y_buffer tg)) (j - Z.max 0 (x1 - x_buffer tg)).
Proof.
  intros Hfl Hg Hmk Hco Hk.
  destruct (C05_clip_recovers fl upwind ds tg k Hfl Hg Hmk Hk Hco) as (x1 & x2 & y1 & y2 & X1 & X2 & Y1 & Y2 & ext & extb & G & GB & TE & TB & _ & K).
  destruct (C03_buffer_reach fl upwind ds tg k Hfl Hg Hmk Hk) as (x1' & x2' & y1' & y2' & G' & GB').
  rewrite G in G'. injection G' as <- <- <- <-. rewrite GB in GB'. injection GB' as -> -> -> ->.
  destruct (C03_buffer_contains fl upwind ds tg k Hfl Hg Hmk Hk) as (a1 & a2 & b1 & b2 & A1 & A2 & B1 & B2 & G' & GB' & P).
  rewrite G in G'. injection G' as <- <- <- <-. rewrite GB in GB'. injection GB' as <- <- <- <-.
  destruct (mk_tilegrid_inv fl upwind ds tg Hfl Hg Hmk) as (_ & _ & _ & _ & _ & _ & _ & _ & _ & _ & _ & _ & Bx & By & _).
  exists x1, x2, y1, y2, ext, extb. do 4 (split; [assumption|]). do 6 (split; [lia|]).
  intros A ow xl yu Hxl Hyu S1 S2 out. destruct (K A ow xl yu Hxl Hyu S1 S2) as (O1 & O2 & V). fold out in O1, O2, V.
  split; [exact O1|]. split; [exact O2|]. intros i j Hi Hj. destruct (V (i - y1) (j - x1)) as [_ ->]; try lia. f_equal; lia.
Qed.

(** ** C25: the value written for a pixel of a tile is the one computed on the whole raster. *)
Theorem C25_grid_tiles fl upwind ds tg k table (data : grid Z) gw l d o :
  fl_ok fl -> good_raster upwind ds -> mk_tilegrid fl upwind ds = Ok tg -> coords_ok ds -> 0 <= k < num_tiles tg ->
  g_rows data = r_ysize ds -> g_cols data = r_xsize ds -> (0 < gw)%Q -> 1 <= fst (widths fl gw d) ->
  fst (widths fl gw d) + snd (widths fl gw d) <= x_buffer tg -> fst (widths fl gw d) + snd (widths fl gw d) <= y_buffer tg ->
  terrain fl table data gw = Ok (Some l) -> In (d, o) l ->
  exists x1 x2 y1 y2 X1 X2 Y1 Y2 ext extb,
    get_gridlimit tg k = Ok (x1, x2, y1, y2) /\ get_gridlimit_buffer tg k = Ok (X1, X2, Y1, Y2) /\
    get_tile_extent fl tg k = Ok ext /\ get_tile_extent_buffer fl tg k = Ok extb /\
    forall xl yu lw ow,
      (Qabs (xl - fst (fst (fst extb))) <= gt1 ds / 8)%Q -> (Qabs (- yu - snd (fst (fst extb))) <= - gt5 ds / 8)%Q ->
      terrain fl table (window data Y1 Y2 X1 X2) gw = Ok (Some lw) -> In (d, ow) lw ->
      let out := clip_array fl ow xl yu (gt1 ds) (- gt5 ds) ext in
      g_rows out = y2 - y1 /\ g_cols out = x2 - x1 /\
      forall i j, y1 <= i < y2 -> x1 <= j < x2 -> same_num (g_at out (i - y1) (j - x1)) (g_at o i j).
Proof.
  intros Hfl Hg Hmk Hco Hk Er Ec Hgw Ha Bx By E Ho.
  destruct (tile_of_window fl upwind ds tg k Hfl Hg Hmk Hco Hk) as (x1 & x2 & y1 & y2 & ext & extb & G & GB & TE & TB & P1 & P2 & P3 & P4 & P5 & P6 & K).
  do 10 eexists. do 4 (split; [eassumption|]). intros xl yu lw ow Hxl Hyu Ew How out.
  destruct (terrain_skip_or_run _ _ _ _ _ Ew) as [|(l' & El & _ & Kw)]; [discriminate|]. injection El as <-. specialize (Kw d ow How).
  match type of Kw with terrain_dir _ ?init _ _ = _ => pose proof (terrain_dir_cases fl gw d init Hfl Hgw) as S end.
  cbn [zero_to_nan class2mz window g_rows g_cols gmap] in S. rewrite Kw in S.
  destruct S as [[_ S]|[_ (o' & S & S1 & S2)]]; try lia; [discriminate S|]. injection S as <-.
  destruct (K num ow xl yu Hxl Hyu S1 S2) as (O1 & O2 & V). fold out in O1, O2, V. split; [exact O1|]. split; [exact O2|].
  intros i j Hi Hj. rewrite V by assumption.
  apply (C25_tiling_independent fl table data gw (fst (widths fl gw d) + snd (widths fl gw d)) y1 y2 x1 x2 _ (Z.min (r_ysize ds) (y2 + y_buffer tg)) _ (Z.min (r_xsize ds) (x2 + x_buffer tg)) l lw d o ow);
    try assumption; rewrite ?Er, ?Ec; lia.
Qed.
Print Assumptions C25_grid_tiles.

(** ** C65: the same for shielding, whose stage never fails. *)
Lemma convo_dirs_size s slope aspect ds : forall data, Forall (fun x => g_rows (snd x) = g_rows data /\ g_cols (snd x) = g_cols data) (convo_dirs s slope aspect ds data).
Proof.
  induction ds as [|d ds IH]; intros data; cbn [convo_dirs]; [constructor|]. destruct (0 <? s); cbv zeta; constructor;
    try (split; reflexivity); [apply IH|exact (IH (combine d slope aspect data))].
Qed.

Theorem C65_grid_tiles slope_fn aspect_fn fl cast table tnd upwind ds tg k (terrain : grid Z) dnd dem px py xm ym gw :
  fl_ok fl -> good_raster upwind ds -> mk_tilegrid fl upwind ds = Ok tg -> coords_ok ds -> 0 <= k < num_tiles tg ->
  (0 < gw)%Q -> 1 <= x_buffer tg -> 1 <= y_buffer tg -> kernel_size fl gw <= x_buffer tg -> kernel_size fl gw <= y_buffer tg ->
  g_rows terrain = r_ysize ds -> g_cols terrain = r_xsize ds -> g_rows dem = r_ysize ds -> g_cols dem = r_xsize ds ->
  g_rows xm = r_ysize ds -> g_cols xm = r_xsize ds -> g_rows ym = r_ysize ds -> g_cols ym = r_xsize ds ->
  exists x1 x2 y1 y2 X1 X2 Y1 Y2 ext extb,
    get_gridlimit tg k = Ok (x1, x2, y1, y2) /\ get_gridlimit_buffer tg k = Ok (X1, X2, Y1, Y2) /\
    get_tile_extent fl tg k = Ok ext /\ get_tile_extent_buffer fl tg k = Ok extb /\
    forall xl yu,
      (Qabs (xl - fst (fst (fst extb))) <= gt1 ds / 8)%Q -> (Qabs (- yu - snd (fst (fst extb))) <= - gt5 ds / 8)%Q ->
      let cut {A} (g : grid A) := window g Y1 Y2 X1 X2 in
      let clip ow := clip_array fl ow xl yu (gt1 ds) (- gt5 ds) ext in
      Forall2 (fun x y => fst x = fst y /\ g_rows (clip (snd x)) = y2 - y1 /\ g_cols (clip (snd x)) = x2 - x1 /\
                 forall i j, y1 <= i < y2 -> x1 <= j < x2 -> g_at (clip (snd x)) (i - y1) (j - x1) = g_at (snd y) i j)
        (shield slope_fn aspect_fn fl cast table tnd (cut terrain) dnd (cut dem) px py (cut xm) (cut ym) gw)
        (shield slope_fn aspect_fn fl cast table tnd terrain dnd dem px py xm ym gw).
Proof.
  intros Hfl Hg Hmk Hco Hk Hgw Bx By Kx Ky D1 D2 D3 D4 D5 D6 D7 D8.
  destruct (tile_of_window fl upwind ds tg k Hfl Hg Hmk Hco Hk) as (x1 & x2 & y1 & y2 & ext & extb & G & GB & TE & TB & P1 & P2 & P3 & P4 & P5 & P6 & K).
  do 10 eexists. do 4 (split; [eassumption|]). intros xl yu Hxl Hyu cut clip.
  pose proof (C65_tiling_independent slope_fn aspect_fn fl cast table tnd terrain dnd dem px py xm ym gw (Z.max 1 (kernel_size fl gw)) y1 y2 x1 x2
    (Z.max 0 (y1 - y_buffer tg)) (Z.min (r_ysize ds) (y2 + y_buffer tg)) (Z.max 0 (x1 - x_buffer tg)) (Z.min (r_xsize ds) (x2 + x_buffer tg))
    Hfl Hgw ltac:(lia) ltac:(lia)) as T. cbv zeta in T. rewrite !D1, !D2 in T.
  specialize (T ltac:(lia) ltac:(lia) D3 D4 D5 D6 D7 D8 ltac:(lia) ltac:(lia) ltac:(lia) ltac:(lia)).
  assert (S : Forall (fun x : dir * grid num => g_rows (snd x) = Z.min (r_ysize ds) (y2 + y_buffer tg) - Z.max 0 (y1 - y_buffer tg) /\
                           g_cols (snd x) = Z.min (r_xsize ds) (x2 + x_buffer tg) - Z.max 0 (x1 - x_buffer tg))
     (shield slope_fn aspect_fn fl cast table tnd (cut Z terrain) dnd (cut num dem) px py (cut Q xm) (cut Q ym) gw)).
  { unfold shield. destruct (get_slope_aspect _ _ _ _ _ _ _ _) as [sl asp]. unfold convo_combine.
    exact (convo_dirs_size (kernel_size fl gw) sl asp dire (class2ms cast tnd table (cut Z terrain))). }
  unfold cut in S |- *. revert S. induction T as [|x y l l' [E V] _ IH]; intros S; [constructor|].
  inversion S as [|? ? [S1 S2] S3]; subst. constructor; [|apply IH; exact S3].
  destruct (K num (snd x) xl yu Hxl Hyu S1 S2) as (O1 & O2 & W). split; [exact E|]. split; [exact O1|]. split; [exact O2|].
  intros i j Hi Hj. unfold clip. rewrite W by assumption. apply V; assumption.
Qed.
Print Assumptions C65_grid_tiles.

(** The tile grid of a raster of 25 x 17 pixels has buffers of two pixels, enough for
    shielding with pixels of 60 m, and with a longer buffer for terrain with pixels of 250 m. *)
Example C25_C65_grid_ex : exists tg tg', mk_tilegrid (fun x => x) (2#10) ex_ds = Ok tg /\ x_buffer tg = 2 /\ y_buffer tg = 2 /\ kernel_size (fun x => x) 60 = 1 /\
  mk_tilegrid (fun x => x) (3#10) ex_ds = Ok tg' /\ x_buffer tg' = 3 /\ y_buffer tg' = 3 /\ widths (fun x => x) 250 W_ = (2, 1).
Proof. do 2 eexists. split; [vm_compute; reflexivity|]. repeat (split; [vm_compute; reflexivity|]). vm_compute. reflexivity. Qed.
