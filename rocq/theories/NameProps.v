(** * Theorems about tile and file names (C07-C09). *)
From Verif Require Import Base BaseLemmas Rounding TileModel TileSpec TileProofs PyStr NameModel NameSpec NameProofs TileNameProofs TileProps.
Open Scope Z_scope.

(** ** C07: different tiles have different names exactly when, on each axis,
    the buffer is smaller than the tile step or there is a single tile. *)
Theorem C07_names_distinct_iff fl show upwind ds tg :
  fl_ok fl -> good_raster upwind ds -> mk_tilegrid fl upwind ds = Ok tg ->
  prints_floats show -> coords_printable fl tg -> coords_ok ds ->
  names_distinct fl show tg <->
  (x_buffer tg < x_step tg \/ subset_maxcols tg = 1) /\ (y_buffer tg < y_step tg \/ subset_maxrows tg = 1).
Proof. exact (names_distinct_iff fl show upwind ds tg). Qed.
Print Assumptions C07_names_distinct_iff.

(** ** C04, the list of tiles handed to the stages: one entry per tile, in tile
    order, with its own name, buffered extent and extent. *)
Theorem C04_tile_list fl show upwind ds tg :
  fl_ok fl -> good_raster upwind ds -> mk_tilegrid fl upwind ds = Ok tg ->
  exists infos, get_tiles fl show tg = Ok infos /\ zlen infos = num_tiles tg /\
    forall k, 0 <= k < num_tiles tg -> exists n eb e, nth_error infos (Z.to_nat k) = Some (n, eb, e) /\
      get_tilename fl show tg k = Ok n /\ get_tile_extent_buffer fl tg k = Ok eb /\ get_tile_extent fl tg k = Ok e.
Proof.
  intros H1 H2 H3.
  assert (S : forall k, 0 <= k < num_tiles tg -> exists n eb e, get_tilename fl show tg k = Ok n /\
     get_tile_extent_buffer fl tg k = Ok eb /\ get_tile_extent fl tg k = Ok e).
  { intros k Hk. destruct (buffer_contains fl upwind ds tg k H1 H2 H3 Hk) as (x1 & x2 & y1 & y2 & X1 & X2 & Y1 & Y2 & G & B & _).
    unfold get_tilename, get_startcord, get_tile_extent_buffer, get_tile_extent. rewrite G, B. cbn [bind]. do 3 eexists. repeat split; reflexivity. }
  assert (K : forall l, (forall k, In k l -> 0 <= k < num_tiles tg) -> exists infos, get_tileinfo fl show tg l = Ok infos /\
     Forall2 (fun k i => get_tilename fl show tg k = Ok (fst (fst i)) /\ get_tile_extent_buffer fl tg k = Ok (snd (fst i)) /\
                         get_tile_extent fl tg k = Ok (snd i)) l infos).
  { induction l as [|k l IH]; intros Hl; [exists []; split; [reflexivity|constructor]|].
    destruct IH as (infos & E & F); [intros j Hj; apply Hl; right; exact Hj|].
    destruct (S k (Hl k (or_introl eq_refl))) as (n & eb & e & S1 & S2 & S3). exists ((n, eb, e) :: infos). split; [|constructor; [auto|exact F]].
    unfold get_tileinfo in *. cbn [mapM]. rewrite S1, S2, S3. cbn [bind]. rewrite E. reflexivity. }
  destruct (K (zrange (num_tiles tg)) (fun k Hk => proj1 (in_zrange _ _) Hk)) as (infos & E & F). exists infos. split; [exact E|].
  assert (L : length infos = Z.to_nat (num_tiles tg)) by (rewrite <- (zrange_length (num_tiles tg)); clear - F; induction F; cbn; congruence).
  split.
  { unfold zlen. rewrite L. apply Z2Nat.id. destruct (mk_tilegrid_inv fl upwind ds tg H1 H2 H3) as (_ & _ & _ & _ & _ & _ & _ & _ & _ & _ & Sx & Sy & _ & _ & C & R & N & _).
    destruct H2 as (Dx & Dy & _). destruct (blocks_spec _ _ (proj1 Dx) Sx) as [P _]. destruct (blocks_spec _ _ (proj1 Dy) Sy) as [P' _]. rewrite N, C, R. nia. }
  intros k Hk. assert (Z0 := zrange_nth_error _ _ Hk). revert Z0. generalize (Z.to_nat k). clear - F.
  induction F as [|j [[n eb] e] l infos (F1 & F2 & F3) _ IH]; intros i H; [destruct i; discriminate|].
  destruct i as [|i]; cbn [nth_error] in *; [injection H as ->; exists n, eb, e; auto|exact (IH i H)].
Qed.
Print Assumptions C04_tile_list.

(** ** C08: names contain no slash and no underscore, so the stages and the
    converter agree on every file path and the converter recovers the tile. *)
Theorem C08_tilename_good fl show upwind ds tg k :
  fl_ok fl -> good_raster upwind ds -> mk_tilegrid fl upwind ds = Ok tg ->
  prints_floats show -> coords_printable fl tg ->
  0 <= k < num_tiles tg -> exists n, get_tilename fl show tg k = Ok n /\ good_tile n.
Proof. intros H1 H2 H3 H4 H5 H6. exact (tilename_good fl show upwind ds tg H1 H2 H3 H4 H5 k H6). Qed.
Print Assumptions C08_tilename_good.

Theorem C08_paths_agree out tile d : ok_dir out -> good_tile tile ->
  terrain_nc (lcv_tmp out tile) d = convert_nc out tile Terrain d /\
  shield_nc (ms_orig_path (lcv_tmp out tile)) d = convert_nc out tile Shielding d /\
  topo_nc (dem_tmp out tile) d = convert_nc out tile Topographic d.
Proof.
  intros H1 H2. split; [exact (terrain_name out tile d H1 H2)|].
  split; [exact (shield_name out tile d H1 H2)|exact (topo_name out tile d H1 H2)].
Qed.
Print Assumptions C08_paths_agree.

Theorem C08_tile_recovered out tile t d : good_tile tile ->
  tile_of_file (basename (convert_nc out tile t d)) = tile.
Proof. exact (tile_recovered out tile t d). Qed.
Print Assumptions C08_tile_recovered.

Theorem C08_paths_injective out tile tile' t t' d d' : good_tile tile -> good_tile tile' ->
  convert_nc out tile t d = convert_nc out tile' t' d' -> tile = tile' /\ t = t' /\ d = d'.
Proof. exact (convert_nc_inj out tile tile' t t' d d'). Qed.
Print Assumptions C08_paths_injective.

(** ** C09: the direction attribute parsed from an output file name is the
    direction it was written for, whatever the output folder and tile name. *)
Theorem C09_direction_parsed d :
  (forall tmp, nc_direction (terrain_nc tmp d) = dir_str d) /\
  (forall tmp, nc_direction (shield_nc tmp d) = dir_str d) /\
  (forall tmp, nc_direction (topo_nc tmp d) = dir_str d).
Proof. exact (direction_parsed d). Qed.
Print Assumptions C09_direction_parsed.

(** Concrete case: tile 3 of the example raster. *)
Example C07_ex : exists tg, mk_tilegrid rnd53 (2#10) ex_ds = Ok tg /\ prints_floats show22 /\
  coords_printable rnd53 tg /\ coords_ok ex_ds /\ x_buffer tg < x_step tg /\ y_buffer tg < y_step tg /\
  get_tilename rnd53 show22 tg 3 = Ok (lit "e114.5000s11.5000").
Proof.
  eexists. split; [vm_compute; reflexivity|]. split; [exact show22_prints|].
  split.
  { intros k x y Hk.
    assert (C : k = 0 \/ k = 1 \/ k = 2 \/ k = 3 \/ k = 4 \/ k = 5).
    { match type of Hk with _ <= _ < ?n => let v := eval vm_compute in n in change n with v in Hk end.
      clear - Hk. lia. }
    destruct C as [->|[->|[->|[->|[->| ->]]]]]; vm_compute; intros E; inversion E; subst;
      (split; split; [right; discriminate|reflexivity|right; discriminate|reflexivity]). }
  split; [exact ex_coords|]. repeat split; vm_compute; reflexivity.
Qed.

Example C08_ex : good_tile (lit "e114.5000s11.5000") /\ ok_dir (lit "/data/out") /\
  convert_nc (lit "/data/out") (lit "e114.5000s11.5000") Topographic SW
    = lit "/data/out/topographic/e114.5000s11.5000_mt_sw.nc".
Proof.
  split; [|split; [|reflexivity]].
  - split; [notin_lit|]. split; [notin_lit|]. eexists _, _. split; [reflexivity|discriminate].
  - intros q C. apply (f_equal (@rev _)) in C. rewrite rev_app_distr in C. discriminate.
Qed.
