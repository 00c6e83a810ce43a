From Verif Require Import Base BaseLemmas TileModel TileSpec.
From Coq Require Import ZifyBool ZifyNat Qfield.
Open Scope Z_scope.
Ltac Zify.zify_post_hook ::= Z.div_mod_to_equations.

(** ** Enumeration *)

Lemma grid_enum_length {B} (f : Z -> Z -> B) cols rows :
  0 <= cols -> 0 <= rows ->
  zlen (flat_map (fun i => map (f i) (zrange rows)) (zrange cols)) = cols * rows.
Proof.
  intros Hc Hr. revert cols Hc. apply natlike_ind.
  - reflexivity.
  - intros c Hc IH. rewrite <- Z.add_1_r, zrange_S by lia. rewrite flat_map_app.
    unfold zlen in *. rewrite app_length. simpl. rewrite app_nil_r, map_length, zrange_length. lia.
Qed.

Lemma grid_enum_nth {B} (f : Z -> Z -> B) cols rows k :
  0 < rows -> 0 <= k < cols * rows ->
  nth_error (flat_map (fun i => map (f i) (zrange rows)) (zrange cols)) (Z.to_nat k)
  = Some (f (k / rows) (k mod rows)).
Proof.
  intros Hr. assert (Hc : 0 <= cols \/ cols < 0) by lia. destruct Hc as [Hc|Hc]; [|nia].
  revert cols Hc. apply (natlike_ind (fun cols => 0 <= k < cols * rows ->
    nth_error (flat_map (fun i => map (f i) (zrange rows)) (zrange cols)) (Z.to_nat k)
    = Some (f (k / rows) (k mod rows)))).
  - intros; lia.
  - intros c Hc IH Hk. rewrite <- Z.add_1_r, zrange_S by lia. rewrite flat_map_app.
    pose proof (grid_enum_length f c rows Hc ltac:(lia)) as L. unfold zlen in L.
    destruct (Z_lt_ge_dec k (c * rows)).
    + rewrite nth_error_app1 by lia. apply IH. lia.
    + rewrite nth_error_app2 by lia. simpl. rewrite app_nil_r.
      assert (Hd : k / rows = c) by (symmetry; apply Z.div_unique with (k - c * rows); nia).
      assert (Hm : k mod rows = k - c * rows) by (symmetry; apply Z.mod_unique with c; nia).
      rewrite Hd, Hm.
      replace (Z.to_nat k - _)%nat with (Z.to_nat (k - c * rows)) by lia.
      rewrite nth_error_map, zrange_nth_error by nia. reflexivity.
Qed.

(** ** The axis cut *)

Lemma div_block p step i : 0 < step -> (p / step = i <-> i * step <= p < (i + 1) * step).
Proof.
  intros Hs. split.
  - intros <-. pose proof (Z.div_mod p step ltac:(lia)). pose proof (Z.mod_pos_bound p step Hs). lia.
  - intros H. symmetry. apply Z.div_unique with (p - i * step); lia.
Qed.

Lemma Qceiling_mk dim step fl :
  fl_ok fl -> 0 < dim < 2 ^ 31 -> 0 < step ->
  Qceiling (fl (inject_Z dim / inject_Z step)%Q) = blocks dim step.
Proof.
  intros Hfl Hd Hs. set (n := blocks dim step).
  assert (Hn : (n - 1) * step + 1 <= dim <= n * step /\ 0 < n <= dim)
    by (unfold n, blocks; nia).
  assert (Sp : (0 < inject_Z step)%Q) by (apply (inject_Z_lt 0); lia).
  set (q := (inject_Z dim / inject_Z step)%Q).
  assert (Q1 : (q <= inject_Z n)%Q).
  { apply Qle_shift_div_r; [exact Sp|]. rewrite <- inject_Z_mult. apply inject_Z_le. lia. }
  assert (Q0 : (0 <= q)%Q).
  { apply Qle_shift_div_l; [exact Sp|]. rewrite Qmult_0_l. apply (inject_Z_le 0). lia. }
  assert (Q2 : (inject_Z (n - 1) + 1 / inject_Z step <= q)%Q).
  { setoid_replace (inject_Z (n - 1) + 1 / inject_Z step)%Q
      with ((inject_Z ((n - 1) * step + 1)) / inject_Z step)%Q
      by (rewrite inject_Z_plus, inject_Z_mult; change (inject_Z 1) with 1%Q; field; lra).
    apply Qle_shift_div_l; [exact Sp|].
    setoid_replace (inject_Z ((n - 1) * step + 1) / inject_Z step * inject_Z step)%Q
      with (inject_Z ((n - 1) * step + 1)) by (field; lra).
    apply inject_Z_le. lia. }
  apply Qceiling_unique.
  - assert (B : (Qabs q <= q)%Q) by (rewrite Qabs_pos; lra).
    destruct (fl_bounds fl Hfl q q B) as [B1 _].
    assert (U : (u53 * q < 1 / inject_Z step)%Q).
    { unfold q. setoid_replace (u53 * (inject_Z dim / inject_Z step))%Q
        with ((u53 * inject_Z dim) / inject_Z step)%Q by (field; lra).
      unfold Qdiv. apply Qmult_lt_r; [apply Qinv_lt_0_compat; exact Sp|].
      apply Qlt_trans with (u53 * inject_Z (2 ^ 31))%Q; [|reflexivity].
      apply Qmult_lt_l; [reflexivity|]. apply inject_Z_lt. lia. }
    rewrite inject_Z_minus in Q2. change (inject_Z 1) with 1%Q in Q2. lra.
  - rewrite <- (fl_int fl Hfl n) by lia. apply (fl_mono fl Hfl). exact Q1.
Qed.

(** The attributes of a successfully built tile grid. *)
Lemma mk_tilegrid_inv fl upwind ds tg :
  fl_ok fl -> good_raster upwind ds -> mk_tilegrid fl upwind ds = Ok tg ->
  x_dim tg = r_xsize ds /\ y_dim tg = r_ysize ds /\
  x_left tg = gt0 ds /\ y_upper tg = (- gt3 ds)%Q /\
  pixelwidth tg = gt1 ds /\ pixelheight tg = (- gt5 ds)%Q /\
  x_step tg = Qceiling (fl (1 / gt1 ds)%Q) /\ y_step tg = Qceiling (fl (1 / - gt5 ds)%Q) /\
  x_buffer tg = Qfloor (fl (upwind / gt1 ds)%Q) /\ y_buffer tg = Qfloor (fl (upwind / - gt5 ds)%Q) /\
  0 < x_step tg /\ 0 < y_step tg /\ 0 <= x_buffer tg /\ 0 <= y_buffer tg /\
  subset_maxcols tg = blocks (r_xsize ds) (x_step tg) /\
  subset_maxrows tg = blocks (r_ysize ds) (y_step tg) /\
  num_tiles tg = subset_maxcols tg * subset_maxrows tg /\
  tg_xy tg = tile_grid (subset_maxcols tg) (subset_maxrows tg) (x_step tg) (y_step tg)
     (x_buffer tg) (y_buffer tg) (x_dim tg) (y_dim tg) (num_tiles tg).
Proof.
  intros Hfl (Hx & Hy & Hw & Hh & Hu) Hmk.
  assert (Hh' : (0 < - gt5 ds)%Q) by lra.
  unfold mk_tilegrid, fdiv, bind in Hmk.
  assert (E1 : Qeq_bool (gt1 ds) 0 = false).
  { destruct (Qeq_bool (gt1 ds) 0) eqn:E; [apply Qeq_bool_iff in E; lra|reflexivity]. }
  assert (E2 : Qeq_bool (- gt5 ds) 0 = false).
  { destruct (Qeq_bool (- gt5 ds) 0) eqn:E; [apply Qeq_bool_iff in E; lra|reflexivity]. }
  rewrite E1, E2 in Hmk.
  assert (P : forall a b, (0 <= a)%Q -> (0 < b)%Q -> (0 <= fl (a / b))%Q).
  { intros a b Ha Hb. apply fl_nonneg; [assumption|]. apply Qle_shift_div_l; [exact Hb|]. lra. }
  assert (P1 : forall b, (0 < b)%Q -> 0 < Qceiling (fl (1 / b)%Q)).
  { intros b Hb. apply inject_Z_lt_inv. change (inject_Z 0) with 0%Q.
    apply Qlt_le_trans with (fl (1 / b)%Q); [|apply Qle_ceiling].
    apply fl_pos; [assumption|]. apply Qlt_shift_div_l; [exact Hb|]. lra. }
  pose proof (P1 _ Hw) as Sx. pose proof (P1 _ Hh') as Sy.
  assert (E3 : Qeq_bool (inject_Z (Qceiling (fl (1 / gt1 ds)%Q))) 0 = false).
  { destruct (Qeq_bool (inject_Z (Qceiling (fl (1 / gt1 ds)%Q))) 0) eqn:E; [|reflexivity].
    apply Qeq_bool_iff in E. change 0%Q with (inject_Z 0) in E. rewrite inject_Z_injective in E. lia. }
  assert (E4 : Qeq_bool (inject_Z (Qceiling (fl (1 / - gt5 ds)%Q))) 0 = false).
  { destruct (Qeq_bool (inject_Z (Qceiling (fl (1 / - gt5 ds)%Q))) 0) eqn:E; [|reflexivity].
    apply Qeq_bool_iff in E. change 0%Q with (inject_Z 0) in E. rewrite inject_Z_injective in E. lia. }
  rewrite E3, E4 in Hmk. clear E1 E2 E3 E4.
  rewrite !Qceiling_mk in Hmk by (auto; lia).
  rewrite !py_int_nonneg in Hmk by (apply P; lra).
  match type of Hmk with (if ?c then _ else _) = _ => destruct c; inversion Hmk; clear Hmk end.
  simpl. repeat split; auto; try lia; try (apply Qfloor_nonneg; apply P; lra).
Qed.

(** Building never fails on a good raster. *)
Lemma mk_tilegrid_ok fl upwind ds :
  fl_ok fl -> good_raster upwind ds -> exists tg, mk_tilegrid fl upwind ds = Ok tg.
Proof.
  intros Hfl (Hx & Hy & Hw & Hh & Hu).
  assert (Hh' : (0 < - gt5 ds)%Q) by lra.
  unfold mk_tilegrid, fdiv, bind.
  assert (N : forall b, (0 < b)%Q -> Qeq_bool b 0 = false).
  { intros b Hb. destruct (Qeq_bool b 0) eqn:E; [apply Qeq_bool_iff in E; lra|reflexivity]. }
  assert (P1 : forall b, (0 < b)%Q -> (0 < inject_Z (Qceiling (fl (1 / b)%Q)))%Q).
  { intros b Hb.
    apply Qlt_le_trans with (fl (1 / b)%Q); [|apply Qle_ceiling].
    apply fl_pos; [assumption|]. apply Qlt_shift_div_l; [exact Hb|]. lra. }
  rewrite !N by auto.
  pose proof (P1 _ Hw) as Sx. pose proof (P1 _ Hh') as Sy.
  apply (inject_Z_lt_inv 0) in Sx, Sy.
  rewrite !Qceiling_mk by (auto; lia).
  match goal with |- context [if ?c then _ else _] => destruct c eqn:E; [|eauto] end.
  exfalso. unfold blocks in E. nia.
Qed.

Lemma blocks_spec dim step : 0 < dim -> 0 < step ->
  0 < blocks dim step /\ (blocks dim step - 1) * step < dim <= blocks dim step * step.
Proof. intros. unfold blocks. nia. Qed.

Lemma last_width_spec dim step : 0 < dim -> 0 < step ->
  last_width dim step = dim - (blocks dim step - 1) * step.
Proof.
  intros. unfold last_width.
  assert ((dim - 1) mod step = dim - 1 - (blocks dim step - 1) * step).
  { symmetry. pose proof (blocks_spec dim step H H0). apply Z.mod_unique with (blocks dim step - 1); nia. }
  lia.
Qed.

(** Unbuffered limits of block i of one axis, as get_gridlimit computes them. *)
Definition lim1 (i step buf dim : Z) : Z * Z :=
  let '(a, e) := span i step buf dim in
  (if negb (a =? 0) then a + buf else a, if negb (e =? dim - 1) then e - buf + 1 else dim).

Lemma lim1_cases i step buf dim :
  0 < dim -> 0 < step -> 0 <= buf -> 0 <= i < blocks dim step ->
  fst (lim1 i step buf dim) = (if i * step - buf <=? 0 then 0 else i * step) /\
  snd (lim1 i step buf dim) = (if dim <=? (i + 1) * step + buf then dim else (i + 1) * step).
Proof.
  intros Hd Hs Hb Hi. unfold lim1, span.
  destruct (i * step - buf <=? 0) eqn:E1; destruct (dim <=? (i + 1) * step + buf) eqn:E2; simpl.
  - replace (Z.max 0 (i * step - buf)) with 0 by lia.
    replace (Z.min ((i + 1) * step + buf) dim) with dim by lia.
    simpl. replace (dim - 1 =? dim - 1) with true by lia. simpl. lia.
  - replace (Z.max 0 (i * step - buf)) with 0 by lia.
    replace (Z.min ((i + 1) * step + buf) dim) with ((i + 1) * step + buf) by lia.
    replace ((i + 1) * step + buf - 1 =? dim - 1) with false by lia. simpl. lia.
  - replace (Z.max 0 (i * step - buf)) with (i * step - buf) by lia.
    replace (i * step - buf =? 0) with false by lia.
    replace (Z.min ((i + 1) * step + buf) dim) with dim by lia.
    replace (dim - 1 =? dim - 1) with true by lia. simpl. lia.
  - replace (Z.max 0 (i * step - buf)) with (i * step - buf) by lia.
    replace (i * step - buf =? 0) with false by lia.
    replace (Z.min ((i + 1) * step + buf) dim) with ((i + 1) * step + buf) by lia.
    replace ((i + 1) * step + buf - 1 =? dim - 1) with false by lia. simpl. lia.
Qed.

Lemma lim1_contains_block i step buf dim p :
  0 < dim -> 0 < step -> 0 <= buf -> in_block dim step i p ->
  fst (lim1 i step buf dim) <= p < snd (lim1 i step buf dim).
Proof.
  intros Hd Hs Hb [Hp Hi].
  assert (0 <= i < blocks dim step).
  { pose proof (blocks_spec dim step Hd Hs). nia. }
  destruct (lim1_cases i step buf dim Hd Hs Hb H) as [-> ->].
  assert (i * step <= p < (i + 1) * step) by nia.
  destruct (_ <=? 0); destruct (dim <=? _); lia.
Qed.

Lemma lim1_in_dim i step buf dim :
  0 < dim -> 0 < step -> 0 <= buf -> 0 <= i < blocks dim step ->
  0 <= fst (lim1 i step buf dim) < snd (lim1 i step buf dim) /\ snd (lim1 i step buf dim) <= dim.
Proof.
  intros Hd Hs Hb Hi. destruct (lim1_cases i step buf dim Hd Hs Hb Hi) as [-> ->].
  pose proof (blocks_spec dim step Hd Hs).
  assert (i * step <= (blocks dim step - 1) * step) by nia.
  assert (0 <= i * step) by nia.
  destruct (i * step - buf <=? 0) eqn:E1; destruct (dim <=? (i + 1) * step + buf) eqn:E2; lia.
Qed.

Lemma lim1_nominal i step buf dim :
  0 < dim -> 0 < step -> 0 <= buf -> buffer_fits dim step buf -> 0 <= i < blocks dim step ->
  fst (lim1 i step buf dim) = i * step /\ snd (lim1 i step buf dim) = Z.min ((i + 1) * step) dim.
Proof.
  intros Hd Hs Hb Hf Hi. destruct (lim1_cases i step buf dim Hd Hs Hb Hi) as [-> ->].
  pose proof (blocks_spec dim step Hd Hs) as (N & M1 & M2).
  assert (L := last_width_spec dim step Hd Hs).
  destruct Hf as [Hf|Hf].
  - assert (blocks dim step = 1) by nia. assert (i = 0) by lia. subst i.
    destruct (0 * step - buf <=? 0) eqn:E1; destruct (dim <=? (0 + 1) * step + buf) eqn:E2; lia.
  - rewrite L in Hf.
    assert (i = 0 \/ step <= i * step) by nia.
    assert (i = blocks dim step - 1 \/ (i + 1) * step <= (blocks dim step - 1) * step) by nia.
    assert (last_width dim step <= step) by (unfold last_width; lia).
    assert ((i + 1) * step = i * step + step) by ring.
    assert (i = blocks dim step - 1 -> dim <= (i + 1) * step) by (intros ->; nia).
    destruct (i * step - buf <=? 0) eqn:E1; destruct (dim <=? (i + 1) * step + buf) eqn:E2; lia.
Qed.

Lemma tilegrid_pyget fl upwind ds tg k :
  fl_ok fl -> good_raster upwind ds -> mk_tilegrid fl upwind ds = Ok tg ->
  0 <= k < num_tiles tg ->
  pyget (tg_xy tg) k =
    Ok (fst (span (k / subset_maxrows tg) (x_step tg) (x_buffer tg) (x_dim tg)),
        snd (span (k / subset_maxrows tg) (x_step tg) (x_buffer tg) (x_dim tg)),
        fst (span (k mod subset_maxrows tg) (y_step tg) (y_buffer tg) (y_dim tg)),
        snd (span (k mod subset_maxrows tg) (y_step tg) (y_buffer tg) (y_dim tg))).
Proof.
  intros Hfl Hg Hmk Hk.
  destruct (mk_tilegrid_inv fl upwind ds tg Hfl Hg Hmk)
    as (Ex & Ey & _ & _ & _ & _ & _ & _ & _ & _ & Sx & Sy & Bx & By & Ec & Er & En & El).
  destruct Hg as (Dx & Dy & _).
  pose proof (blocks_spec (r_xsize ds) (x_step tg) ltac:(lia) Sx) as (C & _).
  pose proof (blocks_spec (r_ysize ds) (y_step tg) ltac:(lia) Sy) as (R & _).
  rewrite <- Ec in C. rewrite <- Er in R.
  set (f := fun i j => (fst (span i (x_step tg) (x_buffer tg) (x_dim tg)),
        snd (span i (x_step tg) (x_buffer tg) (x_dim tg)),
        fst (span j (y_step tg) (y_buffer tg) (y_dim tg)),
        snd (span j (y_step tg) (y_buffer tg) (y_dim tg)))).
  assert (F : tg_xy tg = flat_map (fun i => map (f i) (zrange (subset_maxrows tg))) (zrange (subset_maxcols tg))).
  { rewrite El. unfold tile_grid.
    pose proof (grid_enum_length f (subset_maxcols tg) (subset_maxrows tg) ltac:(lia) ltac:(lia)) as L.
    unfold zlen in L.
    match goal with |- ?a ++ repeat _ (_ - length ?a) = ?b => change a with b end.
    rewrite En. replace (Z.to_nat _ - _)%nat with O by lia. simpl. apply app_nil_r. }
  rewrite F. apply pyget_nth.
  - rewrite (grid_enum_length f) by lia. lia.
  - rewrite (grid_enum_nth f) by lia. reflexivity.
Qed.

Lemma get_gridlimit_eq fl upwind ds tg k :
  fl_ok fl -> good_raster upwind ds -> mk_tilegrid fl upwind ds = Ok tg ->
  0 <= k < num_tiles tg ->
  get_gridlimit tg k =
    Ok (fst (lim1 (k / subset_maxrows tg) (x_step tg) (x_buffer tg) (x_dim tg)),
        snd (lim1 (k / subset_maxrows tg) (x_step tg) (x_buffer tg) (x_dim tg)),
        fst (lim1 (k mod subset_maxrows tg) (y_step tg) (y_buffer tg) (y_dim tg)),
        snd (lim1 (k mod subset_maxrows tg) (y_step tg) (y_buffer tg) (y_dim tg))).
Proof.
  intros Hfl Hg Hmk Hk. unfold get_gridlimit.
  rewrite (tilegrid_pyget fl upwind ds tg k) by assumption. reflexivity.
Qed.

Lemma tile_index_range fl upwind ds tg k :
  fl_ok fl -> good_raster upwind ds -> mk_tilegrid fl upwind ds = Ok tg ->
  0 <= k < num_tiles tg ->
  0 < subset_maxrows tg /\
  0 <= k / subset_maxrows tg < blocks (r_xsize ds) (x_step tg) /\
  0 <= k mod subset_maxrows tg < blocks (r_ysize ds) (y_step tg).
Proof.
  intros Hfl Hg Hmk Hk.
  destruct (mk_tilegrid_inv fl upwind ds tg Hfl Hg Hmk)
    as (Ex & Ey & _ & _ & _ & _ & _ & _ & _ & _ & Sx & Sy & Bx & By & Ec & Er & En & El).
  destruct Hg as (Dx & Dy & _).
  pose proof (blocks_spec (r_xsize ds) (x_step tg) ltac:(lia) Sx) as (C & _).
  pose proof (blocks_spec (r_ysize ds) (y_step tg) ltac:(lia) Sy) as (R & _).
  rewrite <- Ec in *. rewrite <- Er in *. split; [lia|]. split; [|apply Z.mod_pos_bound; lia].
  split; [apply Z.div_pos; lia|]. apply Z.div_lt_upper_bound; lia.
Qed.

(** ** C01 *)
Lemma tiles_cover fl upwind ds tg :
  fl_ok fl -> good_raster upwind ds -> mk_tilegrid fl upwind ds = Ok tg ->
  (forall x y, in_raster ds x y ->
     exists k w, 0 <= k < num_tiles tg /\ get_gridlimit tg k = Ok w /\ in_window w x y) /\
  (forall k, 0 <= k < num_tiles tg ->
     exists w, get_gridlimit tg k = Ok w /\
       (exists x y, in_window w x y) /\
       (forall x y, in_window w x y -> in_raster ds x y)).
Proof.
  intros Hfl Hg Hmk. pose proof Hg as (Dx & Dy & _).
  destruct (mk_tilegrid_inv fl upwind ds tg Hfl Hg Hmk)
    as (Ex & Ey & _ & _ & _ & _ & _ & _ & _ & _ & Sx & Sy & Bx & By & Ec & Er & En & El).
  split.
  - intros x y [Hx Hy].
    set (i := x / x_step tg). set (j := y / y_step tg).
    pose proof (blocks_spec (r_xsize ds) (x_step tg) ltac:(lia) Sx) as (C & C1 & C2).
    pose proof (blocks_spec (r_ysize ds) (y_step tg) ltac:(lia) Sy) as (R & R1 & R2).
    assert (Hi : 0 <= i < subset_maxcols tg) by (unfold i; rewrite Ec; nia).
    assert (Hj : 0 <= j < subset_maxrows tg) by (unfold j; rewrite Er; nia).
    assert (Hk : 0 <= i * subset_maxrows tg + j < num_tiles tg) by (rewrite En; nia).
    exists (i * subset_maxrows tg + j).
    rewrite (get_gridlimit_eq fl upwind ds) by assumption.
    eexists. split; [exact Hk|]. split; [reflexivity|].
    replace ((i * subset_maxrows tg + j) / subset_maxrows tg) with i
      by (apply Z.div_unique with j; lia).
    replace ((i * subset_maxrows tg + j) mod subset_maxrows tg) with j
      by (apply Z.mod_unique with i; lia).
    unfold in_window. rewrite Ex, Ey.
    split; (apply lim1_contains_block; [lia|lia|lia|split; [lia|reflexivity]]).
  - intros k Hk. rewrite (get_gridlimit_eq fl upwind ds) by assumption.
    eexists; split; [reflexivity|].
    destruct (tile_index_range fl upwind ds tg k Hfl Hg Hmk Hk) as (R & Hi & Hj).
    rewrite Ex, Ey.
    destruct (lim1_in_dim _ _ _ (r_xsize ds) ltac:(lia) Sx Bx Hi).
    destruct (lim1_in_dim _ _ _ (r_ysize ds) ltac:(lia) Sy By Hj).
    unfold in_window, in_raster. split.
    + eexists; eexists; split; split; try apply Z.le_refl; lia.
    + intros x y [? ?]. lia.
Qed.

(** ** C02 *)
Lemma tiles_disjoint_iff fl upwind ds tg :
  fl_ok fl -> good_raster upwind ds -> mk_tilegrid fl upwind ds = Ok tg ->
  (forall k k' w w' x y, 0 <= k < num_tiles tg -> 0 <= k' < num_tiles tg ->
     get_gridlimit tg k = Ok w -> get_gridlimit tg k' = Ok w' ->
     in_window w x y -> in_window w' x y -> k = k')
  <-> buffer_fits (r_xsize ds) (x_step tg) (x_buffer tg) /\
      buffer_fits (r_ysize ds) (y_step tg) (y_buffer tg).
Proof.
  intros Hfl Hg Hmk. pose proof Hg as (Dx & Dy & _).
  destruct (mk_tilegrid_inv fl upwind ds tg Hfl Hg Hmk)
    as (Ex & Ey & _ & _ & _ & _ & _ & _ & _ & _ & Sx & Sy & Bx & By & Ec & Er & En & El).
  pose proof (blocks_spec (r_xsize ds) (x_step tg) ltac:(lia) Sx) as (C & C1 & C2).
  pose proof (blocks_spec (r_ysize ds) (y_step tg) ltac:(lia) Sy) as (R & R1 & R2).
  rewrite <- Ec in C, C1, C2. rewrite <- Er in R, R1, R2.
  split.
  - intros D. split.
    + unfold buffer_fits.
      destruct (Z_le_gt_dec (r_xsize ds) (x_step tg)) as [|G]; [left; assumption|right].
      destruct (Z_lt_ge_dec (x_buffer tg) (last_width (r_xsize ds) (x_step tg))) as [|G2]; [assumption|exfalso].
      rewrite last_width_spec in G2 by lia. rewrite <- Ec in G2.
      set (n := subset_maxcols tg) in *. set (m := subset_maxrows tg) in *.
      assert (n >= 2) by nia.
      assert (Hk1 : 0 <= (n - 2) * m < num_tiles tg) by (rewrite En; nia).
      assert (Hk2 : 0 <= (n - 1) * m < num_tiles tg) by (rewrite En; nia).
      assert (A1 : (n-2) * m / m = n - 2) by (apply Z.div_mul; lia).
      assert (A2 : (n-1) * m / m = n - 1) by (apply Z.div_mul; lia).
      assert (M1 : (n-2) * m mod m = 0) by (apply Z.mod_mul; lia).
      assert (M2 : (n-1) * m mod m = 0) by (apply Z.mod_mul; lia).
      pose proof (get_gridlimit_eq fl upwind ds tg _ Hfl Hg Hmk Hk1) as G1.
      pose proof (get_gridlimit_eq fl upwind ds tg _ Hfl Hg Hmk Hk2) as G3.
      fold m in G1, G3. rewrite A1, M1 in G1. rewrite A2, M2 in G3.
      destruct (lim1_cases (n-2) (x_step tg) (x_buffer tg) (r_xsize ds) ltac:(lia) Sx Bx ltac:(lia)) as [X1 X2].
      destruct (lim1_cases (n-1) (x_step tg) (x_buffer tg) (r_xsize ds) ltac:(lia) Sx Bx ltac:(lia)) as [X3 X4].
      destruct (lim1_in_dim 0 (y_step tg) (y_buffer tg) (r_ysize ds) ltac:(lia) Sy By ltac:(lia)) as [Y1 Y2].
      assert ((n - 2) * m = (n - 1) * m); [|nia].
      eapply (D _ _ _ _ (r_xsize ds - 1) (fst (lim1 0 (y_step tg) (y_buffer tg) (y_dim tg))) Hk1 Hk2 G1 G3).
      * unfold in_window. rewrite Ex, Ey, X1, X2. split; [|lia].
        assert ((n - 2) * x_step tg < r_xsize ds) by nia.
        assert ((n - 2 + 1) * x_step tg = (n - 1) * x_step tg) by ring.
        destruct ((n - 2) * x_step tg - x_buffer tg <=? 0);
        destruct (r_xsize ds <=? (n - 2 + 1) * x_step tg + x_buffer tg) eqn:?; lia.
      * unfold in_window. rewrite Ex, Ey, X3, X4. split; [|lia].
        assert ((n - 1 + 1) * x_step tg = n * x_step tg) by ring.
        destruct ((n - 1) * x_step tg - x_buffer tg <=? 0);
        destruct (r_xsize ds <=? (n - 1 + 1) * x_step tg + x_buffer tg) eqn:?; lia.
    + unfold buffer_fits.
      destruct (Z_le_gt_dec (r_ysize ds) (y_step tg)) as [|G]; [left; assumption|right].
      destruct (Z_lt_ge_dec (y_buffer tg) (last_width (r_ysize ds) (y_step tg))) as [|G2]; [assumption|exfalso].
      rewrite last_width_spec in G2 by lia. rewrite <- Er in G2.
      set (n := subset_maxcols tg) in *. set (m := subset_maxrows tg) in *.
      assert (m >= 2) by nia.
      assert (Hk1 : 0 <= m - 2 < num_tiles tg) by (rewrite En; nia).
      assert (Hk2 : 0 <= m - 1 < num_tiles tg) by (rewrite En; nia).
      assert (A1 : (m - 2) / m = 0) by (apply Z.div_small; lia).
      assert (A2 : (m - 1) / m = 0) by (apply Z.div_small; lia).
      assert (M1 : (m - 2) mod m = m - 2) by (apply Z.mod_small; lia).
      assert (M2 : (m - 1) mod m = m - 1) by (apply Z.mod_small; lia).
      pose proof (get_gridlimit_eq fl upwind ds tg _ Hfl Hg Hmk Hk1) as G1.
      pose proof (get_gridlimit_eq fl upwind ds tg _ Hfl Hg Hmk Hk2) as G3.
      fold m in G1, G3. rewrite A1, M1 in G1. rewrite A2, M2 in G3.
      destruct (lim1_cases (m-2) (y_step tg) (y_buffer tg) (r_ysize ds) ltac:(lia) Sy By ltac:(lia)) as [X1 X2].
      destruct (lim1_cases (m-1) (y_step tg) (y_buffer tg) (r_ysize ds) ltac:(lia) Sy By ltac:(lia)) as [X3 X4].
      destruct (lim1_in_dim 0 (x_step tg) (x_buffer tg) (r_xsize ds) ltac:(lia) Sx Bx ltac:(lia)) as [Y1 Y2].
      assert (m - 2 = m - 1); [|lia].
      eapply (D _ _ _ _ (fst (lim1 0 (x_step tg) (x_buffer tg) (x_dim tg))) (r_ysize ds - 1) Hk1 Hk2 G1 G3).
      * unfold in_window. rewrite Ex, Ey, X1, X2. split; [lia|].
        assert ((m - 2) * y_step tg < r_ysize ds) by nia.
        assert ((m - 2 + 1) * y_step tg = (m - 1) * y_step tg) by ring.
        destruct ((m - 2) * y_step tg - y_buffer tg <=? 0);
        destruct (r_ysize ds <=? (m - 2 + 1) * y_step tg + y_buffer tg) eqn:?; lia.
      * unfold in_window. rewrite Ex, Ey, X3, X4. split; [lia|].
        assert ((m - 1 + 1) * y_step tg = m * y_step tg) by ring.
        destruct ((m - 1) * y_step tg - y_buffer tg <=? 0);
        destruct (r_ysize ds <=? (m - 1 + 1) * y_step tg + y_buffer tg) eqn:?; lia.
  - intros [Fx Fy] k k' w w' x y Hk Hk' G G' W W'.
    rewrite (get_gridlimit_eq fl upwind ds tg k) in G by assumption.
    rewrite (get_gridlimit_eq fl upwind ds tg k') in G' by assumption.
    apply (f_equal (fun r => match r with Ok a => a | Err _ => w end)) in G; cbv beta iota in G; subst w.
    apply (f_equal (fun r => match r with Ok a => a | Err _ => w' end)) in G'; cbv beta iota in G'; subst w'.
    destruct (tile_index_range fl upwind ds tg k Hfl Hg Hmk Hk) as (_ & Hi & Hj).
    destruct (tile_index_range fl upwind ds tg k' Hfl Hg Hmk Hk') as (_ & Hi' & Hj').
    unfold in_window in W, W'. rewrite Ex, Ey in W, W'.
    destruct (lim1_nominal _ _ _ (r_xsize ds) ltac:(lia) Sx Bx Fx Hi) as [E1 E2].
    destruct (lim1_nominal _ _ _ (r_xsize ds) ltac:(lia) Sx Bx Fx Hi') as [E1' E2'].
    destruct (lim1_nominal _ _ _ (r_ysize ds) ltac:(lia) Sy By Fy Hj) as [E3 E4].
    destruct (lim1_nominal _ _ _ (r_ysize ds) ltac:(lia) Sy By Fy Hj') as [E3' E4'].
    rewrite E1, E2, E3, E4 in W. rewrite E1', E2', E3', E4' in W'.
    set (m := subset_maxrows tg) in *.
    assert (k / m = k' / m).
    { clear - W W' Sx. set (i := k / m) in *. set (i' := k' / m) in *. clearbody i i'.
      assert (i * x_step tg < (i' + 1) * x_step tg) by lia.
      assert (i' * x_step tg < (i + 1) * x_step tg) by lia. nia. }
    assert (k mod m = k' mod m).
    { clear - W W' Sy. set (i := k mod m) in *. set (i' := k' mod m) in *. clearbody i i'.
      assert (i * y_step tg < (i' + 1) * y_step tg) by lia.
      assert (i' * y_step tg < (i + 1) * y_step tg) by lia. nia. }
    rewrite (Z.div_mod k m), (Z.div_mod k' m) by lia. congruence.
Qed.

(** Under the same condition each window is exactly the nominal tile. *)
Lemma tile_window_nominal fl upwind ds tg k :
  fl_ok fl -> good_raster upwind ds -> mk_tilegrid fl upwind ds = Ok tg ->
  buffer_fits (r_xsize ds) (x_step tg) (x_buffer tg) ->
  buffer_fits (r_ysize ds) (y_step tg) (y_buffer tg) ->
  0 <= k < num_tiles tg ->
  exists w, get_gridlimit tg k = Ok w /\
    forall x y, in_window w x y <->
      in_nominal ds (x_step tg) (y_step tg) (k / subset_maxrows tg) (k mod subset_maxrows tg) x y.
Proof.
  intros Hfl Hg Hmk Fx Fy Hk. pose proof Hg as (Dx & Dy & _).
  destruct (mk_tilegrid_inv fl upwind ds tg Hfl Hg Hmk)
    as (Ex & Ey & _ & _ & _ & _ & _ & _ & _ & _ & Sx & Sy & Bx & By & Ec & Er & En & El).
  rewrite (get_gridlimit_eq fl upwind ds) by assumption.
  eexists; split; [reflexivity|].
  destruct (tile_index_range fl upwind ds tg k Hfl Hg Hmk Hk) as (R & Hi & Hj).
  rewrite Ex, Ey. intros x y. unfold in_window, in_nominal, in_block.
  destruct (lim1_nominal _ _ _ (r_xsize ds) ltac:(lia) Sx Bx Fx Hi) as [-> ->].
  destruct (lim1_nominal _ _ _ (r_ysize ds) ltac:(lia) Sy By Fy Hj) as [-> ->].
  set (i := k / subset_maxrows tg) in *. set (j := k mod subset_maxrows tg) in *.
  rewrite !div_block by lia.
  assert (0 <= i * x_step tg) by (apply Z.mul_nonneg_nonneg; lia).
  assert (0 <= j * y_step tg) by (apply Z.mul_nonneg_nonneg; lia).
  clearbody i j. clear - H H0. lia.
Qed.

(** ** C03 *)
Lemma span_dilate i step buf dim p :
  0 < dim -> 0 < step -> 0 <= buf -> 0 <= i < blocks dim step ->
  (fst (span i step buf dim) <= p < snd (span i step buf dim) + 1) <->
  (0 <= p < dim /\ exists q, in_block dim step i q /\ Z.abs (p - q) <= buf).
Proof.
  intros Hd Hs Hb Hi. unfold span, in_block; simpl.
  pose proof (blocks_spec dim step Hd Hs) as (N & N1 & N2).
  assert (I1 : 0 <= i * step < dim) by nia.
  split.
  - intros H. split; [lia|].
    exists (Z.max (i * step) (Z.min p (Z.min ((i + 1) * step) dim - 1))).
    split; [split; [lia|]|lia].
    symmetry. apply Z.div_unique with (Z.max (i * step) (Z.min p (Z.min ((i + 1) * step) dim - 1)) - i * step); lia.
  - intros [Hp (q & (Hq & Hqi) & Ha)].
    assert (i * step <= q < (i + 1) * step) by nia. lia.
Qed.

Lemma buffered_window fl upwind ds tg k :
  fl_ok fl -> good_raster upwind ds -> mk_tilegrid fl upwind ds = Ok tg ->
  0 <= k < num_tiles tg ->
  exists w, get_gridlimit_buffer tg k = Ok w /\
    forall x y, in_window w x y <->
      (in_raster ds x y /\ exists x' y',
        in_nominal ds (x_step tg) (y_step tg) (k / subset_maxrows tg) (k mod subset_maxrows tg) x' y' /\
        Z.abs (x - x') <= x_buffer tg /\ Z.abs (y - y') <= y_buffer tg).
Proof.
  intros Hfl Hg Hmk Hk. pose proof Hg as (Dx & Dy & _).
  destruct (mk_tilegrid_inv fl upwind ds tg Hfl Hg Hmk)
    as (Ex & Ey & _ & _ & _ & _ & _ & _ & _ & _ & Sx & Sy & Bx & By & Ec & Er & En & El).
  destruct (tile_index_range fl upwind ds tg k Hfl Hg Hmk Hk) as (R & Hi & Hj).
  unfold get_gridlimit_buffer. rewrite (tilegrid_pyget fl upwind ds) by assumption. cbn [bind].
  eexists; split; [reflexivity|]. rewrite Ex, Ey. intros x y. unfold in_window.
  rewrite (span_dilate _ _ _ (r_xsize ds) x ltac:(lia) Sx Bx Hi).
  rewrite (span_dilate _ _ _ (r_ysize ds) y ltac:(lia) Sy By Hj).
  unfold in_raster, in_nominal. split.
  - intros [[Rx (x' & Ax & Bx')] [Ry (y' & Ay & By')]]. split; [split; assumption|].
    exists x', y'. repeat split; try assumption; apply Ax || apply Ay.
  - intros [[Rx Ry] (x' & y' & [Ax Ay] & Bx' & By')].
    split; (split; [assumption|]); [exists x' | exists y']; split; assumption.
Qed.

(** The buffered window contains the unbuffered one. *)
Lemma buffer_contains fl upwind ds tg k :
  fl_ok fl -> good_raster upwind ds -> mk_tilegrid fl upwind ds = Ok tg ->
  0 <= k < num_tiles tg ->
  exists x1 x2 y1 y2 X1 X2 Y1 Y2,
    get_gridlimit tg k = Ok (x1, x2, y1, y2) /\ get_gridlimit_buffer tg k = Ok (X1, X2, Y1, Y2) /\
    0 <= X1 <= x1 /\ x1 < x2 <= X2 /\ X2 <= r_xsize ds /\
    0 <= Y1 <= y1 /\ y1 < y2 <= Y2 /\ Y2 <= r_ysize ds.
Proof.
  intros Hfl Hg Hmk Hk. pose proof Hg as (Dx & Dy & _).
  destruct (mk_tilegrid_inv fl upwind ds tg Hfl Hg Hmk)
    as (Ex & Ey & _ & _ & _ & _ & _ & _ & _ & _ & Sx & Sy & Bx & By & Ec & Er & En & El).
  destruct (tile_index_range fl upwind ds tg k Hfl Hg Hmk Hk) as (R & Hi & Hj).
  rewrite (get_gridlimit_eq fl upwind ds) by assumption.
  unfold get_gridlimit_buffer. rewrite (tilegrid_pyget fl upwind ds) by assumption. cbn [bind].
  rewrite Ex, Ey.
  destruct (lim1_in_dim _ _ _ (r_xsize ds) ltac:(lia) Sx Bx Hi).
  destruct (lim1_in_dim _ _ _ (r_ysize ds) ltac:(lia) Sy By Hj).
  do 8 eexists. split; [reflexivity|]. split; [reflexivity|].
  revert H H0 H1 H2. unfold lim1, span. simpl.
  repeat match goal with |- context [if negb ?c then _ else _] => destruct c eqn:?; simpl end; lia.
Qed.

(** ** C04 *)
Lemma tile_index_errors fl upwind ds tg k :
  fl_ok fl -> good_raster upwind ds -> mk_tilegrid fl upwind ds = Ok tg ->
  (get_gridlimit tg k = Err IndexError <-> ~ (- num_tiles tg <= k < num_tiles tg)).
Proof.
  intros Hfl Hg Hmk.
  destruct (mk_tilegrid_inv fl upwind ds tg Hfl Hg Hmk)
    as (Ex & Ey & _ & _ & _ & _ & _ & _ & _ & _ & Sx & Sy & Bx & By & Ec & Er & En & El).
  pose proof Hg as (Dx & Dy & _).
  pose proof (blocks_spec (r_xsize ds) (x_step tg) ltac:(lia) Sx) as (C & _).
  pose proof (blocks_spec (r_ysize ds) (y_step tg) ltac:(lia) Sy) as (R & _).
  rewrite <- Ec in *. rewrite <- Er in *.
  assert (L : zlen (tg_xy tg) = num_tiles tg).
  { rewrite El. unfold tile_grid, zlen. rewrite app_length, repeat_length.
    match goal with |- Z.of_nat (length ?f + _)%nat = _ => assert (zlen f = subset_maxcols tg * subset_maxrows tg) end.
    { apply (grid_enum_length (fun i j => let '(x0, x1) := span i (x_step tg) (x_buffer tg) (x_dim tg) in
      let '(y0, y1) := span j (y_step tg) (y_buffer tg) (y_dim tg) in (x0,x1,y0,y1))); lia. }
    unfold zlen in H. lia. }
  unfold get_gridlimit, pyget, norm_index. rewrite L.
  destruct (k <? 0) eqn:K.
  - destruct ((0 <=? k + num_tiles tg) && (k + num_tiles tg <? num_tiles tg)) eqn:E.
    + destruct (nth_error (tg_xy tg) (Z.to_nat (k + num_tiles tg))) as [[[[? ?] ?] ?]|] eqn:N.
      * simpl. split; [discriminate|]. intros. lia.
      * apply nth_error_None in N. unfold zlen in L. lia.
    + simpl. split; [intros; lia|reflexivity].
  - destruct ((0 <=? k) && (k <? num_tiles tg)) eqn:E.
    + destruct (nth_error (tg_xy tg) (Z.to_nat k)) as [[[[? ?] ?] ?]|] eqn:N.
      * simpl. split; [discriminate|]. intros. lia.
      * apply nth_error_None in N. unfold zlen in L. lia.
    + simpl. split; [intros; lia|reflexivity].
Qed.

Lemma tile_sizes fl upwind ds tg :
  fl_ok fl -> good_raster upwind ds -> mk_tilegrid fl upwind ds = Ok tg ->
  num_tiles tg = blocks (r_xsize ds) (x_step tg) * blocks (r_ysize ds) (y_step tg) /\
  ((1 - u53) / gt1 ds <= inject_Z (x_step tg) /\ inject_Z (x_step tg) < (1 + u53) / gt1 ds + 1)%Q /\
  ((1 - u53) / - gt5 ds <= inject_Z (y_step tg) /\ inject_Z (y_step tg) < (1 + u53) / - gt5 ds + 1)%Q /\
  (upwind * (1 - u53) / gt1 ds - 1 < inject_Z (x_buffer tg) /\
    inject_Z (x_buffer tg) <= upwind * (1 + u53) / gt1 ds)%Q /\
  (upwind * (1 - u53) / - gt5 ds - 1 < inject_Z (y_buffer tg) /\
    inject_Z (y_buffer tg) <= upwind * (1 + u53) / - gt5 ds)%Q.
Proof.
  intros Hfl Hg Hmk. pose proof Hg as (Dx & Dy & Hw & Hh & Hu).
  destruct (mk_tilegrid_inv fl upwind ds tg Hfl Hg Hmk)
    as (Ex & Ey & _ & _ & _ & _ & Xs & Ys & Xb & Yb & Sx & Sy & Bx & By & Ec & Er & En & El).
  assert (Hh' : (0 < - gt5 ds)%Q) by lra.
  split; [congruence|].
  assert (G : forall a p, (0 <= a)%Q -> (0 < p)%Q ->
    (a * (1 - u53) / p <= fl (a / p) /\ fl (a / p) <= a * (1 + u53) / p)%Q).
  { intros a p Ha Hp. assert (N : (0 <= a / p)%Q) by (apply Qle_shift_div_l; lra).
    assert (B : (Qabs (a / p) <= a / p)%Q) by (rewrite Qabs_pos; lra).
    destruct (fl_bounds fl Hfl _ _ B).
    setoid_replace (a * (1 - u53) / p)%Q with (a / p - u53 * (a / p))%Q by (field; lra).
    setoid_replace (a * (1 + u53) / p)%Q with (a / p + u53 * (a / p))%Q by (field; lra).
    split; assumption. }
  rewrite Xs, Ys, Xb, Yb.
  destruct (G 1%Q (gt1 ds) ltac:(lra) Hw) as [G1 G2].
  destruct (G 1%Q (- gt5 ds)%Q ltac:(lra) Hh') as [G3 G4].
  destruct (G upwind (gt1 ds) Hu Hw) as [G5 G6].
  destruct (G upwind (- gt5 ds)%Q Hu Hh') as [G7 G8].
  rewrite Qmult_1_l in G1, G2, G3, G4.
  pose proof (Qceiling_spec (fl (1 / gt1 ds)%Q)). pose proof (Qceiling_spec (fl (1 / - gt5 ds)%Q)).
  pose proof (Qfloor_spec (fl (upwind / gt1 ds)%Q)). pose proof (Qfloor_spec (fl (upwind / - gt5 ds)%Q)).
  repeat split; lra.
Qed.
