From Verif Require Import Base BaseLemmas TileModel TileSpec TileProofs ClipModel.
From Coq Require Import ZifyBool ZifyNat Qfield.
Open Scope Z_scope.

Lemma u53_val : u53 = (1 # 9007199254740992).
Proof. reflexivity. Qed.

Lemma Qabs_le_iff x b : (Qabs x <= b)%Q <-> (- b <= x /\ x <= b)%Q.
Proof. apply Qabs_Qle_condition. Qed.

Section Err.
  Context (fl : Q -> Q) (Hfl : fl_ok fl).

  Lemma fl_err x b : (- b <= x)%Q -> (x <= b)%Q -> (x - u53 * b <= fl x /\ fl x <= x + u53 * b)%Q.
  Proof. intros. apply fl_bounds; [assumption|]. apply Qabs_le_iff. lra. Qed.

  (** Coordinate of pixel edge n: error at most 3 units of 2^-53 times the bound. *)
  Lemma coord_err x0 p n N : (0 < p)%Q -> 0 <= n <= N ->
    (Qabs x0 + inject_Z N * p <= 1099511627776 * p)%Q ->
    (Qabs (fl (x0 + fl (inject_Z n * p)) - (x0 + inject_Z n * p)) <= p / 1024 / 2)%Q.
  Proof.
    intros Hp Hn HB.
    pose proof (Qabs_nonneg x0) as A0.
    pose proof (Qle_Qabs x0) as A1. pose proof (Qle_Qabs (- x0)) as A2. rewrite Qabs_opp in A2.
    assert (N0 : (0 <= inject_Z n)%Q) by (apply (inject_Z_le 0); lia).
    assert (N1 : (inject_Z n <= inject_Z N)%Q) by (apply inject_Z_le; lia).
    assert (M0 : (0 <= inject_Z n * p)%Q) by (apply Qmult_le_0_compat; lra).
    assert (M1 : (inject_Z n * p <= inject_Z N * p)%Q) by (apply Qmult_le_r; assumption).
    set (m := (inject_Z n * p)%Q) in *. set (B := (1099511627776 * p)%Q) in *.
    assert (HB' : B == 1099511627776 * p) by reflexivity.
    destruct (fl_err m B ltac:(lra) ltac:(lra)) as [E1 E2]. rewrite u53_val in E1, E2.
    destruct (fl_err (x0 + fl m)%Q (2 * B)%Q ltac:(lra) ltac:(lra)) as [E3 E4]. rewrite u53_val in E3, E4.
    apply Qabs_le_iff.
    setoid_replace (p / 1024 / 2)%Q with ((1 # 2048) * p)%Q by field.
    unfold B in *. lra.
  Qed.

  Lemma px_exact a b p n : (0 < p)%Q -> Z.abs n <= 2 ^ 45 ->
    (Qabs (a - b - inject_Z n * p) <= p / 4)%Q -> px fl a b p = n.
  Proof.
    intros Hp Hn He. unfold px. set (d := (a - b)%Q) in *.
    apply Qabs_le_iff in He.
    assert (N1 : (inject_Z n <= 35184372088832)%Q) by (change 35184372088832%Q with (inject_Z (2 ^ 45)); apply inject_Z_le; lia).
    assert (N2 : (-35184372088832 <= inject_Z n)%Q) by (change (-35184372088832)%Q with (inject_Z (- 2 ^ 45)); apply inject_Z_le; lia).
    assert (M1 : (inject_Z n * p <= 35184372088832 * p)%Q) by (apply Qmult_le_r; assumption).
    assert (M2 : (-35184372088832 * p <= inject_Z n * p)%Q) by (apply Qmult_le_r; assumption).
    setoid_replace (p / 4)%Q with ((1#4) * p)%Q in He by field.
    destruct (fl_err d (35184372088833 * p)%Q ltac:(lra) ltac:(lra)) as [E1 E2]. rewrite u53_val in E1, E2.
    set (d' := fl d) in *.
    assert (D1 : (inject_Z n - (1#3) <= d' / p)%Q) by (apply Qle_shift_div_l; [assumption|lra]).
    assert (D2 : (d' / p <= inject_Z n + (1#3))%Q) by (apply Qle_shift_div_r; [assumption|lra]).
    destruct (fl_err (d' / p)%Q 35184372088833%Q ltac:(lra) ltac:(lra)) as [E3 E4]. rewrite u53_val in E3, E4.
    apply np_around_near; lra.
  Qed.
End Err.

Lemma gslice_inside {A} (g : grid A) r0 r1 c0 c1 :
  0 <= r0 <= r1 -> r1 <= g_rows g -> 0 <= c0 <= c1 -> c1 <= g_cols g ->
  gslice g r0 r1 c0 c1 = Grid (r1 - r0) (c1 - c0) (fun i j => g_at g (r0 + i) (c0 + j)).
Proof.
  intros. unfold gslice, slice_bound.
  replace (r0 <? 0) with false by lia. replace (r1 <? 0) with false by lia.
  replace (c0 <? 0) with false by lia. replace (c1 <? 0) with false by lia.
  replace (Z.max 0 (Z.min r0 (g_rows g))) with r0 by lia.
  replace (Z.max 0 (Z.min r1 (g_rows g))) with r1 by lia.
  replace (Z.max 0 (Z.min c0 (g_cols g))) with c0 by lia.
  replace (Z.max 0 (Z.min c1 (g_cols g))) with c1 by lia.
  replace (Z.max 0 (r1 - r0)) with (r1 - r0) by lia.
  replace (Z.max 0 (c1 - c0)) with (c1 - c0) by lia. reflexivity.
Qed.

(** Distance of two coordinates computed from pixel edges m and n. *)
Lemma edge_diff fl x0 p m n N : fl_ok fl -> (0 < p)%Q -> 0 <= m <= N -> 0 <= n <= N ->
  (Qabs x0 + inject_Z N * p <= 1099511627776 * p)%Q ->
  (Qabs (fl (x0 + fl (inject_Z m * p)) - fl (x0 + fl (inject_Z n * p)) - inject_Z (m - n) * p) <= p / 1024)%Q.
Proof.
  intros Hfl Hp Hm Hn HB.
  pose proof (coord_err fl Hfl x0 p m N Hp Hm HB) as E1.
  pose proof (coord_err fl Hfl x0 p n N Hp Hn HB) as E2.
  apply Qabs_le_iff in E1. apply Qabs_le_iff in E2. apply Qabs_le_iff.
  rewrite inject_Z_minus.
  setoid_replace (p / 1024 / 2)%Q with ((1#2048) * p)%Q in E1 by field.
  setoid_replace (p / 1024 / 2)%Q with ((1#2048) * p)%Q in E2 by field.
  setoid_replace (p / 1024)%Q with ((1#1024) * p)%Q by field.
  lra.
Qed.

Section Clip.
  Context (fl : Q -> Q) (Hfl : fl_ok fl) (upwind : Q) (ds : raster) (tg : tilegrid).
  Context (Hg : good_raster upwind ds) (Hmk : mk_tilegrid fl upwind ds = Ok tg) (Hco : coords_ok ds).
  Context (k : Z) (Hk : 0 <= k < num_tiles tg).

  Lemma px_x m n : 0 <= m <= r_xsize ds -> 0 <= n <= r_xsize ds ->
    px fl (fl (x_left tg + fl (inject_Z m * pixelwidth tg))) (fl (x_left tg + fl (inject_Z n * pixelwidth tg)))%Q (pixelwidth tg) = m - n.
  Proof.
    destruct (mk_tilegrid_inv fl upwind ds tg Hfl Hg Hmk) as (_ & _ & El & Eu & Ew & Eh & _).
    pose proof Hg as (Dx & Dy & Hw & Hh & Hu). destruct Hco as [C1 C2].
    intros. rewrite El, Ew. apply px_exact; [assumption|assumption|lia|].
    eapply Qle_trans; [apply (edge_diff fl (gt0 ds) (gt1 ds) m n (r_xsize ds)); assumption|].
    setoid_replace (gt1 ds / 1024)%Q with ((1#1024) * gt1 ds)%Q by field.
    setoid_replace (gt1 ds / 4)%Q with ((1#4) * gt1 ds)%Q by field. lra.
  Qed.

  Lemma y_bound : (Qabs (- gt3 ds) + inject_Z (r_ysize ds) * - gt5 ds <= 1099511627776 * - gt5 ds)%Q.
  Proof. destruct Hco as [_ C2]. rewrite Qabs_opp. exact C2. Qed.

  Lemma px_y m n : 0 <= m <= r_ysize ds -> 0 <= n <= r_ysize ds ->
    px fl (- fl (y_upper tg + fl (inject_Z m * pixelheight tg)))%Q (- fl (y_upper tg + fl (inject_Z n * pixelheight tg)))%Q (pixelheight tg) = n - m.
  Proof.
    destruct (mk_tilegrid_inv fl upwind ds tg Hfl Hg Hmk) as (_ & _ & El & Eu & Ew & Eh & _).
    pose proof Hg as (Dx & Dy & Hw & Hh & Hu).
    intros Hm Hn. rewrite Eu, Eh. assert (Hh' : (0 < - gt5 ds)%Q) by lra.
    apply px_exact; [assumption|assumption|lia|].
    pose proof (edge_diff fl (- gt3 ds)%Q (- gt5 ds)%Q n m (r_ysize ds) Hfl Hh' Hn Hm y_bound) as E.
    apply Qabs_le_iff in E. apply Qabs_le_iff.
    setoid_replace (- gt5 ds / 1024)%Q with ((1#1024) * - gt5 ds)%Q in E by field.
    setoid_replace (- gt5 ds / 4)%Q with ((1#4) * - gt5 ds)%Q by field. lra.
  Qed.

  (** Lemma behind C05. *)
  Lemma clip_recovers :
    exists x1 x2 y1 y2 X1 X2 Y1 Y2 ext extb,
      get_gridlimit tg k = Ok (x1, x2, y1, y2) /\
      get_gridlimit_buffer tg k = Ok (X1, X2, Y1, Y2) /\
      get_tile_extent fl tg k = Ok ext /\
      get_tile_extent_buffer fl tg k = Ok extb /\
      clip_dataset_size fl extb (gt1 ds) (- gt5 ds) = (X2 - X1, Y2 - Y1) /\
      forall (A : Type) (data : grid A) (xl yu : Q),
        (Qabs (xl - fst (fst (fst extb))) <= gt1 ds / 8)%Q ->
        (Qabs (- yu - snd (fst (fst extb))) <= - gt5 ds / 8)%Q ->
        g_rows data = Y2 - Y1 -> g_cols data = X2 - X1 ->
        let out := clip_array fl data xl yu (gt1 ds) (- gt5 ds) ext in
        g_rows out = y2 - y1 /\ g_cols out = x2 - x1 /\
        (forall i j, 0 <= i < y2 - y1 -> 0 <= j < x2 - x1 ->
           in_grid data (y1 - Y1 + i) (x1 - X1 + j) /\
           g_at out i j = g_at data (y1 - Y1 + i) (x1 - X1 + j)).
  Proof.
    destruct (buffer_contains fl upwind ds tg k Hfl Hg Hmk Hk)
      as (x1 & x2 & y1 & y2 & X1 & X2 & Y1 & Y2 & GL & GB & Bx1 & Bx2 & Bx3 & By1 & By2 & By3).
    destruct (mk_tilegrid_inv fl upwind ds tg Hfl Hg Hmk) as (_ & _ & El & Eu & Ew & Eh & _).
    pose proof Hg as (Dx & Dy & Hw & Hh & Hu). assert (Hh' : (0 < - gt5 ds)%Q) by lra.
    exists x1, x2, y1, y2, X1, X2, Y1, Y2.
    exists (extent_of fl tg (x1, x2, y1, y2)), (extent_of fl tg (X1, X2, Y1, Y2)).
    split; [exact GL|]. split; [exact GB|].
    unfold get_tile_extent, get_tile_extent_buffer. rewrite GL, GB.
    split; [reflexivity|]. split; [reflexivity|].
    rewrite <- Ew, <- Eh. split.
    { unfold clip_dataset_size, extent_of. rewrite px_x, px_y by lia. reflexivity. }
    intros A data xl yu Hxl Hyu Hr Hc. unfold extent_of in Hxl, Hyu. cbn [fst snd] in Hxl, Hyu.
    assert (PX : px fl (fl (x_left tg + fl (inject_Z x1 * pixelwidth tg)))%Q xl (pixelwidth tg) = x1 - X1).
    { rewrite El, Ew in *. apply px_exact; [assumption|assumption|lia|].
      pose proof (edge_diff fl (gt0 ds) (gt1 ds) x1 X1 (r_xsize ds) Hfl Hw ltac:(lia) ltac:(lia) ltac:(apply Hco)) as E.
      apply Qabs_le_iff in E. apply Qabs_le_iff in Hxl. apply Qabs_le_iff.
      setoid_replace (gt1 ds / 1024)%Q with ((1#1024) * gt1 ds)%Q in E by field.
      setoid_replace (gt1 ds / 8)%Q with ((1#8) * gt1 ds)%Q in Hxl by field.
      setoid_replace (gt1 ds / 4)%Q with ((1#4) * gt1 ds)%Q by field. lra. }
    assert (PY : px fl (- yu)%Q (- fl (y_upper tg + fl (inject_Z y1 * pixelheight tg)))%Q (pixelheight tg) = y1 - Y1).
    { rewrite Eu, Eh in *. apply px_exact; [assumption|assumption|lia|].
      pose proof (edge_diff fl (- gt3 ds)%Q (- gt5 ds)%Q y1 Y1 (r_ysize ds) Hfl Hh' ltac:(lia) ltac:(lia) y_bound) as E.
      apply Qabs_le_iff in E. apply Qabs_le_iff in Hyu. apply Qabs_le_iff.
      setoid_replace (- gt5 ds / 1024)%Q with ((1#1024) * - gt5 ds)%Q in E by field.
      setoid_replace (- gt5 ds / 8)%Q with ((1#8) * - gt5 ds)%Q in Hyu by field.
      setoid_replace (- gt5 ds / 4)%Q with ((1#4) * - gt5 ds)%Q by field. lra. }
    unfold clip_array, extent_of. rewrite PX, PY, px_x, px_y by lia.
    rewrite gslice_inside by lia. cbn [g_rows g_cols g_at].
    split; [lia|]. split; [lia|]. intros i j Hi Hj. unfold in_grid. rewrite Hr, Hc.
    split; [lia|]. reflexivity.
  Qed.

  Lemma centre_err x0 c p n : (0 < p)%Q -> 0 <= n < 2 ^ 31 ->
    (Qabs c <= 1099511627776 * p)%Q -> (Qabs (c - x0) <= p / 1024 / 2)%Q ->
    (Qabs (fl (fl (c + fl ((1#2) * p)) + fl (inject_Z n * p)) - (x0 + (inject_Z n + (1#2)) * p)) <= p / 512)%Q.
  Proof.
    intros Hp Hn Hc He. apply Qabs_le_iff in Hc. apply Qabs_le_iff in He. apply Qabs_le_iff.
    assert (N0 : (0 <= inject_Z n)%Q) by (apply (inject_Z_le 0); lia).
    assert (N1 : (inject_Z n <= 2147483648)%Q) by (change 2147483648%Q with (inject_Z (2^31)); apply inject_Z_le; lia).
    assert (M0 : (0 <= inject_Z n * p)%Q) by (apply Qmult_le_0_compat; lra).
    assert (M1 : (inject_Z n * p <= 2147483648 * p)%Q) by (apply Qmult_le_r; assumption).
    set (m := (inject_Z n * p)%Q) in *.
    setoid_replace ((inject_Z n + (1#2)) * p)%Q with (m + (1#2) * p)%Q by (unfold m; ring).
    setoid_replace (p / 1024 / 2)%Q with ((1#2048) * p)%Q in He by field.
    setoid_replace (p / 512)%Q with ((1#512) * p)%Q by field.
    set (P := (1099511627776 * p)%Q) in *. assert (HP : P == 1099511627776 * p) by reflexivity. clearbody P.
    destruct (fl_err fl Hfl ((1#2) * p)%Q P ltac:(lra) ltac:(lra)) as [E1 E2]. rewrite u53_val in E1, E2.
    destruct (fl_err fl Hfl m P ltac:(lra) ltac:(lra)) as [E3 E4]. rewrite u53_val in E3, E4.
    set (h := fl ((1#2) * p)%Q) in *. set (m' := fl m) in *.
    destruct (fl_err fl Hfl (c + h)%Q (2 * P)%Q ltac:(lra) ltac:(lra)) as [E5 E6]. rewrite u53_val in E5, E6.
    set (ch := fl (c + h)%Q) in *.
    destruct (fl_err fl Hfl (ch + m')%Q (4 * P)%Q ltac:(lra) ltac:(lra)) as [E7 E8]. rewrite u53_val in E7, E8.
    lra.
  Qed.

  Lemma centre_err_neg x0 c p n : (0 < p)%Q -> 0 <= n < 2 ^ 31 ->
    (Qabs c <= 1099511627776 * p)%Q -> (Qabs (c - x0) <= p / 1024 / 2)%Q ->
    (Qabs (fl (fl (- - c - fl ((1#2) * p)) - fl (inject_Z n * p)) - (x0 - (inject_Z n + (1#2)) * p)) <= p / 512)%Q.
  Proof.
    intros Hp Hn Hc He. apply Qabs_le_iff in Hc. apply Qabs_le_iff in He. apply Qabs_le_iff.
    assert (N0 : (0 <= inject_Z n)%Q) by (apply (inject_Z_le 0); lia).
    assert (N1 : (inject_Z n <= 2147483648)%Q) by (change 2147483648%Q with (inject_Z (2^31)); apply inject_Z_le; lia).
    assert (M0 : (0 <= inject_Z n * p)%Q) by (apply Qmult_le_0_compat; lra).
    assert (M1 : (inject_Z n * p <= 2147483648 * p)%Q) by (apply Qmult_le_r; assumption).
    set (m := (inject_Z n * p)%Q) in *.
    setoid_replace ((inject_Z n + (1#2)) * p)%Q with (m + (1#2) * p)%Q by (unfold m; ring).
    setoid_replace (p / 1024 / 2)%Q with ((1#2048) * p)%Q in He by field.
    setoid_replace (p / 512)%Q with ((1#512) * p)%Q by field.
    set (P := (1099511627776 * p)%Q) in *. assert (HP : P == 1099511627776 * p) by reflexivity. clearbody P.
    destruct (fl_err fl Hfl ((1#2) * p)%Q P ltac:(lra) ltac:(lra)) as [E1 E2]. rewrite u53_val in E1, E2.
    destruct (fl_err fl Hfl m P ltac:(lra) ltac:(lra)) as [E3 E4]. rewrite u53_val in E3, E4.
    set (h := fl ((1#2) * p)%Q) in *. set (m' := fl m) in *.
    destruct (fl_err fl Hfl (- - c - h)%Q (2 * P)%Q ltac:(lra) ltac:(lra)) as [E5 E6]. rewrite u53_val in E5, E6.
    set (ch := fl (- - c - h)%Q) in *.
    destruct (fl_err fl Hfl (ch - m')%Q (4 * P)%Q ltac:(lra) ltac:(lra)) as [E7 E8]. rewrite u53_val in E7, E8.
    lra.
  Qed.

  (** Lemma behind C06. *)
  Lemma lat_lon_centres :
    exists x1 x2 y1 y2 ext lon lat,
      get_gridlimit tg k = Ok (x1, x2, y1, y2) /\
      get_tile_extent fl tg k = Ok ext /\
      get_lat_lon fl ext (gt1 ds) (- gt5 ds) = (lon, lat) /\
      zlen lon = x2 - x1 /\ zlen lat = y2 - y1 /\
      (forall j, 0 <= j < x2 - x1 -> exists v, nth_error lon (Z.to_nat j) = Some v /\
         (Qabs (v - (gt0 ds + (inject_Z (x1 + j) + (1#2)) * gt1 ds)) <= gt1 ds / 512)%Q) /\
      (forall i, 0 <= i < y2 - y1 -> exists v, nth_error lat (Z.to_nat i) = Some v /\
         (Qabs (v - (gt3 ds + (inject_Z (y1 + i) + (1#2)) * gt5 ds)) <= - gt5 ds / 512)%Q).
  Proof.
    destruct (buffer_contains fl upwind ds tg k Hfl Hg Hmk Hk)
      as (x1 & x2 & y1 & y2 & X1 & X2 & Y1 & Y2 & GL & GB & Bx1 & Bx2 & Bx3 & By1 & By2 & By3).
    destruct (mk_tilegrid_inv fl upwind ds tg Hfl Hg Hmk) as (_ & _ & El & Eu & Ew & Eh & _).
    pose proof Hg as (Dx & Dy & Hw & Hh & Hu). assert (Hh' : (0 < - gt5 ds)%Q) by lra.
    exists x1, x2, y1, y2, (extent_of fl tg (x1, x2, y1, y2)). do 2 eexists.
    split; [exact GL|]. unfold get_tile_extent. rewrite GL. split; [reflexivity|].
    rewrite <- Ew, <- Eh. split; [unfold get_lat_lon, extent_of; reflexivity|].
    rewrite px_x, px_y by lia.
    split; [unfold zlen; rewrite map_length, zrange_length; lia|].
    split; [unfold zlen; rewrite map_length, zrange_length; lia|].
    split.
    - intros j Hj. rewrite nth_error_map, zrange_nth_error by lia. cbn [option_map].
      eexists; split; [reflexivity|].
      rewrite El, Ew.
      pose proof (coord_err fl Hfl (gt0 ds) (gt1 ds) x1 (r_xsize ds) Hw ltac:(lia) ltac:(apply Hco)) as E.
      set (c := fl (gt0 ds + fl (inject_Z x1 * gt1 ds))%Q) in *.
      setoid_replace (gt0 ds + (inject_Z (x1 + j) + (1#2)) * gt1 ds)%Q
        with ((gt0 ds + inject_Z x1 * gt1 ds) + (inject_Z j + (1#2)) * gt1 ds)%Q
        by (rewrite inject_Z_plus; ring).
      apply centre_err; [assumption|lia| |exact E].
      destruct Hco as [C1 _].
      assert (X : (inject_Z x1 * gt1 ds <= inject_Z (r_xsize ds - 1) * gt1 ds)%Q)
        by (apply Qmult_le_r; [assumption|apply inject_Z_le; lia]).
      assert (X0 : (0 <= inject_Z x1 * gt1 ds)%Q) by (apply Qmult_le_0_compat; [apply (inject_Z_le 0); lia|lra]).
      rewrite inject_Z_minus in X. change (inject_Z 1) with 1%Q in X.
      pose proof (Qle_Qabs (gt0 ds)). pose proof (Qle_Qabs (- gt0 ds)) as A2. rewrite Qabs_opp in A2.
      apply Qabs_le_iff in E. apply Qabs_le_iff.
      setoid_replace (gt1 ds / 1024 / 2)%Q with ((1#2048) * gt1 ds)%Q in E by field. lra.
    - intros i Hi. rewrite nth_error_map, zrange_nth_error by lia. cbn [option_map].
      eexists; split; [reflexivity|].
      rewrite Eu, Eh.
      pose proof (coord_err fl Hfl (- gt3 ds)%Q (- gt5 ds)%Q y1 (r_ysize ds) Hh' ltac:(lia) y_bound) as E.
      set (c := fl (- gt3 ds + fl (inject_Z y1 * - gt5 ds))%Q) in *.
      setoid_replace (gt3 ds + (inject_Z (y1 + i) + (1#2)) * gt5 ds)%Q
        with (- (- gt3 ds + inject_Z y1 * - gt5 ds) - (inject_Z i + (1#2)) * - gt5 ds)%Q
        by (rewrite inject_Z_plus; ring).
      apply centre_err_neg; [assumption|lia| |].
      + pose proof y_bound as C1.
        assert (X : (inject_Z y1 * - gt5 ds <= inject_Z (r_ysize ds - 1) * - gt5 ds)%Q)
          by (apply Qmult_le_r; [assumption|apply inject_Z_le; lia]).
        assert (X0 : (0 <= inject_Z y1 * - gt5 ds)%Q) by (apply Qmult_le_0_compat; [apply (inject_Z_le 0); lia|lra]).
        rewrite inject_Z_minus in X. change (inject_Z 1) with 1%Q in X.
        pose proof (Qle_Qabs (- gt3 ds)). pose proof (Qle_Qabs (- - gt3 ds)) as A2. rewrite Qabs_opp in A2.
        apply Qabs_le_iff in E. apply Qabs_le_iff.
        setoid_replace (- gt5 ds / 1024 / 2)%Q with ((1#2048) * - gt5 ds)%Q in E by field. lra.
      + apply Qabs_le_iff in E. apply Qabs_le_iff. lra.
  Qed.
End Clip.

(** With exact arithmetic the coordinates are exactly the pixel centres. *)
Lemma lat_lon_exact upwind ds tg k :
  good_raster upwind ds -> mk_tilegrid (fun x => x) upwind ds = Ok tg ->
  0 <= k < num_tiles tg -> coords_ok ds ->
  exists x1 x2 y1 y2 ext lon lat,
    get_gridlimit tg k = Ok (x1, x2, y1, y2) /\
    get_tile_extent (fun x => x) tg k = Ok ext /\
    get_lat_lon (fun x => x) ext (gt1 ds) (- gt5 ds) = (lon, lat) /\
    zlen lon = x2 - x1 /\ zlen lat = y2 - y1 /\
    (forall j v, nth_error lon (Z.to_nat j) = Some v -> 0 <= j ->
       (v == gt0 ds + (inject_Z (x1 + j) + (1#2)) * gt1 ds)%Q) /\
    (forall i v, nth_error lat (Z.to_nat i) = Some v -> 0 <= i ->
       (v == gt3 ds + (inject_Z (y1 + i) + (1#2)) * gt5 ds)%Q).
Proof.
  intros Hg Hmk Hk Hco.
  destruct (lat_lon_centres (fun x => x) fl_ok_id upwind ds tg Hg Hmk Hco k Hk)
    as (x1 & x2 & y1 & y2 & ext & lon & lat & GL & GE & LL & L1 & L2 & _).
  exists x1, x2, y1, y2, ext, lon, lat. repeat (split; [assumption|]).
  destruct (mk_tilegrid_inv (fun x => x) upwind ds tg fl_ok_id Hg Hmk) as (_ & _ & El & Eu & Ew & Eh & _).
  unfold get_tile_extent in GE. rewrite GL in GE. cbn [bind] in GE.
  assert (GE' : extent_of (fun x => x) tg (x1, x2, y1, y2) = ext) by congruence. clear GE. subst ext.
  unfold get_lat_lon, extent_of in LL. rewrite El, Eu, Ew, Eh in LL.
  assert (A : forall (f : Z -> Q) n j v, nth_error (map f (zrange n)) (Z.to_nat j) = Some v -> 0 <= j -> v = f j).
  { intros f n j v E Hj. rewrite nth_error_map in E.
    destruct (nth_error (zrange n) (Z.to_nat j)) as [z|] eqn:Z; [|discriminate].
    assert (R : 0 <= j < n).
    { split; [lia|]. assert (N : nth_error (zrange n) (Z.to_nat j) <> None) by congruence.
      apply nth_error_Some in N. rewrite zrange_length in N. lia. }
    rewrite zrange_nth_error in Z by exact R. cbn [option_map] in E. congruence. }
  split.
  - intros j v E Hj. apply (f_equal fst) in LL. cbn [fst] in LL. rewrite <- LL in E.
    rewrite (A _ _ _ _ E Hj). rewrite inject_Z_plus. ring.
  - intros j v E Hj. apply (f_equal snd) in LL. cbn [snd] in LL. rewrite <- LL in E.
    rewrite (A _ _ _ _ E Hj). rewrite inject_Z_plus. ring.
Qed.
