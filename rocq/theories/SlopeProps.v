(** * Theorems about slope and aspect of the terrain (C68). *)
From Coq Require Import Reals Qreals.
From Verif Require Import Base BaseLemmas NameModel ShldModel ShldSpec ShldProofs Atan2 SlopeSpec SlopeProofs.
From Coq Require Import Lra.
Open Scope Z_scope.

(** The pixel's nine cells, heights [z]: the slope is the angle of the steepest rise. *)
Theorem C68_slope eps slope_fn aspect_fn nodata dem px py xm ym z r c : slope_close eps slope_fn ->
  ~ (px == 0)%Q -> ~ (py == 0)%Q -> ~ (g_at xm r c == 0)%Q -> ~ (g_at ym r c == 0)%Q ->
  0 <= r < g_rows dem -> 0 <= c < g_cols dem ->
  (forall a b, r - 1 <= a <= r + 1 -> c - 1 <= b <= c + 1 ->
     g_at dem (border (g_rows dem) a) (border (g_cols dem) b) = Num (z a b) /\ ~ no_height nodata (Num (z a b))) ->
  exists s, g_at (fst (get_slope_aspect slope_fn aspect_fn nodata dem px py xm ym)) r c = Num s /\
    (Rabs (Q2R s - degrees (atan (norm2 (Q2R (rise_east z (g_at xm r c) r c)) (Q2R (rise_north z (g_at ym r c) r c))))) <= eps)%R.
Proof.
  intros Hs Hx Hy Hxm Hym Hr Hc H. destruct (pixel_gradient nodata dem px py (g_at xm r c) (g_at ym r c) z r c) as (gx & gy & E1 & E2 & Ex & Ey & E0); try assumption.
  unfold get_slope_aspect. cbv zeta. cbn [fst g_at]. rewrite E0, E1, E2. eexists. split; [reflexivity|].
  rewrite (Qeq_eqR _ _ (Qeq_sym _ _ Ex)). replace (norm2 (Q2R gx) (Q2R (rise_north z (g_at ym r c) r c))) with (norm2 (Q2R gx) (Q2R gy)); [apply Hs|].
  rewrite (Qeq_eqR _ _ Ey), Q2R_opp. unfold norm2. f_equal. ring.
Qed.
Print Assumptions C68_slope.

(** The ground faces direction d when its downhill bearing is in d's sector (by more than
    the numerical error). *)
Theorem C68_faces_downhill eps slope_fn aspect_fn nodata dem px py xm ym z r c d b : (0 <= eps)%R -> aspect_close eps aspect_fn ->
  ~ (px == 0)%Q -> ~ (py == 0)%Q -> ~ (g_at xm r c == 0)%Q -> ~ (g_at ym r c == 0)%Q ->
  0 <= r < g_rows dem -> 0 <= c < g_cols dem ->
  (forall a b, r - 1 <= a <= r + 1 -> c - 1 <= b <= c + 1 ->
     g_at dem (border (g_rows dem) a) (border (g_cols dem) b) = Num (z a b) /\ ~ no_height nodata (Num (z a b))) ->
  let east := rise_east z (g_at xm r c) r c in let north := rise_north z (g_at ym r c) r c in
  (~ (east == 0) \/ ~ (north == 0))%Q ->
  downhill (Q2R east) (Q2R north) b -> (Q2R (bearing d) - 22.5 + eps <= b < Q2R (bearing d) + 22.5 - eps)%R ->
  g_at (snd (get_slope_aspect slope_fn aspect_fn nodata dem px py xm ym)) r c = dire_aspect d.
Proof.
  intros He Ha Hx Hy Hxm Hym Hr Hc H east north N D Hb.
  destruct (pixel_gradient nodata dem px py (g_at xm r c) (g_at ym r c) z r c) as (gx & gy & E1 & E2 & Ex & Ey & E0); try assumption.
  unfold get_slope_aspect. cbv zeta. cbn [snd g_at]. rewrite E1, E2. fold east in Ex. fold north in Ey.
  assert (Hgy : Q2R north = (- Q2R gy)%R) by (rewrite (Qeq_eqR _ _ Ey), Q2R_opp; ring).
  assert (Hgx : Q2R east = Q2R gx) by (rewrite (Qeq_eqR _ _ Ex); reflexivity).
  assert (N' : (~ (gx == 0) \/ ~ (gy == 0))%Q).
  { destruct N as [N|N]; [left; intros C; apply N; rewrite <- Ex; exact C|right; intros C; apply N]. rewrite C in Ey. 
    setoid_replace north with (- - north)%Q by ring. rewrite <- Ey. reflexivity. }
  destruct (Ha gx gy N') as (R & k & K). apply aspect_class; [exact R|]. 
  destruct (heading_downhill (Q2R gx) (Q2R gy) b) as (k' & K').
  - destruct N' as [N'|N']; [left|right]; apply Q2R_nonzero; exact N'.
  - rewrite <- Hgx, <- Hgy. exact D.
  - apply (bearing_sector eps d (aspect_fn gx gy) b He); [|exact Hb]. exists (k - k')%Z. rewrite K' in K. rewrite minus_IZR.
    replace (Q2R (aspect_fn gx gy) - b + 360 * (IZR k - IZR k'))%R with (Q2R (aspect_fn gx gy) - (b + 360 * IZR k') + 360 * IZR k)%R by ring. exact K.
Qed.
Print Assumptions C68_faces_downhill.

(** Slope and aspect are missing exactly when one of the nine cells is. *)
Theorem C68_missing slope_fn aspect_fn nodata dem px py xm ym r c :
  0 <= r < g_rows dem -> 0 <= c < g_cols dem ->
  (g_at (fst (get_slope_aspect slope_fn aspect_fn nodata dem px py xm ym)) r c = NaN <->
   exists a b, r - 1 <= a <= r + 1 /\ c - 1 <= b <= c + 1 /\ no_height nodata (g_at dem (border (g_rows dem) a) (border (g_cols dem) b))) /\
  ((exists a b, r - 1 <= a <= r + 1 /\ c - 1 <= b <= c + 1 /\ no_height nodata (g_at dem (border (g_rows dem) a) (border (g_cols dem) b))) ->
   g_at (snd (get_slope_aspect slope_fn aspect_fn nodata dem px py xm ym)) r c = 9).
Proof. intros Hr Hc. exact (slope_missing slope_fn aspect_fn nodata dem px py xm ym r c Hr Hc). Qed.
Print Assumptions C68_missing.

(** On a plane rising [e] per metre eastwards and [n] northwards those are the rises found, away
    from the raster's edge ... *)
Theorem C68_plane z h e n x y r c : ~ (x == 0)%Q -> ~ (y == 0)%Q ->
  (forall a b, z a b == h + e * (inject_Z b * x) - n * (inject_Z a * y))%Q ->
  (rise_east z x r c == e)%Q /\ (rise_north z y r c == n)%Q.
Proof.
  intros Hx Hy H. unfold rise_east, rise_north. rewrite !H. unfold Z.sub. rewrite !inject_Z_plus.
  change (inject_Z (Z.opp 1)) with (- (1))%Q. change (inject_Z 1) with 1%Q. split; field; assumption.
Qed.
Print Assumptions C68_plane.
(** ... and half of it at the edge, where the border pixel stands in for its neighbour. *)
Theorem C68_edge_refuted : exists (dem : grid num) (z : Z -> Z -> Q), 
  (forall a b, g_at dem (border (g_rows dem) a) (border (g_cols dem) b) = Num (z a b)) /\
  (forall a b, 0 <= a < g_rows dem -> 0 <= b < g_cols dem -> g_at dem a b = Num (inject_Z b)) /\
  (rise_east z 1 1 1 == 1)%Q /\ (rise_east z 1 1 0 == 1 # 2)%Q /\ 0 <= 0 < g_cols dem.
Proof.
  exists (Grid 3 3 (fun _ b => Num (inject_Z b))), (fun a b => inject_Z (border 3 b)). cbn [g_rows g_cols g_at].
  repeat split; try reflexivity; lia.
Qed.
Print Assumptions C68_edge_refuted.

(** Functions as close as 1/1000 degree exist, and on ground rising to the east they
    give the west-facing class. *)
Definition milli (v : R) : Q := inject_Z (up (1000 * v)) / 1000.
Lemma milli_close v : (v < Q2R (milli v) <= v + 1 / 1000)%R.
Proof.
  unfold milli. rewrite Q2R_div by discriminate. rewrite Q2R_inject. destruct (archimed (1000 * v)) as [A B].
  replace (Q2R 1000) with 1000%R by (unfold Q2R; cbn [Qnum Qden]; field). lra.
Qed.
Definition heading (x y : Q) : R := (450 - degrees (atan2 (Q2R y) (- Q2R x)))%R.
Definition heading360 (x y : Q) : R := if Rlt_dec (heading x y) 360 then heading x y else (heading x y - 360)%R.
Lemma heading360_range x y : (0 <= heading360 x y < 360)%R.
Proof.
  unfold heading360, heading. pose proof (atan2_range (Q2R y) (- Q2R x)) as [A B]. set (t := atan2 _ _) in *. pose proof PI_RGT_0 as P.
  assert (D : (-180 < degrees t <= 180)%R).
  { unfold degrees. split.
    - apply (Rmult_lt_reg_r PI); [exact P|]. replace (t * 180 / PI * PI)%R with (t * 180)%R by (field; lra). lra.
    - apply (Rmult_le_reg_r PI); [exact P|]. replace (t * 180 / PI * PI)%R with (t * 180)%R by (field; lra). lra. }
  destruct (Rlt_dec _ _); lra.
Qed.
Lemma milli_slope : slope_close (1 / 1000) (fun x y => milli (degrees (atan (norm2 (Q2R x) (Q2R y))))).
Proof. intros x y. pose proof (milli_close (degrees (atan (norm2 (Q2R x) (Q2R y))))). unfold Rabs. destruct (Rcase_abs _); lra. Qed.
Lemma milli_aspect : aspect_close (1 / 1000) (fun x y => milli (heading360 x y)).
Proof.
  intros x y _. pose proof (milli_close (heading360 x y)) as M. pose proof (heading360_range x y) as [L U]. split.
  - split; [apply Rle_Qle; replace (Q2R 0) with 0%R by (unfold Q2R; cbn [Qnum Qden]; field); lra|].
    unfold milli. apply Rle_Qle. rewrite Q2R_div by discriminate. rewrite Q2R_inject.
    replace (Q2R 1000) with 1000%R by (unfold Q2R; cbn [Qnum Qden]; field). replace (Q2R 360) with 360%R by (unfold Q2R; cbn [Qnum Qden]; field).
    assert (W : (up (1000 * heading360 x y) <= 360000)%Z).
    { destruct (archimed (1000 * heading360 x y)) as [A B]. apply Z.lt_succ_r, lt_IZR. rewrite succ_IZR. lra. }
    apply IZR_le in W. lra.
  - unfold heading360 in *. fold (heading x y). destruct (Rlt_dec _ _).
    + exists 0%Z. unfold Rabs. destruct (Rcase_abs _); lra.
    + exists 1%Z. unfold Rabs. destruct (Rcase_abs _); lra.
Qed.
Example C68_ex : exists slope_fn aspect_fn, slope_close (1 / 1000) slope_fn /\ aspect_close (1 / 1000) aspect_fn /\
  g_at (snd (get_slope_aspect slope_fn aspect_fn (Some (-99)%Q) (Grid 3 3 (fun _ b => Num (inject_Z b))) 1 1 (Grid 3 3 (fun _ _ => 25%Q)) (Grid 3 3 (fun _ _ => 25%Q)))) 1 1
  = dire_aspect W_.
Proof.
  eexists. eexists. split; [exact milli_slope|]. split; [exact milli_aspect|].
  apply (C68_faces_downhill (1 / 1000) _ _ _ _ _ _ _ _ (fun _ b => inject_Z b) 1 1 W_ 270); try lra; try lia; try discriminate.
  - exact milli_aspect.
  - cbn. lia.
  - cbn. lia.
  - intros a b Ha Hb. unfold border. cbn [g_rows g_cols g_at]. split; [do 2 f_equal; lia|]. cbn. 
    assert (X : b = 0 \/ b = 1 \/ b = 2) by lia. destruct X as [-> | [-> | ->]]; discriminate.
  - left. vm_compute. discriminate.
  - cbv zeta. set (e := rise_east _ _ _ _). set (n := rise_north _ _ _ _).
    assert (E : Q2R e = (/ 25)%R). { rewrite (Qeq_eqR e (1 # 25)) by reflexivity. unfold Q2R. cbn [Qnum Qden]. field. }
    assert (N : Q2R n = 0%R) by (apply Q2R_0; reflexivity). rewrite E, N. unfold downhill.
    assert (norm2 (/ 25) 0 = / 25)%R as ->. { unfold norm2. replace (/ 25 * / 25 + 0 * 0)%R with (Rsqr (/ 25)) by (unfold Rsqr; ring). rewrite sqrt_Rsqr by lra. reflexivity. }
    replace (270 * PI / 180)%R with (3 * (PI / 2))%R by field. rewrite sin_3PI2, cos_3PI2. split; ring.
  - replace (Q2R (bearing W_)) with 270%R by (unfold Q2R, bearing; cbn [Qnum Qden]; field). lra.
Qed.
