(** * Property theorems: grid interpolation and pixel sizes (C48-C50). *)
From Verif Require Import Base BaseLemmas BlrbModel BlrbSpec BlrbProofs.
Open Scope Z_scope.

(** ** C48: bilinear interpolation of a block *)

(** The block has the requested shape and reproduces its corners exactly. *)
Theorem C48_corners : forall m n ul ur lr ll, 2 <= m -> 2 <= n ->
  let b := bilinear (inject_Z m) (inject_Z n) ul ur lr ll in
  g_rows b = m /\ g_cols b = n /\
  (exists v, g_at b 0 0 = Num v /\ v == ul)%Q /\ (exists v, g_at b 0 (n - 1) = Num v /\ v == ur)%Q /\
  (exists v, g_at b (m - 1) 0 = Num v /\ v == ll)%Q /\ (exists v, g_at b (m - 1) (n - 1) = Num v /\ v == lr)%Q.
Proof.
  intros m n ul ur lr ll Hm Hn b.
  assert (N : forall k, 2 <= k -> ~ (inject_Z k == 1)%Q) by (intros k Hk X; assert (inject_Z 2 <= inject_Z k)%Q by (rewrite <- Zle_Qle; lia); change (inject_Z 2) with 2%Q in *; lra).
  assert (O : forall k, 2 <= k -> (inject_Z (k - 1) / (inject_Z k - 1) == 1)%Q) by (intros k Hk; rewrite inject_Z_minus; change (inject_Z 1) with 1%Q; field; pose proof (N k Hk); lra).
  assert (Z : forall q, (inject_Z 0 / q == 0)%Q) by (intros q; change (inject_Z 0) with 0%Q; unfold Qdiv; ring).
  split; [apply Qceiling_Z|]. split; [apply Qceiling_Z|]. unfold b.
  repeat split; match goal with |- exists v, g_at _ ?i ?j = Num v /\ _ => destruct (bilinear_at (inject_Z m) (inject_Z n) ul ur lr ll i j (N m Hm) (N n Hn)) as (v & E & X); exists v; split; [exact E|]; rewrite X; unfold bilin, lerp; rewrite ?Z, ?(O m Hm), ?(O n Hn); ring end.
Qed.

(** Every cell is a number between the smallest and the largest corner value. *)
Theorem C48_between : forall m n ul ur lr ll lo hi i j, 2 <= m -> 2 <= n -> 0 <= i < m -> 0 <= j < n ->
  (lo <= ul <= hi -> lo <= ur <= hi -> lo <= lr <= hi -> lo <= ll <= hi ->
   exists v, g_at (bilinear (inject_Z m) (inject_Z n) ul ur lr ll) i j = Num v /\ lo <= v <= hi)%Q.
Proof.
  intros m n ul ur lr ll lo hi i j Hm Hn Hi Hj H1 H2 H3 H4.
  assert (P : forall k, 2 <= k -> (0 < inject_Z k - 1)%Q) by (intros k Hk; assert (inject_Z 2 <= inject_Z k)%Q by (rewrite <- Zle_Qle; lia); change (inject_Z 2) with 2%Q in *; lra).
  assert (F : forall k x, 2 <= k -> 0 <= x < k -> (0 <= inject_Z x / (inject_Z k - 1) <= 1)%Q).
  { intros k x Hk Hx. apply frac_01; [apply P; exact Hk|rewrite <- (Zle_Qle 0); lia|]. assert (inject_Z x <= inject_Z (k - 1))%Q as Y by (rewrite <- Zle_Qle; lia). rewrite inject_Z_minus in Y. exact Y. }
  destruct (bilinear_at (inject_Z m) (inject_Z n) ul ur lr ll i j) as (v & E & X); [pose proof (P m Hm); lra|pose proof (P n Hn); lra|].
  exists v. split; [exact E|]. rewrite X. apply bilin_between; auto.
Qed.

(** The interpolation is exact for every function of the form a + b i + c j + d i j. *)
Theorem C48_exact : forall m n a b c d i j, 2 <= m -> 2 <= n ->
  let f := fun i j => (a + b * inject_Z i + c * inject_Z j + d * inject_Z i * inject_Z j)%Q in
  exists v, g_at (bilinear (inject_Z m) (inject_Z n) (f 0 0) (f 0 (n - 1)) (f (m - 1) (n - 1)) (f (m - 1) 0)) i j = Num v /\ (v == f i j)%Q.
Proof.
  intros m n a b c d i j Hm Hn f.
  assert (P : forall k, 2 <= k -> (0 < inject_Z k - 1)%Q) by (intros k Hk; assert (inject_Z 2 <= inject_Z k)%Q by (rewrite <- Zle_Qle; lia); change (inject_Z 2) with 2%Q in *; lra).
  pose proof (P m Hm). pose proof (P n Hn).
  destruct (bilinear_at (inject_Z m) (inject_Z n) (f 0 0) (f 0 (n - 1)) (f (m - 1) (n - 1)) (f (m - 1) 0) i j) as (v & E & X); [lra|lra|].
  exists v. split; [exact E|]. rewrite X. unfold f, bilin, lerp. rewrite !inject_Z_minus. change (inject_Z 0) with 0%Q. change (inject_Z 1) with 1%Q. field. lra.
Qed.

(** A block one cell high or wide holds no number at all. *)
Theorem C48_degenerate_refuted : forall m n ul ur lr ll i j, m = 1 \/ n = 1 -> g_at (bilinear (inject_Z m) (inject_Z n) ul ur lr ll) i j = NaN.
Proof.
  intros m n ul ur lr ll i j [-> | ->]; unfold bilinear, ogrid_pos; cbn [g_at]; change (Qeq_bool (inject_Z 1 - 1) 0) with true; cbn iota; [reflexivity|].
  destruct (if Qeq_bool (inject_Z m - 1) 0 then None else _); reflexivity.
Qed.

Example C48_example : exists v, g_at (bilinear (inject_Z 3) (inject_Z 5) 0 4 12 8) 1 1 = Num v /\ (v == 5)%Q.
Proof. eexists. split; [reflexivity|]. reflexivity. Qed.

(** ** C49: interpolation by one bisection (the depth the program uses) *)

(** What every cell of every grid of at least 3 x 3 cells becomes. *)
Theorem C49_closed_form : forall f g, 3 <= g_rows g -> 3 <= g_cols g ->
  exists g', interpolate_grid 1 0 0 (inject_Z (g_rows g)) (inject_Z (g_cols g)) f g = Ok g' /\ g_rows g' = g_rows g /\ g_cols g' = g_cols g /\
    forall r c, 0 <= r < g_rows g -> 0 <= c < g_cols g -> exists v, g_at g' r c = Num v /\ (v == bisected f (g_rows g) (g_cols g) r c)%Q.
Proof. exact bisect_spec. Qed.

(** Even sizes: the nine sampled cells are exact and no cell leaves the range
    of the sampled values. *)
Theorem C49_even : forall f g k l lo hi, 2 <= k -> 2 <= l -> g_rows g = 2 * k -> g_cols g = 2 * l ->
  (forall i j, node (2 * k) i -> node (2 * l) j -> lo <= f i j <= hi)%Q ->
  exists g', interpolate_grid 1 0 0 (inject_Z (2 * k)) (inject_Z (2 * l)) f g = Ok g' /\
    (forall r c, node (2 * k) r -> node (2 * l) c -> exists v, g_at g' r c = Num v /\ (v == f r c)%Q) /\
    (forall r c, 0 <= r < 2 * k -> 0 <= c < 2 * l -> exists v, g_at g' r c = Num v /\ (lo <= v <= hi)%Q).
Proof.
  intros f g k l lo hi Hk Hl Er Ec H. destruct (bisect_spec f g) as (g' & E & _ & _ & A); [lia|lia|]. rewrite Er, Ec in E, A.
  exists g'. split; [exact E|]. split.
  - intros r c Hr Hc. assert (0 <= r < 2 * k) by (unfold node in Hr; rewrite div_even in Hr; lia). assert (0 <= c < 2 * l) by (unfold node in Hc; rewrite div_even in Hc; lia).
    destruct (A r c) as (v & Ev & X); [assumption|assumption|]. exists v. split; [exact Ev|]. rewrite X. apply bisected_node; assumption.
  - intros r c Hr Hc. destruct (A r c Hr Hc) as (v & Ev & X). exists v. split; [exact Ev|]. rewrite X. apply bisected_between; assumption.
Qed.

(** Odd sizes: interpolating the row number itself overshoots the last row, by
    k / (2 k - 1) for 2 k + 1 rows; the last row is a sampled row. *)
Theorem C49_odd_refuted : forall g k c, 1 <= k -> g_rows g = 2 * k + 1 -> 3 <= g_cols g -> 0 <= c < g_cols g ->
  exists g' v, interpolate_grid 1 0 0 (inject_Z (g_rows g)) (inject_Z (g_cols g)) (fun i _ => inject_Z i) g = Ok g' /\
    g_at g' (2 * k) c = Num v /\ (v == inject_Z (2 * k) + inject_Z k / inject_Z (2 * k - 1))%Q /\ (inject_Z (2 * k) < v)%Q.
Proof.
  intros g k c Hk Er Hc Ic. destruct (bisect_spec (fun i _ => inject_Z i) g) as (g' & E & _ & _ & A); [lia|exact Hc|].
  destruct (A (2 * k) c ltac:(lia) Ic) as (v & Ev & X). exists g', v. split; [exact E|]. split; [exact Ev|].
  assert (D : (2 * k + 1) / 2 = k) by (replace (2 * k + 1) with (1 + k * 2) by lia; rewrite Z.div_add by lia; reflexivity).
  assert (P : (1 <= inject_Z k)%Q) by (change 1%Q with (inject_Z 1); rewrite <- Zle_Qle; lia).
  assert (V : (v == inject_Z (2 * k) + inject_Z k / inject_Z (2 * k - 1))%Q).
  { rewrite X. rewrite Er. unfold bisected, bilin, lerp. cbv beta. generalize (position (g_cols g) c). intros t. unfold first_row, last_row, position, half. rewrite D. destruct (Z.ltb_spec (2 * k) k); [lia|].
    replace (2 * k + 1 - 1) with (2 * k) by lia. replace (2 * k - k) with k by lia. replace (2 * k - 1) with (2 * k + (-1)) by lia. rewrite !inject_Z_plus, !inject_Z_mult. change (inject_Z (-1)) with (-1#1)%Q. change (inject_Z 2) with 2%Q. change (inject_Z 1) with 1%Q. field. repeat split; lra. }
  split; [exact V|]. rewrite V. assert (Q0 : (0 < inject_Z k / inject_Z (2 * k - 1))%Q); [|lra].
  apply Qlt_shift_div_l; [rewrite <- (Zlt_Qlt 0); lia|lra].
Qed.

(** A constant is reproduced at every cell of a grid of at least 3 x 3 cells. *)
Theorem C49_constant : forall f q g, (forall i j, f i j == q)%Q -> 3 <= g_rows g -> 3 <= g_cols g ->
  exists g', interpolate_grid 1 0 0 (inject_Z (g_rows g)) (inject_Z (g_cols g)) f g = Ok g' /\
    forall r c, 0 <= r < g_rows g -> 0 <= c < g_cols g -> exists v, g_at g' r c = Num v /\ (v == q)%Q.
Proof.
  intros f q g H Hr Hc. destruct (bisect_spec f g Hr Hc) as (g' & E & _ & _ & A). exists g'. split; [exact E|]. intros r c Ir Ic.
  destruct (A r c Ir Ic) as (v & Ev & X). exists v. split; [exact Ev|]. rewrite X. apply bisected_const. exact H.
Qed.

(** At every depth, origin and shape: a cell is left alone, or NaN, or the constant. *)
Theorem C49_constant_any_depth : forall depth oi oj sr sc f q g g', (forall i j, f i j == q)%Q ->
  interpolate_grid depth oi oj sr sc f g = Ok g' ->
  g_rows g' = g_rows g /\ g_cols g' = g_cols g /\
  forall r c, g_at g' r c = g_at g r c \/ g_at g' r c = NaN \/ exists v, g_at g' r c = Num v /\ (v == q)%Q.
Proof. intros depth oi oj sr sc f q g g' H E. exact (const_any_depth f q H depth oi oj sr sc g g' E). Qed.

(** Small grids: one row raises, two rows leave the last one undefined. *)
Theorem C49_one_row : forall f g, g_rows g = 1 -> interpolate_grid 1 0 0 (inject_Z (g_rows g)) (inject_Z (g_cols g)) f g = Err ValueError.
Proof. exact one_row. Qed.
Theorem C49_two_rows_refuted : forall f g, g_rows g = 2 -> 2 <= g_cols g ->
  exists g', interpolate_grid 1 0 0 (inject_Z (g_rows g)) (inject_Z (g_cols g)) f g = Ok g' /\ forall c, 0 <= c < g_cols g -> g_at g' 1 c = NaN.
Proof. exact two_rows. Qed.

Definition zeros (rows cols : Z) : grid num := Grid rows cols (fun _ _ => Num 0).
Definition cell_is (r : res (grid num)) (i j : Z) (q : Q) : bool :=
  match r with Ok g => match g_at g i j with Num v => Qeq_bool v q | NaN => false end | Err _ => false end.
Example C49_example_even : cell_is (interpolate_grid 1 0 0 4 6 (fun i j => inject_Z (i * i + 10 * j)) (zeros 4 6)) 2 3 34 = true.
Proof. vm_compute. reflexivity. Qed.
Example C49_example_odd : cell_is (interpolate_grid 1 0 0 3 3 (fun i _ => inject_Z i) (zeros 3 3)) 2 1 3 = true.
Proof. vm_compute. reflexivity. Qed.

(** ** C50: where pixel sizes are evaluated *)

(** The grids hold, at each sampled cell, the size of the pixel whose column is
    the cell's row and whose row is the cell's column. *)
Theorem C50_transposed : forall size k l, 2 <= k -> 2 <= l ->
  exists xg yg, get_pixel_size_grids size (2 * k) (2 * l) = Ok (xg, yg) /\
    forall row col, node (2 * k) row -> node (2 * l) col ->
      exists v w, g_at xg row col = Num v /\ g_at yg row col = Num w /\
        (v == fst (right_size size col row))%Q /\ (w == snd (right_size size col row))%Q.
Proof.
  intros size k l Hk Hl. unfold get_pixel_size_grids. set (z := Grid (2 * k) (2 * l) (fun _ _ => Num 0)).
  destruct (bisect_spec (fun x y => fst (size x y)) z) as (xg & E & _ & _ & A); [change (3 <= 2 * k); lia|change (3 <= 2 * l); lia|]. destruct (bisect_spec (fun x y => snd (size x y)) z) as (yg & E' & _ & _ & A'); [change (3 <= 2 * k); lia|change (3 <= 2 * l); lia|].
  cbn [g_rows g_cols z] in *. rewrite E. cbn [bind]. rewrite E'. cbn [bind]. exists xg, yg. split; [reflexivity|]. intros row col Hr Hc.
  assert (Ir : 0 <= row < 2 * k) by (unfold node in Hr; rewrite div_even in Hr; lia). assert (Ic : 0 <= col < 2 * l) by (unfold node in Hc; rewrite div_even in Hc; lia).
  destruct (A row col Ir Ic) as (v & Ev & X). destruct (A' row col Ir Ic) as (w & Ew & Y). exists v, w. split; [exact Ev|]. split; [exact Ew|].
  unfold right_size. rewrite X, Y. split; apply (bisected_node (fun i j => _)); assumption.
Qed.

(** So the grids are right at the sampled cells exactly when the sizes of the
    pixels sampled are symmetric under exchanging row and column. *)
Theorem C50_right_iff : forall size k l, 2 <= k -> 2 <= l ->
  exists xg yg, get_pixel_size_grids size (2 * k) (2 * l) = Ok (xg, yg) /\
    ((forall row col, node (2 * k) row -> node (2 * l) col -> exists v, g_at xg row col = Num v /\ (v == fst (right_size size row col))%Q)
     <-> (forall row col, node (2 * k) row -> node (2 * l) col -> (fst (size col row) == fst (size row col))%Q)).
Proof.
  intros size k l Hk Hl. destruct (C50_transposed size k l Hk Hl) as (xg & yg & E & A). exists xg, yg. split; [exact E|]. split; intros H row col Hr Hc.
  - destruct (A row col Hr Hc) as (v & w & Ev & _ & X & _). destruct (H row col Hr Hc) as (v' & Ev' & X'). rewrite Ev in Ev'. injection Ev' as <-. unfold right_size in *. rewrite <- X', X. reflexivity.
  - destruct (A row col Hr Hc) as (v & w & Ev & _ & X & _). exists v. split; [exact Ev|]. unfold right_size in *. rewrite X. symmetry. apply H; assumption.
Qed.

(** Where the width of a pixel depends on its latitude alone, as for a raster
    in degrees, the grid varies along rows where it should be constant. *)
Theorem C50_latitude_refuted : forall w h k l, 2 <= k -> 2 <= l ->
  exists xg yg, get_pixel_size_grids (fun _ y => (w y, h y)) (2 * k) (2 * l) = Ok (xg, yg) /\
    forall row col, node (2 * k) row -> node (2 * l) col -> exists v, g_at xg row col = Num v /\ (v == w col)%Q.
Proof.
  intros w h k l Hk Hl. destruct (C50_transposed (fun _ y => (w y, h y)) k l Hk Hl) as (xg & yg & E & A). exists xg, yg. split; [exact E|]. intros row col Hr Hc.
  destruct (A row col Hr Hc) as (v & _ & Ev & _ & X & _). exists v. split; [exact Ev|exact X].
Qed.

(** On a square raster the grids are the transpose of the right ones ... *)
Theorem C50_square : forall size n, 3 <= n ->
  exists xg yg xr yr, get_pixel_size_grids size n n = Ok (xg, yg) /\ get_pixel_size_grids (right_size size) n n = Ok (xr, yr) /\
    forall row col, 0 <= row < n -> 0 <= col < n -> exists v w v' w',
      g_at xg row col = Num v /\ g_at yg row col = Num w /\ g_at xr col row = Num v' /\ g_at yr col row = Num w' /\ (v == v')%Q /\ (w == w')%Q.
Proof.
  intros size n Hn. unfold get_pixel_size_grids. set (z := Grid n n (fun _ _ => Num 0)).
  destruct (bisect_spec (fun x y => fst (size x y)) z) as (xg & E1 & _ & _ & A1); [exact Hn|exact Hn|]. destruct (bisect_spec (fun x y => snd (size x y)) z) as (yg & E2 & _ & _ & A2); [exact Hn|exact Hn|].
  destruct (bisect_spec (fun x y => fst (right_size size x y)) z) as (xr & E3 & _ & _ & A3); [exact Hn|exact Hn|]. destruct (bisect_spec (fun x y => snd (right_size size x y)) z) as (yr & E4 & _ & _ & A4); [exact Hn|exact Hn|].
  cbn [g_rows g_cols z] in *. rewrite E1. cbn [bind]. rewrite E2. cbn [bind]. rewrite E3. cbn [bind]. rewrite E4. cbn [bind].
  exists xg, yg, xr, yr. split; [reflexivity|]. split; [reflexivity|]. intros row col Ir Ic.
  destruct (A1 row col Ir Ic) as (v & Ev & X1). destruct (A2 row col Ir Ic) as (w & Ew & X2). destruct (A3 col row Ic Ir) as (v' & Ev' & X3). destruct (A4 col row Ic Ir) as (w' & Ew' & X4).
  exists v, w, v', w'. repeat (split; [assumption|]). rewrite X1, X2, X3, X4. split; apply (bisected_swap (fun i j => _)).
Qed.

(** ... so their mean, from which line and window sizes are derived, is right
    on square rasters. *)
Theorem C50_square_mean : forall size n, 3 <= n ->
  exists xg yg xr yr s t s' t', get_pixel_size_grids size n n = Ok (xg, yg) /\ get_pixel_size_grids (right_size size) n n = Ok (xr, yr) /\
    num_sum xg = Some s /\ num_sum xr = Some t /\ num_sum yg = Some s' /\ num_sum yr = Some t' /\ (s == t)%Q /\ (s' == t')%Q.
Proof.
  intros size n Hn. unfold get_pixel_size_grids. set (z := Grid n n (fun _ _ => Num 0)).
  assert (K : forall f, exists g' s, interpolate_grid 1 0 0 (inject_Z n) (inject_Z n) f z = Ok g' /\ num_sum g' = Some s /\ (s == cell_sum (bisected f n n) n n)%Q).
  { intros f. destruct (bisect_spec f z Hn Hn) as (g' & E & R & C & A). change (g_rows z) with n in *. change (g_cols z) with n in *.
    destruct (num_sum_cells g' (bisected f n n)) as (s & Es & X); [rewrite R, C; exact A|]. rewrite R, C in X. exists g', s. auto. }
  assert (W : forall f, (cell_sum (bisected f n n) n n == cell_sum (bisected (fun i j => f j i) n n) n n)%Q).
  { intros f. rewrite cell_sum_swap. unfold cell_sum. apply fold_sum_ext. intros r. apply fold_sum_ext. intros c. apply bisected_swap. }
  destruct (K (fun x y => fst (size x y))) as (xg & s & E1 & S1 & X1). destruct (K (fun x y => snd (size x y))) as (yg & s' & E2 & S2 & X2).
  destruct (K (fun x y => fst (right_size size x y))) as (xr & t & E3 & S3 & X3). destruct (K (fun x y => snd (right_size size x y))) as (yr & t' & E4 & S4 & X4).
  rewrite E1. cbn [bind]. rewrite E2. cbn [bind]. rewrite E3. cbn [bind]. rewrite E4. cbn [bind].
  exists xg, yg, xr, yr, s, t, s', t'. repeat (split; [first [reflexivity|assumption]|]). rewrite X1, X2, X3, X4. split; apply W.
Qed.

(** On other rasters it is not: a raster of 4 rows and 8 columns whose pixels
    are wider the further south they are. *)
Theorem C50_mean_refuted : exists size xg yg xr yr s t, get_pixel_size_grids size 4 8 = Ok (xg, yg) /\ get_pixel_size_grids (right_size size) 4 8 = Ok (xr, yr) /\
  num_sum xg = Some s /\ num_sum xr = Some t /\ ~ (s == t)%Q.
Proof.
  exists (fun _ y => (inject_Z y, 1%Q)).
  assert (K : match get_pixel_size_grids (fun _ y => (inject_Z y, 1%Q)) 4 8, get_pixel_size_grids (right_size (fun _ y => (inject_Z y, 1%Q))) 4 8 with
              | Ok (xg, _), Ok (xr, _) => match num_sum xg, num_sum xr with Some s, Some t => negb (Qeq_bool s t) | _, _ => false end | _, _ => false end = true) by (vm_compute; reflexivity).
  destruct (get_pixel_size_grids (fun _ y => (inject_Z y, 1%Q)) 4 8) as [[xg yg]|]; [|discriminate]. destruct (get_pixel_size_grids (right_size (fun _ y => (inject_Z y, 1%Q))) 4 8) as [[xr yr]|]; [|discriminate].
  destruct (num_sum xg) as [s|] eqn:S1; [|discriminate]. destruct (num_sum xr) as [t|] eqn:S2; [|discriminate].
  exists xg, yg, xr, yr, s, t. repeat (split; [first [reflexivity|assumption]|]). intros X. apply Qeq_bool_iff in X. rewrite X in K. discriminate.
Qed.

(** The size of a pixel with edges x0, x1, y0, y1: its width is measured along its middle from
    edge to edge, and so is its height. *)
Theorem C50_pixel : forall gt dist x y x0 x1 y0 y1,
  (forall p q p' q', fst p == fst p' -> snd p == snd p' -> fst q == fst q' -> snd q == snd q' -> dist p q == dist p' q')%Q ->
  (x0 == gt0 gt + inject_Z x * gt1 gt)%Q -> (x1 == x0 + gt1 gt)%Q -> (y0 == gt3 gt + inject_Z y * gt5 gt)%Q -> (y1 == y0 + gt5 gt)%Q ->
  (fst (get_pixel_size gt dist x y) == dist (x0, (y0 + y1) / 2) (x1, (y0 + y1) / 2))%Q /\
  (snd (get_pixel_size gt dist x y) == dist ((x0 + x1) / 2, y0) ((x0 + x1) / 2, y1))%Q.
Proof.
  intros gt dist x y x0 x1 y0 y1 P X0 X1 Y0 Y1. unfold get_pixel_size.
  assert (E : forall t, (t / 2 == (1#2) * t)%Q) by (intros; field).
  split; apply P; cbn [fst snd]; rewrite ?E; lra.
Qed.
Print Assumptions C50_pixel.

(** With a projected raster, where distance depends on the difference of the
    coordinates alone, every cell of both grids is right. *)
Theorem C50_projected : forall gt dist d rows cols, (forall p q, dist p q == d (fst q - fst p) (snd q - snd p))%Q ->
  (forall x x' y y', x == x' -> y == y' -> d x y == d x' y')%Q -> 3 <= rows -> 3 <= cols ->
  exists xg yg, get_pixel_size_grids (get_pixel_size gt dist) rows cols = Ok (xg, yg) /\
    forall row col, 0 <= row < rows -> 0 <= col < cols -> exists v w, g_at xg row col = Num v /\ g_at yg row col = Num w /\
      (v == d (gt1 gt) 0)%Q /\ (w == d 0 (gt5 gt))%Q.
Proof.
  intros gt dist d rows cols Hd Hp Hr Hc. unfold get_pixel_size_grids. set (z := Grid rows cols (fun _ _ => Num 0)).
  destruct (C49_constant (fun x y => fst (get_pixel_size gt dist x y)) (d (gt1 gt) 0%Q) z) as (xg & E & A); [|exact Hr|exact Hc|].
  { intros i j. unfold get_pixel_size. cbn [fst]. rewrite Hd. cbn [fst snd]. apply Hp; ring. }
  destruct (C49_constant (fun x y => snd (get_pixel_size gt dist x y)) (d 0%Q (gt5 gt)) z) as (yg & E' & A'); [|exact Hr|exact Hc|].
  { intros i j. unfold get_pixel_size. cbn [snd]. rewrite Hd. cbn [fst snd]. apply Hp; ring. }
  cbn [g_rows g_cols z] in *. rewrite E. cbn [bind]. rewrite E'. cbn [bind]. exists xg, yg. split; [reflexivity|]. intros row col Ir Ic.
  destruct (A row col Ir Ic) as (v & Ev & X). destruct (A' row col Ir Ic) as (w & Ew & Y). exists v, w. auto.
Qed.
(** Sum of absolute differences, on a raster of 25 m pixels. *)
Example C50_projected_example : exists xg yg, get_pixel_size_grids (get_pixel_size (GT 1000 25 5000 (-25)) (fun p q => Qabs (fst q - fst p) + Qabs (snd q - snd p))%Q) 7 12 = Ok (xg, yg) /\
  forall row col, 0 <= row < 7 -> 0 <= col < 12 -> exists v w, g_at xg row col = Num v /\ g_at yg row col = Num w /\ (v == 25)%Q /\ (w == 25)%Q.
Proof.
  apply (C50_projected (GT 1000 25 5000 (-25)) _ (fun x y => Qabs x + Qabs y)%Q 7 12); [reflexivity| |lia|lia]. intros x x' y y' E1 E2. rewrite E1, E2. reflexivity.
Qed.

Print Assumptions C48_corners.
Print Assumptions C48_between.
Print Assumptions C49_closed_form.
Print Assumptions C49_even.
Print Assumptions C49_odd_refuted.
Print Assumptions C49_two_rows_refuted.
Print Assumptions C50_transposed.
Print Assumptions C50_square_mean.
Print Assumptions C50_mean_refuted.
Print Assumptions C50_projected.
