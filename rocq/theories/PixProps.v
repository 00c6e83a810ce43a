(** * Property theorems: pixel sizes of geographic rasters (C69). *)
From Coq Require Import Reals Lia.
From Verif Require Import Base Atan2 VincModel VincSpec VincProofs VincSeries VincRunProofs VincGeoProofs VincTermProofs VincProps PixModel PixSpec PixProofs.
From Coq Require Import Lra.
Local Open Scope R_scope.

(** ** Helpers *)
Lemma f4_small f : 0 <= f <= 1 / 290 -> 0 <= f ^ 4 <= 15 / 10 ^ 11.
Proof. intros H. split; [apply pow_le; lra|]. apply Rle_trans with ((1 / 290) ^ 4); [apply pow4_le; exact H|]. cbn [pow]. lra. Qed.
Lemma vinc_parallel n f a phi lon1 lon2 : 0 <= f <= 1 / 290 -> 0 < a -> latitude phi -> phi <> 0 -> / 10 ^ 8 <= lon2 - lon1 <= 1 / 50 -> (9 <= n)%nat ->
  exists s z1 z2, vinc_dist n f a phi lon1 phi lon2 = Some (Ok (s, z1, z2)) /\ Rabs (s - parallel_arc f a phi (lon2 - lon1)) <= 1 / 10000 * parallel_arc f a phi (lon2 - lon1).
Proof.
  intros Hf Ha Lp Np Hw Hn. set (om := lon2 - lon1) in *. assert (Hf' : 0 <= f <= 1 / 100) by lra. assert (T8 : 0 < / 10 ^ 8) by (apply Rinv_0_lt_compat, pow_lt; lra). pose proof pi_bounds as PB.
  assert (Ap : apart phi lon1 phi lon2) by (right; fold om; rewrite Rabs_pos_eq; lra).
  assert (Ho : Rabs (lon2 - lon1) <= PI) by (fold om; rewrite Rabs_pos_eq; lra).
  pose proof (reduced_facts f phi ltac:(lra) Lp) as Cu. fold (reduced f phi) in Cu. set (u := reduced f phi) in *. assert (Su : sin u <> 0) by (apply reduced_sin; [lra|exact Lp|exact Np]).
  assert (Arc : arc u lon1 u lon2 <= 12 / 5).
  { rewrite sigma_arc. fold om. destruct (sigma_facts u u om) as (C & _ & _ & R & _). cbv zeta in *. destruct (Rle_dec (sigma_of u u om) (12 / 5)) as [|N]; [assumption|exfalso]. apply Rnot_le_lt in N.
    assert (cos (sigma_of u u om) < cos (PI / 2)) by (apply cos_decreasing_1; lra). rewrite cos_PI2, C in *. unfold KK in *. assert (0 < cos om) by (apply cos_gt_0; lra).
    assert (0 < cos u * cos u * cos om) by (apply Rmult_lt_0_compat; [apply Rmult_lt_0_compat|]; assumption). pose proof (sq_nonneg (sin u)). lra. }
  destruct (C62_terminates n f a phi lon1 phi lon2 Hf' Ha Lp Lp (or_introl Np) Ho Ap Arc Hn) as (s & z1 & z2 & E). exists s, z1, z2. split; [exact E|].
  rewrite (far_iff _ _ _ _ _ _ _ Ap) in E. unfold vinc_far in E. fold (reduced f phi) in E. fold u om in E.
  destruct (vinc_loop n f u u om (-4000000) om None) as [[t|]|] eqn:EL; try discriminate. injection E as E. fold om in Ho.
  destruct (loop_final f u u om n t Hf' Cu Cu Ho EL) as (l & P & D1 & D2 & _ & Sg). destruct (Sg ltac:(lra)) as [L1 L2]. clear Sg.
  destruct (finish_geodesic f a u u om l t Hf' Ha P) as (d & len & dlon & Fi & G & _ & G1 & G2). rewrite E in Fi. injection Fi as -> -> ->.
  set (q := v_lembda t) in *. assert (Lq : 0 < q) by (apply Rmult_lt_reg_l with om; lra). assert (Ll : 0 < l) by (apply Rmult_lt_reg_l with om; lra). clear L1 L2.
  rewrite (Rabs_pos_eq q) in D1 by lra. apply abs_between in D1. apply abs_between in D2. assert (T9 : / 10 ^ 9 = 1 / 1000000000) by (cbn [pow]; field). rewrite T9 in D1.
  pose proof (p_range _ _ _ _ _ _ P) as Hsg. set (sg := v_sigma t) in *. assert (Hl : 0 < l < PI) by lra.
  destruct (par_length f a u l sg dlon len Hf' Ha Cu Su Hl G Hsg) as [[B1 B2] B3]. pose proof (sg_le f a u l sg dlon len Cu Hl G Hsg) as Ssg.
  pose proof (f4_small f Hf) as F4. replace (15 / 10 ^ 11) with (15 / 100000000000) in F4 by (cbn [pow]; field).
  assert (X1 : 2 * f ^ 4 * sg <= 3 / 10000000000 * l) by (apply Rmult_le_compat; lra).
  assert (X2 : Rabs (dlon - om) <= 2 / 1000000000 * l).
  { replace (dlon - om) with ((dlon - om - (l - q)) + (l - q)) by ring. apply Rle_trans with (1 := Rabs_triang _ _). assert (Rabs (l - q) <= 1 / 1000000000 * q) by (apply Rabs_le; lra). lra. }
  apply abs_between in X2. assert (X3 : (1 - 1 / 290) * l <= dlon) by (apply Rle_trans with (2 := B3); apply Rmult_le_compat_r; lra).
  set (c := cos (l / 2)) in *. assert (Cc : 1 - 6 / 100000 <= c).
  { pose proof (cos_low (l / 2)) as K. fold c in K. assert (l / 2 * (l / 2) <= 102 / 10000 * (102 / 10000)) by (apply Rmult_le_compat; lra). lra. }
  assert (Aup : 0 < a * cos u) by (apply Rmult_lt_0_compat; assumption). set (A := a * cos u) in *.
  assert (Len : 0 <= len) by (apply Rle_trans with (2 := B1); repeat apply Rmult_le_pos; lra).
  assert (Q1 : (1 - 6 / 100000) * (A * dlon) <= len). { apply Rle_trans with (2 := B1). replace (A * c * dlon) with (c * (A * dlon)) by ring. apply Rmult_le_compat_r; [apply Rmult_le_pos; lra|exact Cc]. }
  assert (Q2 : (1 - 6 / 100000) * len <= A * dlon).
  { apply Rle_trans with (c * len); [apply Rmult_le_compat_r; assumption|]. apply Rle_trans with (c * (A / c * dlon)); [apply Rmult_le_compat_l; [lra|exact B2]|]. right. field. lra. }
  assert (Q3 : (1 - 3 / 1000000000) * (A * dlon) <= A * om <= (1 + 3 / 1000000000) * (A * dlon)).
  { split; [replace ((1 - 3 / 1000000000) * (A * dlon)) with (A * ((1 - 3 / 1000000000) * dlon)) by ring|replace ((1 + 3 / 1000000000) * (A * dlon)) with (A * ((1 + 3 / 1000000000) * dlon)) by ring]; apply Rmult_le_compat_l; lra. }
  assert (Q4 : Rabs (d - len) <= 1 / 1000000000 * len) by (apply Rle_trans with (1 := G1); apply Rmult_le_compat_r; lra). apply abs_between in Q4.
  unfold parallel_arc. fold u. fold A. apply Rabs_le. lra.
Qed.

(** ** C69 *)

(** A pixel of a raster in degrees: its width is the length of the part of its parallel, its
    height that of the part of its meridian. *)
Theorem C69_pixel_size : forall n left_ w top h x y len, (9 <= n)%nat ->
  let lon := left_ + (x + 1 / 2) * w in
  let mid := degree * (top + (y + 1 / 2) * h) in let lat1 := degree * (top + y * h) in let lat2 := degree * (top + (y + 1) * h) in
  latitude lat1 -> latitude lat2 -> mid <> 0 -> / 10 ^ 8 <= degree * w <= 1 / 50 -> / 10 ^ 8 <= degree * Rabs h ->
  meridian_arc wgs84_f wgs84_a (reduced wgs84_f (Rmin lat1 lat2)) (reduced wgs84_f (Rmax lat1 lat2)) len ->
  exists x_size y_size, pixel_size n (fun lon lat => (lon, lat)) left_ w top h x y = Some (Ok (x_size, y_size)) /\
    Rabs (x_size - parallel_arc wgs84_f wgs84_a mid (degree * w)) <= 1 / 10000 * parallel_arc wgs84_f wgs84_a mid (degree * w) /\
    Rabs (y_size - len) <= 1 / 10 ^ 10 * len.
Proof.
  intros n g0 w g3 h x y len Hn lon mid lat1 lat2 La1 La2 Nm Hw Hh HM. pose proof pi_bounds as PB.
  assert (Hk : 0 < degree) by (unfold degree; apply Rdiv_lt_0_compat; [lra|apply pow_lt; lra]).
  assert (T8 : 0 < / 10 ^ 8) by (apply Rinv_0_lt_compat, pow_lt; lra).
  assert (Ff : 0 <= wgs84_f <= 1 / 290) by (unfold wgs84_f; lra). assert (Fa : 0 < wgs84_a) by (unfold wgs84_a; lra).
  assert (Mid : mid = (lat1 + lat2) / 2) by (unfold mid, lat1, lat2; field).
  assert (Lm : latitude mid) by (unfold latitude in *; rewrite Mid; lra).
  unfold pixel_size, point_dist. cbn [fst snd]. change earth_f with wgs84_f. change earth_a with wgs84_a. change radians_per_degree with degree.
  rewrite !(Rmult_comm _ degree). fold mid lat1 lat2 lon.
  assert (EW : degree * (g0 + (x + 1) * w) - degree * (g0 + x * w) = degree * w) by ring.
  destruct (vinc_parallel n wgs84_f wgs84_a mid (degree * (g0 + x * w)) (degree * (g0 + (x + 1) * w)) Ff Fa Lm Nm) as (xs & z1 & z2 & EX & BX); [rewrite EW; exact Hw|exact Hn|].
  rewrite EX, EW in *. clear EX. assert (Dl : Rabs (lat2 - lat1) = degree * Rabs h) by (unfold lat1, lat2; replace (degree * (g3 + (y + 1) * h) - degree * (g3 + y * h)) with (degree * h) by ring; rewrite Rabs_mult, (Rabs_pos_eq degree) by lra; reflexivity).
  assert (Ff' : 0 <= wgs84_f <= 1 / 100) by lra. pose proof (f4_small _ Ff) as F4.
  assert (LN : 0 <= len).
  { destruct HM as (G & HG & ->). assert (LE : reduced wgs84_f (Rmin lat1 lat2) <= reduced wgs84_f (Rmax lat1 lat2)).
    { unfold Rmin, Rmax. destruct (Rle_dec lat1 lat2) as [Q|Q]; [destruct (Req_dec lat1 lat2) as [->|Nq]; [lra|]; destruct (reduced_lt wgs84_f lat1 lat2 ltac:(lra) La1 La2 ltac:(lra)); lra|destruct (reduced_lt wgs84_f lat2 lat1 ltac:(lra) La2 La1 ltac:(lra)); lra]. }
    pose proof (deriv_mono G _ _ _ LE HG ltac:(intros; apply sqrt_pos)). lra. }
  assert (W : forall s, Rabs (s - len) <= wgs84_f ^ 4 / 4 * len -> Rabs (s - len) <= 1 / 10 ^ 10 * len).
  { intros s Hs. apply Rle_trans with (1 := Hs). apply Rmult_le_compat_r; [exact LN|]. assert (15 / 10 ^ 11 / 4 <= 1 / 10 ^ 10) by (cbn [pow]; lra). lra. }
  destruct (Rtotal_order lat1 lat2) as [O|[O|O]]; [|rewrite O, Rminus_diag_eq, Rabs_R0 in Dl by reflexivity; lra|].
  - rewrite Rmin_left, Rmax_right in HM by lra.
    destruct (C62_meridian n wgs84_f wgs84_a lat1 lat2 (degree * lon) len Ff' Fa La1 La2 O) as (s & E1 & _ & D); [left; lra|lia|exact HM|]. rewrite E1. exists xs, s. auto.
  - rewrite Rmin_right, Rmax_left in HM by lra.
    destruct (C62_meridian n wgs84_f wgs84_a lat2 lat1 (degree * lon) len Ff' Fa La2 La1 O) as (s & _ & E1 & D); [left; rewrite Rabs_minus_sym; lra|lia|exact HM|]. rewrite E1. exists xs, s. auto.
Qed.

(** Pixels below 1e-8 radians (6 cm) have size 0. *)
Theorem C69_tiny : forall n left_ w top h x y, degree * Rabs w < / 10 ^ 8 -> degree * Rabs h < / 10 ^ 8 ->
  pixel_size n (fun lon lat => (lon, lat)) left_ w top h x y = Some (Ok (0, 0)).
Proof.
  intros n g0 w g3 h x y Hw Hh. assert (Hk : 0 < degree) by (unfold degree; apply Rdiv_lt_0_compat; [lra|apply pow_lt; lra]). assert (T8 : 0 < / 10 ^ 8) by (apply Rinv_0_lt_compat, pow_lt; lra).
  unfold pixel_size, point_dist. cbn [fst snd]. change radians_per_degree with degree.
  assert (Z : forall p l1 l2, Rabs (l2 - l1) < / 10 ^ 8 -> vinc_dist n earth_f earth_a p l1 p l2 = Some (Ok (0, 0, 0)) /\ vinc_dist n earth_f earth_a l1 p l2 p = Some (Ok (0, 0, 0))).
  { intros p l1 l2 B. split; apply C62_close; unfold apart; rewrite (Rminus_diag_eq p p), Rabs_R0 by reflexivity; lra. }
  assert (A1 : Rabs ((g0 + (x + 1) * w) * degree - (g0 + x * w) * degree) < / 10 ^ 8) by (replace ((g0 + (x + 1) * w) * degree - (g0 + x * w) * degree) with (degree * w) by ring; rewrite Rabs_mult, (Rabs_pos_eq degree) by lra; exact Hw).
  assert (A2 : Rabs ((g3 + (y + 1) * h) * degree - (g3 + y * h) * degree) < / 10 ^ 8) by (replace ((g3 + (y + 1) * h) * degree - (g3 + y * h) * degree) with (degree * h) by ring; rewrite Rabs_mult, (Rabs_pos_eq degree) by lra; exact Hh).
  rewrite (proj1 (Z _ _ _ A1)), (proj2 (Z _ _ _ A2)). reflexivity.
Qed.

Lemma meridian_exists f a u1 u2 : 0 <= f <= 1 / 100 -> 0 < a -> u1 <= u2 -> exists len, meridian_arc f a u1 u2 len.
Proof.
  intros Hf Ha L. destruct (integral_exists (fun t => sqrt ((a * sin t) ^ 2 + (a * (1 - f) * cos t) ^ 2)) u1 u2 L) as (G & HG); [|exists (G u2 - G u1), G; auto].
  intros t _. apply derivable_continuous_pt. assert (D : derivable_pt (fun t => (a * sin t) ^ 2 + (a * (1 - f) * cos t) ^ 2) t) by reg.
  apply (derivable_pt_comp (fun t => (a * sin t) ^ 2 + (a * (1 - f) * cos t) ^ 2) sqrt t D). apply derivable_pt_sqrt.
  pose proof (sc t) as T. pose proof (sq_nonneg (sin t)) as S0. pose proof (sq_nonneg (cos t)) as C0. replace ((a * sin t) ^ 2 + (a * (1 - f) * cos t) ^ 2) with (a * a * (sin t * sin t + (1 - f) * (1 - f) * (cos t * cos t))) by ring.
  apply Rmult_lt_0_compat; [apply Rmult_lt_0_compat; assumption|]. replace (sin t * sin t) with (1 - cos t * cos t) by lra. assert (1 / 2 <= (1 - f) * (1 - f)) by nra. nra.
Qed.
(** A raster like the 1 second elevation model, pixel (10, 20) near 20 S. *)
Example C69_example : exists x_size y_size, pixel_size 9 (fun lon lat => (lon, lat)) 140 (1 / 3600) (-20) (- (1 / 3600)) 10 20 = Some (Ok (x_size, y_size)) /\ 0 < x_size /\ 0 < y_size.
Proof.
  pose proof pi_bounds as PB. assert (Hd : 1 / 60 < degree < 1 / 50) by (unfold degree; cbn [pow]; lra). assert (T8 : / 10 ^ 8 = 1 / 100000000) by (cbn [pow]; field).
  set (la1 := degree * (-20 + 20 * - (1 / 3600))). set (la2 := degree * (-20 + (20 + 1) * - (1 / 3600))).
  assert (L1 : latitude la1) by (unfold latitude, la1; lra). assert (L2 : latitude la2) by (unfold latitude, la2; lra). assert (O : la2 < la1) by (unfold la1, la2; lra).
  assert (F : 0 <= wgs84_f <= 1 / 100) by (unfold wgs84_f; lra). assert (A : 0 < wgs84_a) by (unfold wgs84_a; lra).
  destruct (reduced_lt wgs84_f la2 la1 ltac:(lra) L2 L1 O) as [B1 B2].
  destruct (meridian_exists wgs84_f wgs84_a (reduced wgs84_f la2) (reduced wgs84_f la1) F A ltac:(lra)) as (len & M).
  destruct (C69_pixel_size 9 140 (1 / 3600) (-20) (- (1 / 3600)) 10 20 len (le_n 9) L1 L2) as (xs & ys & E & X & Y).
  - apply Rlt_not_eq. replace 0 with (degree * 0) by ring. apply Rmult_lt_compat_l; lra.
  - rewrite T8; lra.
  - rewrite Rabs_Ropp, Rabs_pos_eq, T8 by lra; lra.
  - fold la1 la2. rewrite Rmin_right, Rmax_left by lra. exact M.
  - exists xs, ys. split; [exact E|]. apply abs_between in X. apply abs_between in Y. split.
    + assert (0 < parallel_arc wgs84_f wgs84_a (degree * (-20 + (20 + 1 / 2) * - (1 / 3600))) (degree * (1 / 3600))); [|lra]. unfold parallel_arc. apply Rmult_lt_0_compat; [|lra]. apply Rmult_lt_0_compat; [exact A|]. apply reduced_facts; [lra|]. unfold latitude; lra.
    + assert (0 < len); [|assert (1 / 10 ^ 10 <= 1 / 2) by (cbn [pow]; lra); assert (1 / 10 ^ 10 * len <= 1 / 2 * len) by (apply Rmult_le_compat_r; lra); lra].
      destruct (C62_meridian 9 wgs84_f wgs84_a la2 la1 0 len F A L2 L1 O) as (s & Es & _ & D); [left; rewrite T8, Rabs_pos_eq; unfold la1, la2; lra|lia|exact M|].
      assert (0 < s). { apply (C62_between 9 wgs84_f wgs84_a la2 0 la1 0 s 0 PI F A L2 L1); [rewrite Rminus_diag_eq, Rabs_R0 by reflexivity; lra|left; rewrite T8, Rabs_pos_eq; unfold la1, la2; lra|exact Es]. }
      apply abs_between in D. assert (0 <= wgs84_f ^ 4 / 4) by (pose proof (pow_le wgs84_f 4 (proj1 F)); lra). destruct (Rle_lt_dec len 0) as [Z|Z]; [|exact Z]. exfalso.
      assert (wgs84_f ^ 4 / 4 * len <= 0) by nra. lra.
Qed.
Print Assumptions C69_pixel_size.
