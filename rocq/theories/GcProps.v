(** * Property theorems: points along a great circle (C71). *)
From Coq Require Import Reals Lia ZArith List.
From Verif Require Import Base BaseLemmas Atan2 VincModel VincSpec VincProofs VincSeries VincRunProofs VincGeoProofs VincTermProofs VincProps DirSpec DirProofs DirProps GcSpec GcModel.
From Coq Require Import Lra.
Import ListNotations.
Local Open Scope R_scope.

(** ** Helpers *)
Lemma radians_deg x : radians x = x * deg.
Proof. unfold radians, deg. field. Qed.
Lemma degrees_deg x : degrees x * deg = x.
Proof. unfold degrees, deg. field. apply PI_neq0. Qed.
Lemma degrees_radians x : degrees (radians x) = x.
Proof. unfold degrees, radians. field. apply PI_neq0. Qed.

Lemma haversine p1 l1 p2 l2 : 2 * asin (sqrt ((sin ((p1 - p2) / 2)) ^ 2 + cos p1 * cos p2 * (sin ((l1 - l2) / 2)) ^ 2)) = arc p1 l1 p2 l2.
Proof.
  rewrite sigma_arc. destruct (sigma_facts p1 p2 (l2 - l1)) as (C & _ & _ & R & _). cbv zeta in *. set (d := sigma_of p1 p2 (l2 - l1)) in *.
  assert (H : (sin ((p1 - p2) / 2)) ^ 2 + cos p1 * cos p2 * (sin ((l1 - l2) / 2)) ^ 2 = sin (d / 2) * sin (d / 2)).
  { assert (X : forall t, (sin (t / 2)) ^ 2 = (1 - cos t) / 2) by (intros t; replace t with (2 * (t / 2)) at 2 by field; rewrite cos_2t; field).
    rewrite !X. rewrite <- pow2, X, C. unfold KK. rewrite (cos_minus p1 p2), <- (cos_neg (l1 - l2)). replace (- (l1 - l2)) with (l2 - l1) by ring. field. }
  assert (S : 0 <= sin (d / 2)) by (apply sin_ge_0; pose proof PI_RGT_0; lra). rewrite H, sqrt_square by exact S. rewrite asin_sin by (pose proof PI_RGT_0; lra). field.
Qed.
Lemma init_inv fuel a b lon1 lat1 lon2 lat2 g : great_circle_init fuel a b lon1 lat1 lon2 lat2 = Some (Ok g) ->
  exists d a12 a21, vinc_dist fuel ((a - b) / a) a (lat1 * deg) (lon1 * deg) (lat2 * deg) (lon2 * deg) = Some (Ok (d, a12, a21)) /\ a <> 0 /\
  g = {| gc_a := a; gc_f := (a - b) / a; gc_lat1 := lat1 * deg; gc_lat2 := lat2 * deg; gc_lon1 := lon1 * deg; gc_lon2 := lon2 * deg;
         gc_distance := d; gc_azimuth12 := a12; gc_azimuth21 := a21; gc_arclen := arc (lat1 * deg) (lon1 * deg) (lat2 * deg) (lon2 * deg);
         gc_antipodal := if Req_EM_T (arc (lat1 * deg) (lon1 * deg) (lat2 * deg) (lon2 * deg)) PI then true else false |}.
Proof.
  unfold great_circle_init. rewrite !radians_deg, haversine. destruct (Req_EM_T a 0) as [|N]; [discriminate|]. destruct (vinc_dist _ _ _ _ _ _ _) as [[[[d a12] a21]|]|] eqn:E; try discriminate.
  intros H. injection H as <-. exists d, a12, a21. auto.
Qed.

(** ** C71 *)

(** The attributes: ends in radians, the answer of the inverse formulae, the great-circle arc
    on the sphere, and whether that is half a turn. *)
Theorem C71_attributes : forall fuel a b lon1 lat1 lon2 lat2 g, great_circle_init fuel a b lon1 lat1 lon2 lat2 = Some (Ok g) ->
  let l1 := lon1 * deg in let p1 := lat1 * deg in let l2 := lon2 * deg in let p2 := lat2 * deg in
  vinc_dist fuel ((a - b) / a) a p1 l1 p2 l2 = Some (Ok (gc_distance g, gc_azimuth12 g, gc_azimuth21 g)) /\
  gc_lat1 g = p1 /\ gc_lon1 g = l1 /\ gc_lat2 g = p2 /\ gc_lon2 g = l2 /\
  gc_arclen g = arc p1 l1 p2 l2 /\ (gc_antipodal g = true <-> arc p1 l1 p2 l2 = PI).
Proof.
  intros fuel a b lon1 lat1 lon2 lat2 g H. destruct (init_inv _ _ _ _ _ _ _ _ H) as (d & a12 & a21 & E & _ & ->). cbn [gc_a gc_f gc_lat1 gc_lat2 gc_lon1 gc_lon2 gc_distance gc_azimuth12 gc_azimuth21 gc_arclen gc_antipodal]. cbv zeta.
  repeat split; try reflexivity; [exact E| |]; destruct (Req_EM_T _ _); congruence.
Qed.

(** Fewer than two points are refused, two points are the ends, and more are refused for
    opposite points. *)
Theorem C71_requests : forall fuel a b lon1 lat1 lon2 lat2 g n, great_circle_init fuel a b lon1 lat1 lon2 lat2 = Some (Ok g) ->
  ((n <= 1)%Z -> points fuel g n = Some (Err ValueError)) /\
  (n = 2%Z -> points fuel g n = Some (Ok ([lon1; lon2], [lat1; lat2]))) /\
  ((3 <= n)%Z -> arc (lat1 * deg) (lon1 * deg) (lat2 * deg) (lon2 * deg) = PI -> points fuel g n = Some (Err ValueError)).
Proof.
  intros fuel a b lon1 lat1 lon2 lat2 g n H. destruct (init_inv _ _ _ _ _ _ _ _ H) as (d & a12 & a21 & E & _ & ->). unfold points. cbn [gc_a gc_f gc_lat1 gc_lat2 gc_lon1 gc_lon2 gc_distance gc_azimuth12 gc_azimuth21 gc_arclen gc_antipodal].
  split; [|split].
  - intros L. rewrite (proj2 (Z.leb_le n 1) L). reflexivity.
  - intros ->. change (2 <=? 1)%Z with false. change (2 =? 2)%Z with true. cbv iota. rewrite <- !radians_deg, !degrees_radians. reflexivity.
  - intros L A. rewrite (proj2 (Z.leb_gt n 1)) by lia. rewrite (proj2 (Z.eqb_neq n 2)) by lia. destruct (Req_EM_T _ PI); [reflexivity|contradiction].
Qed.

(** On a sphere the points lie on the great circle from the first end to the second, equally
    spaced, both ends included. *)
Lemma slerp p1 l1 p2 l2 az d t : sin d <> 0 -> walk p1 l1 az d = point p2 l2 ->
  vadd (vscale (sin ((1 - t) * d) / sin d) (point p1 l1)) (vscale (sin (t * d) / sin d) (point p2 l2)) = walk p1 l1 az (t * d).
Proof.
  intros N <-. replace ((1 - t) * d) with (d - t * d) by ring. rewrite sin_minus. set (e := t * d). unfold walk. set (P := point p1 l1). set (T := vadd (vscale (cos az) _) _).
  destruct P as [[x y] z]. destruct T as [[x' y'] z']. unfold vadd, vscale. apply f_equal2; [apply f_equal2|]; field; exact N.
Qed.
Lemma unit_point x y z : x * x + y * y + z * z = 1 -> point (atan2 z (sqrt (x ^ 2 + y ^ 2))) (atan2 y x) = (x, y, z).
Proof.
  intros H. assert (P : 0 <= x ^ 2 + y ^ 2) by nra. pose proof (sqrt_pos (x ^ 2 + y ^ 2)) as SP. pose proof (sqrt_sqrt _ P) as SS. set (h := sqrt (x ^ 2 + y ^ 2)) in *.
  destruct (atan2_unit z h) as [C S]; [lra|]. assert (N : norm2 x y = h) by (unfold norm2, h; f_equal; ring). unfold point. rewrite C, S, <- N, atan2_cos, atan2_sin. reflexivity.
Qed.
Lemma walk_unit u l az d : let '(x, y, z) := walk u l az d in x * x + y * y + z * z = 1.
Proof.
  unfold walk, point, north, east, vadd, vscale. pose proof (sc u) as A. pose proof (sc l) as B. pose proof (sc az) as C. pose proof (sc d) as D.
  set (s1 := sin u) in *. set (c1 := cos u) in *. set (s2 := sin l) in *. set (c2 := cos l) in *. set (s3 := sin az) in *. set (c3 := cos az) in *. set (s4 := sin d) in *. set (c4 := cos d) in *.
  transitivity (c4 * c4 * (c1 * c1 * (s2 * s2 + c2 * c2) + s1 * s1) + s4 * s4 * (c3 * c3 * (s1 * s1 * (s2 * s2 + c2 * c2) + c1 * c1) + s3 * s3 * (s2 * s2 + c2 * c2)) + 2 * c4 * s4 * c3 * (s1 * c1 * (1 - (s2 * s2 + c2 * c2)))); [ring|].
  rewrite B. replace (c1 * c1 * 1 + s1 * s1) with 1 by lra. replace (s1 * s1 * 1 + c1 * c1) with 1 by lra. replace (c3 * c3 * 1 + s3 * s3 * 1) with 1 by lra. lra.
Qed.
Lemma sphere_point_on g az t : sin (gc_arclen g) <> 0 -> walk (gc_lat1 g) (gc_lon1 g) az (gc_arclen g) = point (gc_lat2 g) (gc_lon2 g) ->
  let '(lon, lat) := sphere_point g t in -90 <= lat <= 90 /\ -180 < lon <= 180 /\ point (lat * deg) (lon * deg) = walk (gc_lat1 g) (gc_lon1 g) az (t * gc_arclen g).
Proof.
  intros N W. pose proof (slerp _ _ _ _ az _ t N W) as E. pose proof (walk_unit (gc_lat1 g) (gc_lon1 g) az (t * gc_arclen g)) as U. rewrite <- E in U |- *.
  unfold sphere_point. set (A := sin ((1 - t) * gc_arclen g) / sin (gc_arclen g)) in *. set (B := sin (t * gc_arclen g) / sin (gc_arclen g)) in *.
  unfold vadd, vscale, point in U |- *. rewrite <- !Rmult_assoc in U |- *. set (x := A * _ * cos _ + B * _ * cos _) in *. set (y := A * _ * sin _ + B * _ * sin _) in *. set (z := A * sin _ + B * sin _) in *.
  rewrite !degrees_deg. split; [|split; [|exact (unit_point x y z U)]].
  - set (h := sqrt (x ^ 2 + y ^ 2)). pose proof (sqrt_pos (x ^ 2 + y ^ 2)) as SP. fold h in SP. assert (R : - (PI / 2) <= atan2 z h <= PI / 2).
    { pose proof (atan2_range z h) as [L R]. pose proof (atan2_cos z h) as C. pose proof (norm2_nonneg h z) as NN. pose proof PI_RGT_0. 
      unfold atan2. pose proof (atan_bound (z / h)). destruct (Rlt_dec 0 h); [lra|]. destruct (Rlt_dec h 0); [lra|]. destruct (Rlt_dec 0 z); [lra|]. destruct (Rlt_dec z 0); lra. }
    pose proof PI_RGT_0. unfold degrees. split; apply Rmult_le_reg_r with PI; try lra; unfold Rdiv; rewrite Rmult_assoc, Rinv_l by lra; lra.
  - pose proof (atan2_range y x) as R. pose proof PI_RGT_0. unfold degrees. split; [apply Rmult_lt_reg_r with PI|apply Rmult_le_reg_r with PI]; try lra; unfold Rdiv; rewrite Rmult_assoc, Rinv_l by lra; lra.
Qed.
Theorem C71_sphere : forall fuel r lon1 lat1 lon2 lat2 g n, great_circle_init fuel r r lon1 lat1 lon2 lat2 = Some (Ok g) -> (3 <= n)%Z ->
  let l1 := lon1 * deg in let p1 := lat1 * deg in let l2 := lon2 * deg in let p2 := lat2 * deg in
  0 < arc p1 l1 p2 l2 < PI ->
  exists lons lats az, points fuel g n = Some (Ok (lons, lats)) /\ zlen lons = n /\ zlen lats = n /\
    walk p1 l1 az (arc p1 l1 p2 l2) = point p2 l2 /\
    forall k, (0 <= k < n)%Z -> exists lon lat, nth_error lons (Z.to_nat k) = Some lon /\ nth_error lats (Z.to_nat k) = Some lat /\ -90 <= lat <= 90 /\ -180 < lon <= 180 /\
      point (lat * deg) (lon * deg) = walk p1 l1 az (IZR k / (IZR n - 1) * arc p1 l1 p2 l2).
Proof.
  intros fuel r lon1 lat1 lon2 lat2 g n H Hn l1 p1 l2 p2 Har. destruct (init_inv _ _ _ _ _ _ _ _ H) as (d & a12 & a21 & _ & Nr & Eg). fold l1 p1 l2 p2 in Eg.
  assert (G : gc_arclen g = arc p1 l1 p2 l2 /\ gc_lat1 g = p1 /\ gc_lon1 g = l1 /\ gc_lat2 g = p2 /\ gc_lon2 g = l2 /\ gc_f g = 0 /\ gc_antipodal g = false).
  { subst g. cbn [gc_a gc_f gc_lat1 gc_lat2 gc_lon1 gc_lon2 gc_distance gc_azimuth12 gc_azimuth21 gc_arclen gc_antipodal]. repeat split; try reflexivity; [field; exact Nr|]. destruct (Req_EM_T _ PI); [lra|reflexivity]. }
  destruct G as (G1 & G2 & G3 & G4 & G5 & G6 & G7). assert (SN : sin (gc_arclen g) <> 0) by (rewrite G1; apply Rgt_not_eq, sin_gt_0; lra).
  set (az := wrap (atan2 (cos p2 * sin (l2 - l1)) (cos p1 * sin p2 - sin p1 * cos p2 * cos (l2 - l1)))). pose proof (azimuth12 p1 l1 p2 l2) as W. cbv zeta in W. fold az in W.
  set (ps := map (fun k => sphere_point g (1 / (IZR n - 1) * IZR k)) (zrange n)).
  assert (Lp : length ps = Z.to_nat n) by (unfold ps; rewrite map_length; apply zrange_length).
  exists (map fst ps), (map snd ps), az. split; [|split; [|split; [|split; [exact W|]]]].
  - unfold points. rewrite (proj2 (Z.leb_gt n 1)) by lia. rewrite (proj2 (Z.eqb_neq n 2)) by lia. rewrite G7. destruct (Req_EM_T (gc_f g) 0); [|contradiction]. destruct (Req_EM_T (sin (gc_arclen g)) 0); [contradiction|]. reflexivity.
  - unfold zlen. rewrite map_length, Lp. lia.
  - unfold zlen. rewrite map_length, Lp. lia.
  - intros k Hk. assert (E : nth_error ps (Z.to_nat k) = Some (sphere_point g (1 / (IZR n - 1) * IZR k))).
    { unfold ps. exact (map_nth_error (fun k => sphere_point g (1 / (IZR n - 1) * IZR k)) _ _ (zrange_nth_error n k Hk)). }
    pose proof (sphere_point_on g az (1 / (IZR n - 1) * IZR k) SN) as S. rewrite G1, G2, G3, G4, G5 in S. specialize (S W). destruct (sphere_point g (1 / (IZR n - 1) * IZR k)) as [lon lat].
    exists lon, lat. split; [exact (map_nth_error fst _ _ E)|]. split; [exact (map_nth_error snd _ _ E)|]. destruct S as (S1 & S2 & S3). split; [exact S1|]. split; [exact S2|]. rewrite S3. f_equal. field.
    assert (3 <= IZR n) by (apply (IZR_le 3); exact Hn). lra.
Qed.

(** The same place twice: on a sphere every coordinate is NaN, on an ellipsoid the division of
    a zero by a zero raises. *)
Theorem C71_same_point_refuted : forall fuel a b lon lat n, 0 < a -> 0 <= (a - b) / a <= 1 / 100 -> latitude (lat * deg) -> (3 <= n)%Z ->
  exists g, great_circle_init fuel a b lon lat lon lat = Some (Ok g) /\
    (a = b -> points fuel g n = Some (Err NonFinite)) /\ (a <> b -> points fuel g n = Some (Err ZeroDivisionError)).
Proof.
  intros fuel a b lon lat n Ha Hf L Hn. set (p := lat * deg) in *. set (l := lon * deg). assert (NA : ~ apart p l p l).
  { unfold apart. replace (p - p) with 0 by ring. replace (l - l) with 0 by ring. rewrite Rabs_R0. assert (0 < / 10 ^ 8) by (apply Rinv_0_lt_compat, pow_lt; lra). lra. }
  pose proof (C62_close fuel ((a - b) / a) a p l p l NA) as D.
  assert (A0 : arc p l p l = 0). { unfold arc, dot, point. pose proof (sc p) as S1. pose proof (sc l) as S2. replace (_ + _ + _) with (cos 0); [apply acos_cos; pose proof PI_RGT_0; lra|]. rewrite cos_0.
    transitivity (cos p * cos p * (sin l * sin l + cos l * cos l) + sin p * sin p); [rewrite S2; lra|ring]. }
  unfold great_circle_init. rewrite !radians_deg, haversine. fold p l. rewrite A0. destruct (Req_EM_T a 0); [lra|]. rewrite D. destruct (Req_EM_T 0 PI) as [Q|_]; [pose proof PI_RGT_0; lra|].
  eexists. split; [reflexivity|]. unfold points. cbn [gc_a gc_f gc_lat1 gc_lat2 gc_lon1 gc_lon2 gc_distance gc_azimuth12 gc_azimuth21 gc_arclen gc_antipodal].
  rewrite (proj2 (Z.leb_gt n 1)) by lia. rewrite (proj2 (Z.eqb_neq n 2)) by lia. cbv zeta. split; intros H.
  - subst b. destruct (Req_EM_T ((a - a) / a) 0) as [|Q]; [|exfalso; apply Q; field; lra]. destruct (Req_EM_T (sin 0) 0) as [|Q]; [reflexivity|]. rewrite sin_0 in Q. lra.
  - destruct (Req_EM_T ((a - b) / a) 0) as [Q|Q]; [exfalso; apply H; apply (f_equal (fun t => t * a)) in Q; unfold Rdiv in Q; rewrite Rmult_assoc, Rinv_l in Q by lra; lra|].
    destruct (Z.to_nat (n - 2)) eqn:K; [lia|]. cbn [ellipsoid_points gc_a gc_f gc_lat1 gc_lat2 gc_lon1 gc_lon2]. replace (0 / (IZR n - 1)) with 0 by (unfold Rdiv; ring). rewrite (C70_zero_refuted fuel _ a p l 0 Hf Ha L). reflexivity.
Qed.

(** On an ellipsoid the ends are the given points; every point but the last is reached from the
    one before by the direct formulae, over an equal share of the distance, in the direction in
    which the inverse formulae see the second end from there. *)
Definition step (fuel : nat) (f a p2 l2 share lat lon lat' lon' : R) : Prop :=
  exists d az bz bz', vinc_dist fuel f a (lat * deg) (lon * deg) p2 l2 = Some (Ok (d, az, bz)) /\
                      vinc_pt fuel f a (lat * deg) (lon * deg) az share = Some (Ok (lat' * deg, lon' * deg, bz')).
Lemma ellipsoid_steps fuel g inc : forall k lat lon az lons lats, ellipsoid_points fuel k g inc lat lon az = Some (Ok (lons, lats)) ->
  (exists d bz, vinc_dist fuel (gc_f g) (gc_a g) lat lon (gc_lat2 g) (gc_lon2 g) = Some (Ok (d, az, bz))) ->
  length lons = k /\ length lats = k /\
  forall i, (i < k)%nat -> exists lo la lo' la', nth_error (degrees lon :: lons) i = Some lo /\ nth_error (degrees lat :: lats) i = Some la /\
    nth_error lons i = Some lo' /\ nth_error lats i = Some la' /\ step fuel (gc_f g) (gc_a g) (gc_lat2 g) (gc_lon2 g) inc la lo la' lo'.
Proof.
  induction k as [|k IH]; intros lat lon az lons lats H [d [bz V]]; cbn [ellipsoid_points] in H.
  - injection H as <- <-. repeat split. intros i Hi. lia.
  - destruct (vinc_pt _ _ _ _ _ _ _) as [[[[la' lo'] bz']|]|] eqn:P; try discriminate. destruct (vinc_dist _ _ _ la' lo' _ _) as [[[[d' az'] bz'']|]|] eqn:Q; try discriminate.
    destruct (ellipsoid_points fuel k g inc la' lo' az') as [[[lons' lats']|]|] eqn:E; try discriminate. injection H as <- <-.
    destruct (IH _ _ _ _ _ E) as (L1 & L2 & S); [eauto|]. split; [cbn [length]; lia|]. split; [cbn [length]; lia|]. intros [|i] Hi.
    + cbn [nth_error]. do 4 eexists. do 4 (split; [reflexivity|]). exists d, az, bz, bz'. rewrite !degrees_deg. auto.
    + destruct (S i) as (lo & la & lo2 & la2 & A & B & C & D & F); [lia|]. exists lo, la, lo2, la2. repeat split; assumption.
Qed.
Theorem C71_ellipsoid : forall fuel a b lon1 lat1 lon2 lat2 g n lons lats, great_circle_init fuel a b lon1 lat1 lon2 lat2 = Some (Ok g) -> a <> b -> (3 <= n)%Z ->
  points fuel g n = Some (Ok (lons, lats)) ->
  zlen lons = n /\ zlen lats = n /\ nth_error lons 0 = Some lon1 /\ nth_error lats 0 = Some lat1 /\
  nth_error lons (Z.to_nat (n - 1)) = Some lon2 /\ nth_error lats (Z.to_nat (n - 1)) = Some lat2 /\
  exists distance az12 az21, vinc_dist fuel ((a - b) / a) a (lat1 * deg) (lon1 * deg) (lat2 * deg) (lon2 * deg) = Some (Ok (distance, az12, az21)) /\
  forall i, (S i < Z.to_nat (n - 1))%nat -> exists lon lat lon' lat',
    nth_error lons i = Some lon /\ nth_error lats i = Some lat /\ nth_error lons (S i) = Some lon' /\ nth_error lats (S i) = Some lat' /\
    step fuel ((a - b) / a) a (lat2 * deg) (lon2 * deg) (distance / (IZR n - 1)) lat lon lat' lon'.
Proof.
  intros fuel a b lon1 lat1 lon2 lat2 g n lons lats H AB Hn P. destruct (init_inv _ _ _ _ _ _ _ _ H) as (d & a12 & a21 & V & NA & G).
  assert (NF : gc_f g <> 0). { rewrite G. cbn [gc_f]. intros Q. apply AB. apply (f_equal (fun t => t * a)) in Q. unfold Rdiv in Q. rewrite Rmult_assoc, Rinv_l in Q by exact NA. lra. }
  unfold points in P. rewrite (proj2 (Z.leb_gt n 1)) in P by lia. rewrite (proj2 (Z.eqb_neq n 2)) in P by lia. destruct (gc_antipodal g); [discriminate|]. cbv zeta in P. destruct (Req_EM_T (gc_f g) 0) as [|_]; [contradiction|].
  destruct (ellipsoid_points _ _ _ _ _ _ _) as [[[ls ps]|]|] eqn:E; try discriminate. injection P as <- <-.
  assert (V' : exists d bz, vinc_dist fuel (gc_f g) (gc_a g) (gc_lat1 g) (gc_lon1 g) (gc_lat2 g) (gc_lon2 g) = Some (Ok (d, gc_azimuth12 g, bz))) by (rewrite G; cbn [gc_a gc_f gc_lat1 gc_lat2 gc_lon1 gc_lon2 gc_azimuth12]; eauto).
  destruct (ellipsoid_steps _ _ _ _ _ _ _ _ _ E V') as (L1 & L2 & S).
  assert (D1 : degrees (gc_lon1 g) = lon1 /\ degrees (gc_lat1 g) = lat1 /\ degrees (gc_lon2 g) = lon2 /\ degrees (gc_lat2 g) = lat2) by (rewrite G; cbn [gc_lat1 gc_lat2 gc_lon1 gc_lon2]; rewrite <- !radians_deg, !degrees_radians; auto).
  destruct D1 as (D1 & D2 & D3 & D4). rewrite D1, D2, D3, D4 in *.
  assert (K : Z.to_nat (n - 1) = Datatypes.S (Z.to_nat (n - 2))) by lia.
  split; [unfold zlen; cbn [length]; rewrite app_length; cbn [length]; lia|]. split; [unfold zlen; cbn [length]; rewrite app_length; cbn [length]; lia|]. do 2 (split; [reflexivity|]).
  split; [rewrite K; cbn [nth_error]; rewrite nth_error_app2 by lia; rewrite L1, Nat.sub_diag; reflexivity|].
  split; [rewrite K; cbn [nth_error]; rewrite nth_error_app2 by lia; rewrite L2, Nat.sub_diag; reflexivity|].
  exists d, a12, a21. split; [exact V|]. intros i Hi. destruct (S i) as (lo & la & lo' & la' & A & B & C & D & F); [lia|]. exists lo, la, lo', la'.
  assert (N1 : forall (x : R) (l m : list R) v, nth_error l i = Some v -> nth_error (l ++ m) i = Some v) by (intros x l m v N; rewrite nth_error_app1; [exact N|apply nth_error_Some; congruence]).
  split; [rewrite app_comm_cons; apply (N1 0); assumption|]. split; [rewrite app_comm_cons; apply (N1 0); assumption|]. cbn [nth_error]. split; [apply (N1 0); assumption|]. split; [apply (N1 0); assumption|].
  revert F. rewrite G. cbn [gc_a gc_f gc_lat2 gc_lon2 gc_distance]. exact (fun F => F).
Qed.

(** Such a step follows a geodesic of that length. *)
Theorem C71_step_geodesic : forall fuel f a p2 l2 share lat lon lat' lon', 0 <= f <= 1 / 100 -> 0 < a -> latitude (lat * deg) -> 0 < share -> (5 <= fuel)%nat ->
  step fuel f a p2 l2 share lat lon lat' lon' ->
  exists az sg u lam dlon len, geodesic_from f a (reduced f (lat * deg)) az sg u lam dlon len /\ 0 < sg /\ - PI < lam <= PI /\ reduced_of f (lat' * deg) u /\
    Rabs (len - share) <= (f ^ 3 / 25 + / 10 ^ 10) * len /\ Rabs (lon' * deg - lon * deg - dlon) <= (2 * f ^ 4 + f / 10 ^ 11) * sg.
Proof.
  intros fuel f a p2 l2 share lat lon lat' lon' Hf Ha L Hs Hn (d & az & bz & bz' & _ & P).
  destruct (C70_direct fuel f a (lat * deg) (lon * deg) az share Hf Ha L Hs Hn) as (p & l & z & E & _ & sg & u & lam & dlon & len & G & S & Rl & Rd & B1 & B2 & _).
  rewrite P in E. injection E as <- <- <-. exists az, sg, u, lam, dlon, len. auto 10.
Qed.

(** ** Examples *)
Lemma meridian_exists f a u1 u2 : 0 <= f < 1 -> 0 < a -> u1 <= u2 -> exists len, meridian_arc f a u1 u2 len.
Proof.
  intros Hf Ha L. destruct (integral_exists (fun t => sqrt ((a * sin t) ^ 2 + (a * (1 - f) * cos t) ^ 2)) u1 u2 L) as (G & HG).
  - intros t _. apply derivable_continuous_pt. assert (D : derivable_pt (fun t => (a * sin t) ^ 2 + (a * (1 - f) * cos t) ^ 2) t) by reg.
    apply (derivable_pt_comp (fun t => (a * sin t) ^ 2 + (a * (1 - f) * cos t) ^ 2) sqrt t D). apply derivable_pt_sqrt.
    pose proof (sc t) as S. pose proof (sq_nonneg (sin t)) as S1. pose proof (sq_nonneg (cos t)) as S2. assert (A2 : 0 < a * a) by nra. assert (F2 : 0 < (1 - f) * (1 - f)) by nra.
    replace ((a * sin t) ^ 2 + (a * (1 - f) * cos t) ^ 2) with (a * a * (sin t * sin t + (1 - f) * (1 - f) * (cos t * cos t))) by ring. apply Rmult_lt_0_compat; [exact A2|].
    destruct (Req_dec (cos t) 0) as [Z|N]; [rewrite Z in *; lra|]. assert (0 < cos t * cos t) by nra. nra.
  - exists (G u2 - G u1), G. auto.
Qed.
Lemma arc_small u1 l1 u2 l2 : 0 <= cos u1 * cos u2 * cos (l2 - l1) + sin u1 * sin u2 -> arc u1 l1 u2 l2 <= PI / 2.
Proof.
  intros H. rewrite sigma_arc. destruct (sigma_facts u1 u2 (l2 - l1)) as (C & _ & _ & R & _). cbv zeta in *. set (d := sigma_of u1 u2 (l2 - l1)) in *. apply Rnot_lt_le. intros Q.
  pose proof (cos_lt_0 d Q ltac:(lra)) as N. rewrite C in N. unfold KK in N. lra.
Qed.
Lemma geodesic_from_len f a u1 az sg u2 lam dlon len : 0 <= f <= 1 / 100 -> 0 < a -> 0 <= sg -> geodesic_from f a u1 az sg u2 lam dlon len -> a * (1 - f) * sg <= len.
Proof.
  intros Hf Ha Hs (_ & al & s1 & _ & _ & _ & _ & K). cbv zeta in K. destruct K as ((G & HG & ->) & _). set (b := a * (1 - f)) in *. assert (Hb : 0 < b) by (unfold b; nra). pose proof (ecc2_bound f Hf) as [E0 _].
  pose proof (integral_ge1 (fun t => / b * G t) (fun t => / b * (b * sqrt (1 + cos al ^ 2 * ecc2 f * sin t ^ 2))) s1 (s1 + sg) ltac:(lra)) as Q. cbv beta in Q.
  assert (Q' : s1 + sg - s1 <= / b * G (s1 + sg) - / b * G s1).
  { apply Q; [intros t Ht; apply (derivable_pt_lim_scal G (/ b)), HG, Ht|]. intros t _. rewrite <- Rmult_assoc, Rinv_l, Rmult_1_l by lra. rewrite <- sqrt_1 at 1. apply sqrt_le_1_alt.
    assert (0 <= cos al ^ 2 * ecc2 f * sin t ^ 2) by (apply Rmult_le_pos; [apply Rmult_le_pos; [apply pow2_ge_0|exact E0]|apply pow2_ge_0]). lra. }
  apply (Rmult_le_compat_l b) in Q'; [|lra]. replace (b * (/ b * G (s1 + sg) - / b * G s1)) with (G (s1 + sg) - G s1) in Q' by (field; lra). lra.
Qed.

(** Three points from 0 to 45 degrees north on an ellipsoid with flattening 1/100. *)
Example C71_ellipsoid_example : exists g lons lats, great_circle_init 9 1 (99 / 100) 0 0 0 45 = Some (Ok g) /\ points 9 g 3 = Some (Ok (lons, lats)).
Proof.
  set (f := (1 - 99 / 100) / 1). assert (Ef : f = 1 / 100) by (unfold f; field). assert (Hf : 0 <= f <= 1 / 100) by lra.
  pose proof pi_bounds as PB. set (p2 := PI / 4). assert (L1 : latitude 0) by (unfold latitude; lra). assert (L2 : latitude p2) by (unfold latitude, p2; lra).
  destruct (reduced_lt f 0 p2 ltac:(lra) L1 L2 ltac:(unfold p2; lra)) as [B1 B2]. assert (R0 : reduced f 0 = 0) by (unfold reduced; rewrite tan_0, Rmult_0_r; apply atan_0). rewrite R0 in *. set (u2 := reduced f p2) in *.
  assert (Ap : apart 0 0 p2 0) by (left; rewrite Rabs_pos_eq by (unfold p2; lra); unfold p2; assert (/ 10 ^ 8 <= 1 / 2) by (cbn [pow]; lra); lra).
  destruct (meridian_exists f 1 0 u2 ltac:(lra) ltac:(lra) ltac:(lra)) as (len & M). rewrite <- R0 in M at 1.
  destruct (C62_meridian 9 f 1 0 p2 0 len Hf ltac:(lra) L1 L2 ltac:(unfold p2; lra) Ap ltac:(lia) M) as (s & E & _ & _).
  assert (L0 : Rabs (0 - 0) <= PI) by (rewrite Rminus_0_r, Rabs_R0; lra).
  destruct (C62_between 9 f 1 0 0 p2 0 s 0 PI Hf ltac:(lra) L1 L2 L0 Ap E) as (S0 & lam & Hl & S1 & S2). rewrite R0 in S1, S2. fold u2 in S1, S2. set (sg := arc 0 0 u2 lam) in *.
  assert (Sg : sg <= PI / 2).
  { apply arc_small. rewrite cos_0, sin_0. rewrite Rminus_0_r in *. apply abs_between in Hl. assert (0 <= cos lam) by (apply cos_ge_0; lra). assert (0 <= cos u2) by (apply cos_ge_0; lra).
    assert (0 <= cos u2 * cos lam) by (apply Rmult_le_pos; assumption). lra. }
  assert (F4 : f ^ 4 / 4 <= 1 / 10 ^ 8) by (rewrite Ef; cbn [pow]; lra). assert (F4' : 0 <= f ^ 4) by (apply pow_le; lra).
  assert (Sb : s / 2 <= 788 / 1000). { assert (1 * (1 + f ^ 4 / 4) * sg <= 1 * (1 + 1 / 10 ^ 8) * (PI / 2)) by (apply Rmult_le_compat; [|pose proof (acos_bound (dot (point 0 0) (point u2 lam))) as [Q _]; exact Q| |]; lra). cbn [pow] in *. lra. }
  destruct (C70_direct 9 f 1 0 0 0 (s / 2) Hf ltac:(lra) L1 ltac:(lra) ltac:(lia)) as (phi & lon & az & P & _ & sg' & u & l' & dlon & len' & G & Sp & Rl & (Rp & Ru & Rd) & D1 & D2 & _).
  pose proof (geodesic_from_len _ _ _ _ _ _ _ _ _ Hf Rlt_0_1 (Rlt_le _ _ Sp) G) as GL. destruct G as (W & al & s1 & _ & Al & _ & _ & K). cbv zeta in K. destruct K as (_ & v & _ & Dl).
  rewrite R0 in W, Al. rewrite sin_0, Rmult_0_r in Al. rewrite Al in Dl.
  assert (Sg' : 0 < sg' <= 4 / 5).
  { split; [exact Sp|]. assert (Kf : f ^ 3 / 25 + / 10 ^ 10 <= 1 / 10 ^ 6) by (rewrite Ef; cbn [pow]; lra). assert (0 <= f ^ 3) by (apply pow_le; lra). assert (0 < 1 * (1 - f) * sg') by (apply Rmult_lt_0_compat; lra). assert (0 < len') by lra. apply abs_between in D1. assert ((f ^ 3 / 25 + / 10 ^ 10) * len' <= 1 / 10 ^ 6 * len') by (apply Rmult_le_compat_r; lra). cbn [pow] in *. rewrite Ef in GL. lra. }
  unfold walk, point, north, east, vadd, vscale in W. rewrite cos_0, sin_0 in W. injection W as W1 W2 W3. assert (Cs : 0 < cos sg') by (apply cos_gt_0; lra). assert (Ss : 0 < sin sg') by (apply sin_gt_0; lra).
  assert (Cu : 0 <= cos u) by (apply cos_ge_0; lra). assert (Cu' : 0 < cos u) by (destruct (Req_dec (cos u) 0) as [Z|]; [rewrite Z in W1|]; lra).
  assert (Cl : 0 < cos l') by (apply Rmult_lt_reg_l with (cos u); lra). assert (Sl : sin l' = 0) by (destruct (Rmult_integral (cos u) (sin l')); lra).
  assert (l' = 0). { destruct (Rtotal_order l' 0) as [N|[Z|N]]; [|exact Z|]; exfalso; [pose proof (sin_lt_0_var l' ltac:(lra) N); lra|]. destruct (Req_dec l' PI) as [->|]; [rewrite cos_PI in Cl; lra|]. pose proof (sin_gt_0 l' N ltac:(lra)). lra. }
  subst l'. rewrite Dl in D2. assert (Lo : Rabs (0 - lon) <= 1).
  { rewrite Rabs_minus_sym. replace (lon - 0 - (0 - f * 0 * v)) with (lon - 0) in D2 by ring. assert (2 * f ^ 4 + f / 10 ^ 11 <= 1) by (rewrite Ef; cbn [pow]; lra). apply Rle_trans with (1 := D2). apply Rle_trans with (1 * sg'); [apply Rmult_le_compat_r; lra|lra]. }
  assert (Cp : cos phi <> 0). { intros Z. rewrite Z, Rmult_0_r in Rd. pose proof (sc phi) as T. rewrite Z in T. assert (sin phi = 0) by (assert (0 = (1 - f) * cos u * sin phi) by lra; destruct (Rmult_integral ((1 - f) * cos u) (sin phi)) as [Y|Y]; [lra| |exact Y]; assert (0 < (1 - f) * cos u) by (apply Rmult_lt_0_compat; lra); lra). nra. }
  assert (Lp : latitude phi). { unfold latitude. destruct Rp as [[Q|Q] [Q'|Q']]; [split; assumption| | |]; exfalso; apply Cp; [subst phi; apply cos_PI2|rewrite <- Q, cos_neg; apply cos_PI2|lra]. }
  assert (Ur : reduced f phi = u). { unfold reduced. rewrite <- (atan_tan u). f_equal; unfold tan; apply Rmult_eq_reg_r with (cos phi * cos u); [|apply Rmult_integral_contrapositive_currified; lra]; field_simplify; lra.
    assert (u <> PI / 2 /\ u <> - (PI / 2)) by (split; intros ->; rewrite ?cos_neg, cos_PI2 in Cu'; lra). lra. }
  assert (V : exists d z z', vinc_dist 9 f 1 phi lon p2 0 = Some (Ok (d, z, z'))).
  { assert (Dec : apart phi lon p2 0 \/ ~ apart phi lon p2 0) by (unfold apart; destruct (Rle_dec (/ 10 ^ 8) (Rabs (p2 - phi))); destruct (Rle_dec (/ 10 ^ 8) (Rabs (0 - lon))); tauto).
    destruct Dec as [Y|Y]; [|do 3 eexists; apply (C62_close 9 f 1 _ _ _ _ Y)]. apply C62_terminates; [exact Hf|lra|exact Lp|exact L2|right; unfold p2; lra|lra|exact Y| |lia].
    apply Rle_trans with (PI / 2); [|lra]. apply arc_small. rewrite Ur. fold u2. apply abs_between in Lo. assert (0 <= cos (0 - lon)) by (apply cos_ge_0; lra). assert (0 <= sin u2) by (apply sin_ge_0; lra). assert (0 <= cos u2) by (apply cos_ge_0; lra).
    assert (0 <= sin u) by lra. assert (0 <= cos u * cos u2 * cos (0 - lon)) by (repeat apply Rmult_le_pos; assumption). assert (0 <= sin u * sin u2) by (apply Rmult_le_pos; assumption). lra. }
  destruct V as (d & z & z' & V).
  assert (I : exists g, great_circle_init 9 1 (99 / 100) 0 0 0 45 = Some (Ok g)).
  { unfold great_circle_init. rewrite !radians_deg. replace (0 * deg) with 0 by ring. replace (45 * deg) with p2 by (unfold deg, p2; field). destruct (Req_EM_T 1 0); [lra|]. fold f. rewrite E. eauto. }
  destruct I as (g & I). exists g. destruct (init_inv _ _ _ _ _ _ _ _ I) as (d0 & a12 & a21 & V0 & _ & G). fold f in V0, G. replace (0 * deg) with 0 in V0, G by ring. replace (45 * deg) with p2 in V0, G by (unfold deg, p2; field). rewrite E in V0. injection V0 as <- <- <-.
  assert (Na : arc 0 0 p2 0 <> PI) by (pose proof (arc_small 0 0 p2 0) as Q; rewrite Rminus_0_r, !cos_0, sin_0 in Q; assert (0 <= cos p2) by (apply cos_ge_0; unfold p2; lra); lra).
  unfold points. change (3 <=? 1)%Z with false. change (3 =? 2)%Z with false. change (Z.to_nat (3 - 2)) with 1%nat. rewrite G. cbv iota zeta. cbn [gc_a gc_f gc_lat1 gc_lat2 gc_lon1 gc_lon2 gc_distance gc_azimuth12 gc_azimuth21 gc_arclen gc_antipodal ellipsoid_points].
  destruct (Req_EM_T (arc 0 0 p2 0) PI); [contradiction|]. destruct (Req_EM_T f 0); [lra|]. replace (s / (3 - 1)) with (s / 2) by (unfold Rdiv; do 2 f_equal; ring). rewrite P, V. do 2 eexists. split; [|reflexivity]. rewrite I, G. reflexivity.
Qed.

(** Four points from 0 to 60 degrees north on a sphere. *)
Example C71_sphere_example : exists g lons lats, great_circle_init 1 1 1 0 0 0 60 = Some (Ok g) /\ points 1 g 4 = Some (Ok (lons, lats)) /\ zlen lats = 4%Z.
Proof.
  pose proof pi_bounds as PB. set (p2 := PI / 3). assert (Ar : arc 0 0 p2 0 = PI / 3).
  { unfold arc, dot, point. rewrite cos_0, sin_0. replace (1 * 1 * (cos p2 * 1) + 1 * 0 * (cos p2 * 0) + 0 * sin p2) with (cos p2) by ring. apply acos_cos. unfold p2. lra. }
  assert (Ap : apart 0 0 p2 0) by (left; rewrite Rabs_pos_eq by (unfold p2; lra); unfold p2; assert (/ 10 ^ 8 <= 1 / 2) by (cbn [pow]; lra); lra).
  destruct (C62_sphere 1 1 0 0 p2 0) as (z1 & z2 & E & _); [lra|unfold latitude; lra|unfold latitude, p2; lra|right; unfold p2; lra|rewrite Rminus_0_r, Rabs_R0; lra|exact Ap|rewrite Ar; lra|lia|].
  assert (I : exists g, great_circle_init 1 1 1 0 0 0 60 = Some (Ok g)).
  { unfold great_circle_init. rewrite !radians_deg. replace (0 * deg) with 0 by ring. replace (60 * deg) with p2 by (unfold deg, p2; field). destruct (Req_EM_T 1 0); [lra|]. replace ((1 - 1) / 1) with 0 by field. rewrite E. eauto. }
  destruct I as (g & I). destruct (C71_sphere 1 1 0 0 0 60 g 4 I ltac:(lia)) as (lons & lats & az & P & _ & Q & _).
  - replace (0 * deg) with 0 by ring. replace (60 * deg) with p2 by (unfold deg, p2; field). rewrite Ar. lra.
  - exists g, lons, lats. auto.
Qed.

Print Assumptions C71_attributes.
Print Assumptions C71_requests.
Print Assumptions C71_sphere.
Print Assumptions C71_same_point_refuted.
Print Assumptions C71_ellipsoid.
Print Assumptions C71_step_geodesic.
