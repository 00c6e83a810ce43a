(** * Lemmas on the direct geodesic formulae. *)
From Coq Require Import Reals Lia ZArith.
From Verif Require Import Base Atan2 VincModel VincSpec VincProofs VincSeries VincRunProofs VincGeoProofs VincTermProofs DirSpec.
From Coq Require Import Lra.
Local Open Scope R_scope.

(** ** The correction of the angle *)
Lemma sin_lip x z : Rabs (sin x - sin z) <= Rabs (x - z).
Proof. rewrite <- !cos_shift. apply Rle_trans with (1 := cos_lip _ _). right. rewrite <- Rabs_Ropp. f_equal. ring. Qed.

(** Bounded by [M] and Lipschitz with constant [K]. *)
Definition lip (g : R -> R) (M K : R) : Prop := (forall x, Rabs (g x) <= M) /\ (forall x z, Rabs (g x - g z) <= K * Rabs (x - z)).
Lemma lip_mul g h M K M' K' : lip g M K -> lip h M' K' -> lip (fun x => g x * h x) (M * M') (M * K' + M' * K).
Proof.
  intros [B L] [B' L']. split; [intros x; apply am; auto|]. intros x z.
  replace (g x * h x - g z * h z) with (g x * (h x - h z) + h z * (g x - g z)) by ring.
  replace ((M * K' + M' * K) * Rabs (x - z)) with (M * (K' * Rabs (x - z)) + M' * (K * Rabs (x - z))) by ring. apply ap; apply am; auto.
Qed.
Lemma lip_add g h M K M' K' : lip g M K -> lip h M' K' -> lip (fun x => g x + h x) (M + M') (K + K').
Proof.
  intros [B L] [B' L']. split; [intros x; apply ap; auto|]. intros x z. replace (g x + h x - (g z + h z)) with ((g x - g z) + (h x - h z)) by ring.
  rewrite Rmult_plus_distr_r. apply ap; auto.
Qed.
Lemma lip_scale c g M K : lip g M K -> lip (fun x => c * g x) (Rabs c * M) (Rabs c * K).
Proof.
  intros [B L]. split; [intros x; apply am; [lra|auto]|]. intros x z. rewrite <- Rmult_minus_distr_l, Rmult_assoc. apply am; [lra|auto].
Qed.
Lemma lip_le g M K M' K' : lip g M K -> M <= M' -> K <= K' -> lip g M' K'.
Proof.
  intros [B L] H1 H2. split; [intros x; specialize (B x); lra|]. intros x z. specialize (L x z). pose proof (Rabs_pos (x - z)). nra.
Qed.
Lemma lip_ext g h M K : (forall x, g x = h x) -> lip g M K -> lip h M K.
Proof. intros E [B L]. split; intros; rewrite <- !E; auto. Qed.
Lemma lip_sin : lip sin 1 1. Proof. split; [apply abs_sin|]. intros x z. rewrite Rmult_1_l. apply sin_lip. Qed.
Lemma lip_cos : lip cos 1 1. Proof. split; [apply abs_cos|]. intros x z. rewrite Rmult_1_l. apply cos_lip. Qed.
Lemma lip_cos_shift c : lip (fun x => cos (c + x)) 1 1.
Proof. split; [intros; apply abs_cos|]. intros x z. rewrite Rmult_1_l. apply Rle_trans with (1 := cos_lip _ _). right. f_equal. ring. Qed.
(** -3 + 4 t^2 for |t| <= 1. *)
Lemma lip_34 g : lip g 1 1 -> lip (fun x => -3 + 4 * g x ^ 2) 3 8.
Proof.
  intros [B L]. split.
  - intros x. pose proof (abs_between _ _ (B x)). apply Rabs_le. nra.
  - intros x z. replace (-3 + 4 * g x ^ 2 - (-3 + 4 * g z ^ 2)) with (4 * (g x + g z) * (g x - g z)) by ring.
    rewrite Rabs_mult. apply Rle_trans with (8 * Rabs (g x - g z)); [|specialize (L x z); lra]. apply Rmult_le_compat_r; [apply Rabs_pos|].
    pose proof (abs_between _ _ (B x)). pose proof (abs_between _ _ (B z)). apply Rabs_le. lra.
Qed.
Lemma lip_12 g : lip g 1 1 -> lip (fun x => -1 + 2 * g x ^ 2) 1 4.
Proof.
  intros [B L]. split.
  - intros x. pose proof (abs_between _ _ (B x)). apply Rabs_le. nra.
  - intros x z. replace (-1 + 2 * g x ^ 2 - (-1 + 2 * g z ^ 2)) with (2 * (g x + g z) * (g x - g z)) by ring.
    rewrite Rabs_mult. apply Rle_trans with (4 * Rabs (g x - g z)); [|specialize (L x z); lra]. apply Rmult_le_compat_r; [apply Rabs_pos|].
    pose proof (abs_between _ _ (B x)). pose proof (abs_between _ _ (B z)). apply Rabs_le. lra.
Qed.

(** The bracket of the correction. *)
Definition bracket (B s1 x : R) : R :=
  let c2 := cos (2 * s1 + x) in
  c2 + B / 4 * (cos x * (-1 + 2 * c2 ^ 2 - B / 6 * c2 * (-3 + 4 * (sin x) ^ 2) * (-3 + 4 * c2 ^ 2))).
Lemma bracket_lip B s1 : 0 <= B <= 54 / 10000 -> lip (bracket B s1) (1002 / 1000) (1008 / 1000).
Proof.
  intros HB. unfold bracket.
  pose proof (lip_cos_shift (2 * s1)) as C2. pose proof (lip_12 _ C2) as L12. pose proof (lip_34 _ C2) as L34. pose proof (lip_34 _ lip_sin) as S34.
  pose proof (lip_mul _ _ _ _ _ _ S34 L34) as P1. pose proof (lip_mul _ _ _ _ _ _ C2 P1) as P2.
  pose proof (lip_scale (- (B / 6)) _ _ _ P2) as P3. rewrite Rabs_Ropp, (Rabs_pos_eq (B / 6)) in P3 by lra.
  pose proof (lip_add _ _ _ _ _ _ L12 P3) as P4.
  assert (P4' : lip (fun x => -1 + 2 * cos (2 * s1 + x) ^ 2 + - (B / 6) * (cos (2 * s1 + x) * ((-3 + 4 * sin x ^ 2) * (-3 + 4 * cos (2 * s1 + x) ^ 2)))) (11 / 10) (41 / 10)) by (apply (lip_le _ _ _ _ _ P4); lra).
  pose proof (lip_mul _ _ _ _ _ _ lip_cos P4') as P5. pose proof (lip_scale (B / 4) _ _ _ P5) as P6. rewrite (Rabs_pos_eq (B / 4)) in P6 by lra.
  pose proof (lip_add _ _ _ _ _ _ C2 P6) as P7. cbv beta in P7. refine (lip_le _ _ _ _ _ (lip_ext _ _ _ _ _ P7) _ _); [|lra|lra].
  intros x. cbv beta. ring.
Qed.
Lemma delta_bracket B s1 x : dir_delta_sigma B x (2 * s1 + x) = B * sin x * bracket B s1 x.
Proof. reflexivity. Qed.
Lemma delta_lip B s1 x z : 0 <= B <= 54 / 10000 -> Rabs (dir_delta_sigma B x (2 * s1 + x) - dir_delta_sigma B z (2 * s1 + z)) <= / 90 * Rabs (x - z).
Proof.
  intros HB. rewrite !delta_bracket. pose proof (bracket_lip B s1 HB) as L. pose proof (lip_mul _ _ _ _ _ _ lip_sin L) as P.
  destruct (lip_scale B _ _ _ P) as [_ Q]. specialize (Q x z). rewrite (Rabs_pos_eq B) in Q by lra. rewrite !Rmult_assoc.
  apply Rle_trans with (1 := Q). apply Rmult_le_compat_r; [apply Rabs_pos|]. lra.
Qed.
Lemma delta_small B s1 x : 0 <= B <= 54 / 10000 -> Rabs (dir_delta_sigma B x (2 * s1 + x)) <= / 90 * Rabs x.
Proof.
  intros HB. rewrite delta_bracket. destruct (bracket_lip B s1 HB) as [L _]. rewrite Rmult_assoc. rewrite Rabs_mult, (Rabs_pos_eq B) by lra.
  pose proof (am _ _ _ _ (Rle_refl (Rabs (sin x))) (L x)) as M. pose proof (sin_lip x 0) as S. rewrite sin_0, !Rminus_0_r in S. pose proof (Rabs_pos (sin x)).
  pose proof (Rabs_pos x). assert (B * Rabs (sin x * bracket B s1 x) <= 54 / 10000 * (Rabs x * (1002 / 1000))) by (apply Rmult_le_compat; [lra|apply Rabs_pos|lra|nra]). lra.
Qed.
(** The misplaced parenthesis: distance from Vincenty's correction. *)
Lemma delta_paren B s1 x : 0 <= B -> Rabs (dir_delta_sigma B x (2 * s1 + x) - inv_delta_sigma B (sin x) (cos x) (sin x * sin x) (cos (2 * s1 + x))) <= B ^ 3 / 4 * Rabs x.
Proof.
  intros HB. unfold dir_delta_sigma, inv_delta_sigma. set (c := cos (2 * s1 + x)).
  match goal with |- Rabs ?t <= _ => replace t with (B ^ 3 / 24 * (sin x * ((1 - cos x) * ((-3 + 4 * (sin x * sin x)) * (c * (-3 + 4 * c ^ 2)))))) by field end.
  assert (P : 0 <= B ^ 3) by (apply pow_le; exact HB). rewrite Rabs_mult, (Rabs_pos_eq (B ^ 3 / 24)) by lra.
  assert (C : Rabs c <= 1) by apply abs_cos. pose proof (abs_between _ _ C). pose proof (abs_between _ _ (abs_cos x)). pose proof (abs_between _ _ (abs_sin x)).
  assert (E1 : Rabs (c * (-3 + 4 * c ^ 2)) <= 1).
  { assert (T : (c * (-3 + 4 * c ^ 2)) * (c * (-3 + 4 * c ^ 2)) <= 1).
    { assert (0 <= c * c <= 1) by (split; nra). replace ((c * (-3 + 4 * c ^ 2)) * (c * (-3 + 4 * c ^ 2))) with (1 - (1 - c * c) * ((4 * (c * c) - 1) * (4 * (c * c) - 1))) by ring.
      pose proof (sq_nonneg (4 * (c * c) - 1)). assert (0 <= (1 - c * c) * ((4 * (c * c) - 1) * (4 * (c * c) - 1))) by (apply Rmult_le_pos; lra). lra. }
    apply Rabs_le. split; nra. }
  assert (E2 : Rabs (-3 + 4 * (sin x * sin x)) <= 3) by (pose proof (sin_sq_bound x); apply Rabs_le; lra).
  assert (E3 : Rabs (1 - cos x) <= 2) by (apply Rabs_le; lra).
  pose proof (sin_lip x 0) as S. rewrite sin_0, !Rminus_0_r in S.
  pose proof (am _ _ _ _ S (am _ _ _ _ E3 (am _ _ _ _ E2 E1))) as M. pose proof (Rabs_pos x). 
  apply Rle_trans with (B ^ 3 / 24 * (Rabs x * (2 * (3 * 1)))); [apply Rmult_le_compat_l; lra|]. right. field.
Qed.

(** ** The loop *)
Section Loop.
Variables (sigma0 s1 B : R).
Hypothesis HB : 0 <= B <= 54 / 10000.
Hypothesis H0 : 0 < sigma0.
Let next x := sigma0 + dir_delta_sigma B x (2 * s1 + x).

(** [x] may be reached after [k] passes, having been at [y] before. *)
Definition reached (k : nat) (y x : R) : Prop := x = next y /\ Rabs (x - y) <= / 90 ^ k * sigma0 /\ 98 / 100 * sigma0 <= x <= 102 / 100 * sigma0.
Lemma reached_first : reached 1 sigma0 (next sigma0).
Proof.
  unfold reached, next. pose proof (delta_small B s1 sigma0 HB) as D. rewrite (Rabs_pos_eq sigma0) in D by lra. pose proof (abs_between _ _ D).
  split; [reflexivity|]. split; [|lra]. replace (sigma0 + _ - sigma0) with (dir_delta_sigma B sigma0 (2 * s1 + sigma0)) by ring. rewrite pow_1. exact D.
Qed.
Lemma reached_next k y x : reached k y x -> reached (S k) x (next x).
Proof.
  intros (E & D & R). split; [reflexivity|]. split.
  - replace (next x - x) with (dir_delta_sigma B x (2 * s1 + x) - dir_delta_sigma B y (2 * s1 + y)) by (assert (E' : x = sigma0 + dir_delta_sigma B y (2 * s1 + y)) by exact E; unfold next; lra).
    apply Rle_trans with (1 := delta_lip B s1 x y HB). replace (/ 90 ^ S k) with (/ 90 * / 90 ^ k) by (cbn [pow]; field; apply pow_nonzero; lra). pose proof (Rmult_le_compat_l (/ 90) _ _ ltac:(lra) D). lra.
  - unfold next. pose proof (delta_small B s1 x HB) as Q. rewrite (Rabs_pos_eq x) in Q by lra. pose proof (abs_between _ _ Q). lra.
Qed.
Lemma loop_stops k y x fuel : reached k y x -> (5 <= k)%nat -> direct_loop fuel sigma0 s1 B y x (Some (2 * s1 + y)) = Some (Ok (x, Some (2 * s1 + y))).
Proof.
  intros (E & D & R) Hk. assert (T : ~ 1 / 10 ^ 9 < Rabs ((y - x) / x)).
  { apply Rle_not_lt. unfold Rdiv. rewrite Rabs_mult, (Rabs_pos_eq (/ x)) by (left; apply Rinv_0_lt_compat; lra). rewrite Rabs_minus_sym.
    apply Rmult_le_reg_r with x; [lra|]. rewrite Rmult_assoc, Rinv_l, Rmult_1_r by lra. apply Rle_trans with (1 := D).
    assert (P : / 90 ^ k <= / 90 ^ 5). { apply Rinv_le_contravar; [apply pow_lt; lra|]. apply Rle_pow; [lra|exact Hk]. }
    apply Rle_trans with (/ 90 ^ 5 * sigma0); [apply Rmult_le_compat_r; lra|].
    apply Rle_trans with (1 * / 10 ^ 9 * (98 / 100 * sigma0)); [|apply Rmult_le_compat_l; [|lra]; rewrite Rmult_1_l; left; apply Rinv_0_lt_compat, pow_lt; lra].
    rewrite <- Rmult_assoc. apply Rmult_le_compat_r; [lra|]. cbn [pow]. lra. }
  destruct fuel; cbn [direct_loop]; (destruct (Req_EM_T x 0); [lra|]); destruct (Rlt_dec (1 / 10 ^ 9) (Rabs ((y - x) / x))); try contradiction; reflexivity.
Qed.
Lemma loop_from k : forall fuel y x, reached k y x -> (5 <= k + fuel)%nat ->
  exists k' y' x', direct_loop fuel sigma0 s1 B y x (Some (2 * s1 + y)) = Some (Ok (x', Some (2 * s1 + y'))) /\ reached k' y' x' /\ Rabs (y' - x') <= / 10 ^ 9 * x'.
Proof.
  intros fuel. revert k. induction fuel as [|n IH]; intros k y x H Hk.
  - exists k, y, x. rewrite (loop_stops k y x 0 H) by lia. split; [reflexivity|]. split; [exact H|].
    pose proof (loop_stops k y x 0 H ltac:(lia)) as E. cbn [direct_loop] in E. destruct H as (_ & _ & R). destruct (Req_EM_T x 0); [lra|]. destruct (Rlt_dec _ _) as [|N]; [discriminate|].
    apply Rnot_lt_le in N. unfold Rdiv in N. rewrite Rabs_mult, (Rabs_pos_eq (/ x)) in N by (left; apply Rinv_0_lt_compat; lra). apply (Rmult_le_compat_r x) in N; [|lra].
    rewrite Rmult_assoc, Rinv_l, Rmult_1_r, Rmult_1_l in N by lra. exact N.
  - cbn [direct_loop]. pose proof H as (_ & _ & R). destruct (Req_EM_T x 0); [lra|]. destruct (Rlt_dec _ _) as [G|N].
    + apply (IH (S k) x (next x)); [apply (reached_next k y x H)|lia].
    + exists k, y, x. split; [reflexivity|]. split; [exact H|].
      apply Rnot_lt_le in N. unfold Rdiv in N. rewrite Rabs_mult, (Rabs_pos_eq (/ x)) in N by (left; apply Rinv_0_lt_compat; lra). apply (Rmult_le_compat_r x) in N; [|lra].
      rewrite Rmult_assoc, Rinv_l, Rmult_1_r, Rmult_1_l in N by lra. exact N.
Qed.
Lemma loop_start fuel : (5 <= fuel)%nat ->
  exists y x, direct_loop fuel sigma0 s1 B (2 * sigma0 + 2) sigma0 None = Some (Ok (x, Some (2 * s1 + y))) /\
    x = sigma0 + dir_delta_sigma B y (2 * s1 + y) /\ Rabs (y - x) <= / 10 ^ 9 * x /\ 98 / 100 * sigma0 <= x <= 102 / 100 * sigma0.
Proof.
  intros Hf. destruct fuel as [|n]; [lia|]. cbn [direct_loop]. destruct (Req_EM_T sigma0 0); [lra|]. destruct (Rlt_dec _ _) as [_|N].
  - destruct (loop_from 1 n sigma0 (next sigma0) reached_first ltac:(lia)) as (k & y & x & E & (R1 & _ & R2) & D). exists y, x. split; [exact E|]. split; [exact R1|]. split; [exact D|exact R2].
  - exfalso. apply N. unfold Rdiv. rewrite Rabs_mult, (Rabs_pos_eq (/ sigma0)) by (left; apply Rinv_0_lt_compat; lra). rewrite Rabs_pos_eq by lra.
    apply Rlt_le_trans with 1; [cbn [pow]; lra|]. apply Rmult_le_reg_r with sigma0; [lra|]. rewrite Rmult_assoc, Rinv_l by lra. lra.
Qed.
End Loop.

(** ** The great circle *)
Section Circle.
Variables (u1 az sg : R).
Hypothesis C1 : 0 < cos u1.
Definition sal : R := cos u1 * sin az.
Definition dal : R := asin sal.
Definition ds1 : R := atan2 (tan u1) (cos az).
(** Components of the point reached, and of the direction there. *)
Definition dX : R := cos u1 * cos sg - sin u1 * sin sg * cos az.
Definition dY : R := sin sg * sin az.
Definition dZ : R := sin u1 * cos sg + cos u1 * sin sg * cos az.
Definition dW : R := sin u1 * sin sg - cos u1 * cos sg * cos az.
Definition du2 : R := asin dZ.
Definition dlam : R := atan2 dY dX.

Lemma sal_range : -1 <= sal <= 1.
Proof. unfold sal. pose proof (SIN_bound az). pose proof (COS_bound u1). split; nra. Qed.
Lemma sin_dal : sin dal = sal. Proof. apply sin_asin, sal_range. Qed.
Lemma cos_dal : 0 <= cos dal /\ cos dal * cos dal = 1 - sal * sal.
Proof.
  split; [unfold dal; rewrite cos_asin by apply sal_range; apply sqrt_pos|]. pose proof (sc dal) as S. rewrite sin_dal in S. lra.
Qed.
Lemma ds1_facts : sin u1 = cos dal * sin ds1 /\ cos u1 * cos az = cos dal * cos ds1.
Proof.
  assert (T : cos u1 * tan u1 = sin u1) by (unfold tan; field; lra).
  assert (N : cos u1 * norm2 (cos az) (tan u1) = cos dal).
  { destruct cos_dal as [P Q]. pose proof (norm2_nonneg (cos az) (tan u1)) as NN. pose proof (norm2_sqr (cos az) (tan u1)) as NS.
    assert (E : (cos u1 * norm2 (cos az) (tan u1)) * (cos u1 * norm2 (cos az) (tan u1)) = cos dal * cos dal).
    { rewrite Q. replace ((cos u1 * norm2 (cos az) (tan u1)) * (cos u1 * norm2 (cos az) (tan u1))) with (cos u1 * cos u1 * (norm2 (cos az) (tan u1) * norm2 (cos az) (tan u1))) by ring.
      rewrite NS. replace (cos u1 * cos u1 * (cos az * cos az + tan u1 * tan u1)) with (cos u1 * cos u1 * (cos az * cos az) + (cos u1 * tan u1) * (cos u1 * tan u1)) by ring. rewrite T.
      unfold sal. pose proof (sc u1). pose proof (sc az). replace (cos az * cos az) with (1 - sin az * sin az) by lra. replace (sin u1 * sin u1) with (1 - cos u1 * cos u1) by lra. ring. }
    assert (0 <= cos u1 * norm2 (cos az) (tan u1)) by (apply Rmult_le_pos; lra). apply Rsqr_inj; [assumption|assumption|exact E]. }
  unfold ds1. rewrite <- N, !Rmult_assoc, atan2_sin, atan2_cos. split; [symmetry; exact T|reflexivity].
Qed.
Lemma dZ_eq : dZ = cos dal * sin (ds1 + sg).
Proof. destruct ds1_facts as [A B]. unfold dZ. rewrite sin_plus. replace (cos u1 * sin sg * cos az) with ((cos u1 * cos az) * sin sg) by ring. rewrite A, B. ring. Qed.
Lemma dW_eq : dW = - (cos dal * cos (ds1 + sg)).
Proof. destruct ds1_facts as [A B]. unfold dW. rewrite cos_plus. replace (cos u1 * cos sg * cos az) with ((cos u1 * cos az) * cos sg) by ring. rewrite A, B. ring. Qed.
Lemma dZ_range : -1 <= dZ <= 1.
Proof.
  rewrite dZ_eq. pose proof (SIN_bound (ds1 + sg)). pose proof (COS_bound dal). destruct cos_dal as [P _]. split; nra.
Qed.
Lemma du2_range : - (PI / 2) <= du2 <= PI / 2. Proof. apply asin_bound. Qed.
Lemma sin_du2 : sin du2 = dZ. Proof. apply sin_asin, dZ_range. Qed.
Lemma cos_du2 : 0 <= cos du2 /\ cos du2 * cos du2 = 1 - dZ * dZ.
Proof. split; [apply cos_ge_0; apply du2_range|]. pose proof (sc du2) as S. rewrite sin_du2 in S. lra. Qed.
Lemma dW_sqr : sal * sal + dW * dW = cos du2 * cos du2.
Proof.
  destruct cos_du2 as [_ ->]. rewrite dW_eq, dZ_eq. destruct cos_dal as [_ Q]. pose proof (sc (ds1 + sg)) as S.
  replace (sal * sal) with (1 - cos dal * cos dal) by lra. replace (cos dal * sin (ds1 + sg) * (cos dal * sin (ds1 + sg))) with (cos dal * cos dal * (sin (ds1 + sg) * sin (ds1 + sg))) by ring.
  replace (sin (ds1 + sg) * sin (ds1 + sg)) with (1 - cos (ds1 + sg) * cos (ds1 + sg)) by lra. ring.
Qed.
Lemma dXY_sqr : dX * dX + dY * dY = cos du2 * cos du2.
Proof.
  destruct cos_du2 as [_ ->]. unfold dX, dY, dZ. pose proof (sc u1). pose proof (sc sg). pose proof (sc az).
  replace (sin sg * sin az * (sin sg * sin az)) with (sin sg * sin sg * (sin az * sin az)) by ring. replace (sin az * sin az) with (1 - cos az * cos az) by lra.
  match goal with |- ?l = ?r => enough (l - r = 0) by lra; replace (l - r) with ((sin u1 * sin u1 + cos u1 * cos u1) * (cos sg * cos sg + sin sg * sin sg * (cos az * cos az)) + sin sg * sin sg * (1 - cos az * cos az) - 1) by ring end.
  replace (sin u1 * sin u1 + cos u1 * cos u1) with 1 by lra. replace (cos sg * cos sg) with (1 - sin sg * sin sg) by lra. ring.
Qed.
Lemma norm_abs x y c : 0 <= c -> x * x + y * y = c * c -> norm2 x y = c.
Proof. intros P E. unfold norm2. rewrite E. apply sqrt_square. exact P. Qed.
Lemma dlam_facts : cos du2 * cos dlam = dX /\ cos du2 * sin dlam = dY.
Proof. destruct cos_du2 as [P _]. pose proof (norm_abs dX dY _ P dXY_sqr) as N. unfold dlam. rewrite <- N. split; [apply atan2_cos|apply atan2_sin]. Qed.
Lemma walk_there : walk u1 0 az sg = point du2 dlam.
Proof.
  destruct dlam_facts as [A B]. unfold walk, point, north, east, vadd, vscale. rewrite A, B, sin_du2, cos_0, sin_0. unfold dX, dY, dZ. apply f_equal2; [apply f_equal2|]; ring.
Qed.
(** The direction back. *)
Definition daz21 : R := wrap (atan2 sal (- dW) + 2 * PI / 2).
Lemma daz21_facts : cos du2 * cos daz21 = dW /\ cos du2 * sin daz21 = - sal.
Proof.
  destruct cos_du2 as [P _]. assert (N : norm2 (- dW) sal = cos du2) by (apply norm_abs; [exact P|]; rewrite <- dW_sqr; ring).
  unfold daz21. destruct (wrap_trig (atan2 sal (- dW) + 2 * PI / 2)) as [-> ->]. replace (2 * PI / 2) with PI by field. rewrite neg_cos, neg_sin.
  rewrite <- N. pose proof (atan2_cos sal (- dW)). pose proof (atan2_sin sal (- dW)). split; lra.
Qed.
Lemma daz21_range : 0 <= daz21 <= 2 * PI.
Proof. unfold daz21. apply wrap_range. pose proof (atan2_range sal (- dW)). pose proof PI_RGT_0. lra. Qed.
Lemma walk_back : cos du2 <> 0 -> walk du2 dlam daz21 sg = point u1 0.
Proof.
  intros N. destruct dlam_facts as [A B]. destruct daz21_facts as [C D]. destruct cos_du2 as [_ W]. pose proof sin_du2 as Z.
  assert (NW : 1 - dZ * dZ <> 0) by (rewrite <- W; intros K; destruct (Rmult_integral _ _ K); contradiction).
  pose proof (sc u1) as S1. pose proof (sc sg) as S2. pose proof (sc az) as S3.
  assert (Q1 : cos sg * dZ + sin sg * dW = sin u1).
  { unfold dZ, dW. transitivity (sin u1 * (sin sg * sin sg + cos sg * cos sg)); [ring|rewrite S2; ring]. }
  assert (Q2 : cos sg * (1 - dZ * dZ) - sin sg * dW * dZ = cos u1 * dX).
  { transitivity (cos sg - dZ * (cos sg * dZ + sin sg * dW)); [ring|]. rewrite Q1. unfold dZ, dX.
    transitivity (cos sg * (1 - sin u1 * sin u1) - sin u1 * (cos u1 * sin sg * cos az)); [ring|]. replace (1 - sin u1 * sin u1) with (cos u1 * cos u1) by lra. ring. }
  pose proof dXY_sqr as Q3. unfold walk, point, north, east, vadd, vscale. rewrite cos_0, sin_0, Z. set (w := cos du2) in *.
  apply f_equal2; [apply f_equal2|].
  - apply Rmult_eq_reg_l with (w * w); [|rewrite W; exact NW].
    transitivity ((w * w) * (cos sg * (w * cos dlam)) + sin sg * ((w * cos daz21) * (- dZ * (w * cos dlam)) + (w * sin daz21) * - (w * sin dlam))); [ring|].
    rewrite A, B, C, D. rewrite W at 1. transitivity (dX * (cos sg * (1 - dZ * dZ) - sin sg * dW * dZ) + cos u1 * dY * dY); [unfold sal, dY; ring|]. rewrite Q2. transitivity (cos u1 * (dX * dX + dY * dY)); [ring|]. rewrite Q3. ring.
  - apply Rmult_eq_reg_l with (w * w); [|rewrite W; exact NW].
    transitivity ((w * w) * (cos sg * (w * sin dlam)) + sin sg * ((w * cos daz21) * (- dZ * (w * sin dlam)) + (w * sin daz21) * (w * cos dlam))); [ring|].
    rewrite A, B, C, D. rewrite W at 1. transitivity (dY * (cos sg * (1 - dZ * dZ) - sin sg * dW * dZ) - sin sg * sal * dX); [ring|]. rewrite Q2. unfold sal, dY. ring.
  - transitivity (cos sg * dZ + sin sg * (w * cos daz21)); [ring|]. rewrite C. exact Q1.
Qed.
End Circle.

(** ** Bounds on the coefficients *)
Lemma series_bounds x : 0 <= x <= 1 / 40 -> 1 <= series_A x <= 1007 / 1000 /\ 0 <= series_B x <= x / 4.
Proof.
  intros H. unfold series_A, series_B.
  assert (P : 3000 <= 4096 + x * (-768 + x * (320 - 175 * x)) <= 4096) by (split; nra).
  assert (Q : 0 <= 256 + x * (-128 + x * (74 - 47 * x)) <= 256) by (split; nra).
  split; split; nra.
Qed.
Lemma series_C_bounds f w : 0 <= f <= 1 / 100 -> 0 <= w <= 1 -> 0 <= series_C f w <= 26 / 10000.
Proof. intros Hf Hw. unfold series_C. assert (0 <= f * w <= 1 / 100) by (split; nra). assert (0 <= f * (4 - 3 * w) <= 4 / 100) by (split; nra). split; nra. Qed.
Lemma lon_stale C sg c c' : 0 <= C <= 26 / 10000 -> Rabs c <= 1 -> Rabs c' <= 1 ->
  Rabs ((1 - C) * (sg + C * sin sg * (c + C * cos sg * (-1 + 2 * c ^ 2))) - (1 - C) * (sg + C * sin sg * (c' + C * cos sg * (-1 + 2 * c' ^ 2)))) <= 27 / 10000 * Rabs (c - c').
Proof.
  intros HC H H'. match goal with |- Rabs ?t <= _ => replace t with ((1 - C) * C * (sin sg * ((c - c') * (1 + C * (cos sg * (2 * (c + c')))))))  by ring end.
  rewrite Rabs_mult, (Rabs_pos_eq ((1 - C) * C)) by nra. pose proof (Rabs_pos (c - c')).
  assert (E1 : Rabs (1 + C * (cos sg * (2 * (c + c')))) <= 1011 / 1000).
  { pose proof (abs_between _ _ H). pose proof (abs_between _ _ H'). pose proof (am _ _ _ _ (abs_cos sg) (proj2 (conj I (Rabs_le (2 * (c + c')) 4 ltac:(lra))))) as M. pose proof (abs_between _ _ M). apply Rabs_le. split; nra. }
  pose proof (am _ _ _ _ (abs_sin sg) (am _ _ _ _ (Rle_refl (Rabs (c - c'))) E1)) as M.
  apply Rle_trans with (26 / 10000 * (1 * (Rabs (c - c') * (1011 / 1000)))); [apply Rmult_le_compat; try exact M; try (apply Rabs_pos); nra|]. lra.
Qed.
(** The latitude of a reduced latitude. *)
Lemma unreduce f u : 0 <= f <= 1 / 100 -> - (PI / 2) <= u <= PI / 2 -> reduced_of f (atan2 (sin u) ((1 - f) * cos u)) u.
Proof.
  intros Hf Hu. assert (Cu : 0 <= cos u) by (apply cos_ge_0; lra). set (p := atan2 (sin u) ((1 - f) * cos u)).
  pose proof (atan2_cos (sin u) ((1 - f) * cos u)) as A. pose proof (atan2_sin (sin u) ((1 - f) * cos u)) as B. fold p in A, B. set (n := norm2 ((1 - f) * cos u) (sin u)) in *.
  assert (N : 0 < n).
  { apply norm2_pos. destruct (Req_dec (sin u) 0) as [Z|Z]; [left|right; exact Z]. pose proof (sc u) as S. rewrite Z in S. intros K. apply Rmult_integral in K. destruct K as [K|K]; [lra|]. rewrite K in S. lra. }
  split; [|split; [exact Hu|]].
  - pose proof (atan2_range (sin u) ((1 - f) * cos u)) as [L U]. fold p in L, U. assert (Cp : 0 <= cos p).
    { apply Rmult_le_reg_l with n; [exact N|]. rewrite A, Rmult_0_r. apply Rmult_le_pos; lra. }
    destruct (Rle_lt_dec p (PI / 2)) as [G|G]; [destruct (Rle_lt_dec (- (PI / 2)) p) as [G'|G']; [lra|]|].
    + exfalso. pose proof (cos_lt_0 (- p) ltac:(lra) ltac:(lra)) as K. rewrite cos_neg in K. lra.
    + exfalso. pose proof (cos_lt_0 p ltac:(lra) ltac:(lra)). lra.
  - apply Rmult_eq_reg_l with n; [|lra]. transitivity (sin u * (n * cos p)); [ring|]. rewrite A. transitivity ((1 - f) * (n * sin p) * cos u); [|ring]. rewrite B. ring.
Qed.
