(** * Proofs about one pass of Vincenty's iteration. *)
From Coq Require Import Reals Lia ZArith.
From Verif Require Import Base Atan2 VincModel VincSpec.
From Coq Require Import Lra.
Local Open Scope R_scope.

Lemma sc x : sin x * sin x + cos x * cos x = 1.
Proof. pose proof (sin2_cos2 x) as H. unfold Rsqr in H. exact H. Qed.

Lemma sq_nonneg x : 0 <= x * x.
Proof. apply Rle_0_sqr. Qed.

(** The angle with given sine and cosine, when the sine is not negative. *)
Lemma atan2_unit y x : x * x + y * y = 1 -> cos (atan2 y x) = x /\ sin (atan2 y x) = y.
Proof.
  intros H. pose proof (atan2_cos y x) as C. pose proof (atan2_sin y x) as S.
  assert (N : norm2 x y = 1) by (unfold norm2; rewrite H; apply sqrt_1). rewrite N in C, S. lra.
Qed.
Lemma atan2_upper y x : 0 <= y -> 0 <= atan2 y x <= PI.
Proof.
  intros H. pose proof (atan2_range y x) as [L U]. split; [|exact U]. destruct (Rle_lt_dec 0 (atan2 y x)) as [P|P]; [exact P|exfalso].
  pose proof (atan2_sin y x) as S. pose proof (norm2_nonneg x y) as N.
  assert (Q : sin (atan2 y x) < 0).
  { assert (0 < sin (- atan2 y x)) by (apply sin_gt_0; lra). rewrite sin_neg in H0. lra. }
  destruct (Req_dec (norm2 x y) 0) as [Z|Z]; [|nra].
  assert (E : x * x + y * y = 0) by (rewrite <- norm2_sqr, Z; ring). assert (X : x * x = 0) by nra. assert (Y : y * y = 0) by nra.
  assert (x = 0) by (destruct (Rmult_integral _ _ X); assumption). assert (y = 0) by (destruct (Rmult_integral _ _ Y); assumption). subst.
  unfold atan2 in P. destruct (Rlt_dec 0 0); [lra|]. lra.
Qed.

Definition SS (u1 u2 l : R) : R := (cos u2 * sin l) ^ 2 + (cos u1 * sin u2 - sin u1 * cos u2 * cos l) ^ 2.
Definition KK (u1 u2 l : R) : R := sin u1 * sin u2 + cos u1 * cos u2 * cos l.
Definition sigma_of (u1 u2 l : R) : R := atan2 (sqrt (SS u1 u2 l)) (KK u1 u2 l).

Lemma SS_KK u1 u2 l : SS u1 u2 l + KK u1 u2 l * KK u1 u2 l = 1.
Proof.
  unfold SS, KK. pose proof (sc u1) as A. pose proof (sc u2) as B. pose proof (sc l) as C.
  set (a := sin u1) in *. set (a' := cos u1) in *. set (b := sin u2) in *. set (b' := cos u2) in *. set (c := sin l) in *. set (c' := cos l) in *.
  assert (E : (b' * c) ^ 2 + (a' * b - a * b' * c') ^ 2 + (a * b + a' * b' * c') * (a * b + a' * b' * c')
              = b' * b' * (c * c) + (a * a + a' * a') * (b * b) + (a * a + a' * a') * (b' * b') * (c' * c')) by ring.
  rewrite E, A. replace (c * c) with (1 - c' * c') by lra. replace (b * b) with (1 - b' * b') by lra. ring.
Qed.
Lemma SS_nonneg u1 u2 l : 0 <= SS u1 u2 l.
Proof. unfold SS. pose proof (pow2_ge_0 (cos u2 * sin l)). pose proof (pow2_ge_0 (cos u1 * sin u2 - sin u1 * cos u2 * cos l)). lra. Qed.
Lemma sigma_facts u1 u2 l : let s := sigma_of u1 u2 l in
  cos s = KK u1 u2 l /\ sin s = sqrt (SS u1 u2 l) /\ sin s * sin s = SS u1 u2 l /\ 0 <= s <= PI /\ 0 <= sin s.
Proof.
  cbv zeta. pose proof (SS_nonneg u1 u2 l) as P. pose proof (sqrt_sqrt _ P) as Q.
  assert (H : KK u1 u2 l * KK u1 u2 l + sqrt (SS u1 u2 l) * sqrt (SS u1 u2 l) = 1) by (rewrite Q; pose proof (SS_KK u1 u2 l); lra).
  destruct (atan2_unit _ _ H) as [C S]. unfold sigma_of. rewrite C, S. pose proof (sqrt_pos (SS u1 u2 l)).
  split; [reflexivity|]. split; [reflexivity|]. split; [exact Q|]. split; [apply atan2_upper; assumption|assumption].
Qed.

(** The determinant p^2 + q^2 - 2kpq, with p, q the sines of the latitudes. *)
Definition DD (u1 u2 l : R) : R := sin u1 * sin u1 + sin u2 * sin u2 - 2 * KK u1 u2 l * sin u1 * sin u2.

Lemma product_sqr u1 u2 l : (cos u1 * cos u2 * sin l) * (cos u1 * cos u2 * sin l) = SS u1 u2 l - DD u1 u2 l.
Proof.
  pose proof (SS_KK u1 u2 l) as H. assert (E : SS u1 u2 l = 1 - KK u1 u2 l * KK u1 u2 l) by lra. rewrite E. unfold DD, KK.
  pose proof (sc u1) as A. pose proof (sc u2) as B. pose proof (sc l) as C.
  set (a := sin u1) in *. set (a' := cos u1) in *. set (b := sin u2) in *. set (b' := cos u2) in *. set (c := sin l) in *. set (c' := cos l) in *.
  assert (P : a' * b' * c * (a' * b' * c) = (a' * a') * (b' * b') * (c * c)) by ring. rewrite P.
  replace (c * c) with (1 - c' * c') by lra.
  assert (Q : 1 - (a * b + a' * b' * c') * (a * b + a' * b' * c') - (a * a + b * b - 2 * (a * b + a' * b' * c') * a * b)
              = 1 - a * a - b * b + (a * a) * (b * b) - (a' * a') * (b' * b') * (c' * c')) by ring. rewrite Q.
  replace (a * a) with (1 - a' * a') by lra. replace (b * b) with (1 - b' * b') by lra. ring.
Qed.

Lemma KK_abs u1 u2 l : -1 <= KK u1 u2 l <= 1.
Proof. destruct (sigma_facts u1 u2 l) as (C & _). rewrite <- C. pose proof (COS_bound (sigma_of u1 u2 l)). lra. Qed.
Lemma DD_nonneg u1 u2 l : 0 <= DD u1 u2 l.
Proof.
  unfold DD. pose proof (KK_abs u1 u2 l) as [A B]. set (k := KK u1 u2 l) in *. set (p := sin u1). set (q := sin u2).
  assert (E : p * p + q * q - 2 * k * p * q = (1 - k) / 2 * ((p + q) * (p + q)) + (1 + k) / 2 * ((p - q) * (p - q))) by field. rewrite E.
  pose proof (sq_nonneg (p + q)). pose proof (sq_nonneg (p - q)). nra.
Qed.
Lemma DD_zero u1 u2 l : 0 < SS u1 u2 l -> DD u1 u2 l = 0 -> sin u1 = 0 /\ sin u2 = 0.
Proof.
  intros P Z. pose proof (SS_KK u1 u2 l) as H. unfold DD in Z. pose proof (KK_abs u1 u2 l) as [A B]. set (k := KK u1 u2 l) in *. set (p := sin u1) in *. set (q := sin u2) in *.
  assert (E : p * p + q * q - 2 * k * p * q = (p - k * q) * (p - k * q) + (1 - k * k) * (q * q)) by ring. rewrite E in Z.
  assert (0 < 1 - k * k) by lra. pose proof (sq_nonneg (p - k * q)). pose proof (sq_nonneg q).
  assert (Q : q * q = 0).
  { destruct (Rle_lt_or_eq_dec 0 (q * q)) as [L|L]; [assumption| |symmetry; exact L]. pose proof (Rmult_lt_0_compat (1 - k * k) (q * q)). lra. }
  assert (Y : q = 0) by (destruct (Rmult_integral _ _ Q); assumption). split; [|exact Y].
  assert (X : p * p = 0) by (rewrite Y in Z; nra). destruct (Rmult_integral _ _ X); assumption.
Qed.

(** The sine of the azimuth at the equator. *)
Definition sin_al (u1 u2 l : R) : R := cos u1 * cos u2 * sin l / sin (sigma_of u1 u2 l).

Lemma sin_al_sqr u1 u2 l : sin (sigma_of u1 u2 l) <> 0 -> (1 - sin_al u1 u2 l * sin_al u1 u2 l) * SS u1 u2 l = DD u1 u2 l.
Proof.
  intros N. destruct (sigma_facts u1 u2 l) as (_ & _ & Q & _). pose proof (product_sqr u1 u2 l) as P. unfold sin_al. rewrite <- Q in *.
  set (s := sin (sigma_of u1 u2 l)) in *. set (c := cos u1 * cos u2 * sin l) in *.
  assert (E : (1 - c / s * (c / s)) * (s * s) = s * s - c * c) by (field; exact N). rewrite E. lra.
Qed.
Lemma sin_al_bound u1 u2 l : sin (sigma_of u1 u2 l) <> 0 -> -1 <= sin_al u1 u2 l <= 1.
Proof.
  intros N. pose proof (sin_al_sqr u1 u2 l N) as H. pose proof (DD_nonneg u1 u2 l). destruct (sigma_facts u1 u2 l) as (_ & _ & Q & _).
  assert (0 < SS u1 u2 l) by (rewrite <- Q; nra). set (x := sin_al u1 u2 l) in *. assert (x * x <= 1) by nra. split; nra.
Qed.

(** What one successful pass computes. *)
Record pass (f u1 u2 omega l : R) (s : vinc_state) : Prop := {
  p_sigma : v_sigma s = sigma_of u1 u2 l;
  p_range : 0 < v_sigma s < PI;
  p_cos : v_cos_sigma s = cos (v_sigma s);
  p_sin : v_sin_sigma s = sin (v_sigma s);
  p_sqr : v_sqr_sin_sigma s = sin (v_sigma s) * sin (v_sigma s);
  p_K : cos (v_sigma s) = sin u1 * sin u2 + cos u1 * cos u2 * cos l;
  p_alpha : sin (v_alpha s) * sin (v_sigma s) = cos u1 * cos u2 * sin l;
  p_cosa : 0 < cos (v_alpha s);
  p_c2 : v_cos2sigma_m s * (cos (v_alpha s)) ^ 2 = cos (v_sigma s) * (cos (v_alpha s)) ^ 2 - 2 * sin u1 * sin u2;
  p_c2b : -1 <= v_cos2sigma_m s <= 1;
  p_new : v_lembda s = omega + (let c := f / 16 * (cos (v_alpha s)) ^ 2 * (4 + f * (4 - 3 * (cos (v_alpha s)) ^ 2)) in
      (1 - c) * f * sin (v_alpha s) *
      (v_sigma s + c * sin (v_sigma s) * (v_cos2sigma_m s + c * cos (v_sigma s) * (-1 + 2 * v_cos2sigma_m s ^ 2)))) }.

Lemma sigma_interior u1 u2 l : sin (sigma_of u1 u2 l) <> 0 -> 0 < sigma_of u1 u2 l < PI.
Proof.
  intros N. destruct (sigma_facts u1 u2 l) as (_ & _ & _ & [A B] & _). split.
  - destruct A as [A|A]; [exact A|]. rewrite <- A, sin_0 in N. lra.
  - destruct B as [B|B]; [exact B|]. rewrite B, sin_PI in N. lra.
Qed.

(** One pass succeeds exactly when the points are neither equal nor antipodal on the
    auxiliary sphere and not both on the equator; otherwise it divides by zero. *)
Lemma vinc_step_cases f u1 u2 omega l :
  (sin (sigma_of u1 u2 l) <> 0 /\ (sin u1 <> 0 \/ sin u2 <> 0) /\ exists s, vinc_step f u1 u2 omega l = Ok s /\ pass f u1 u2 omega l s)
  \/ ((sin (sigma_of u1 u2 l) = 0 \/ sin u1 = 0 /\ sin u2 = 0) /\ vinc_step f u1 u2 omega l = Err ZeroDivisionError).
Proof.
  unfold vinc_step. change ((cos u2 * sin l) ^ 2 + (cos u1 * sin u2 - sin u1 * cos u2 * cos l) ^ 2) with (SS u1 u2 l).
  change (sin u1 * sin u2 + cos u1 * cos u2 * cos l) with (KK u1 u2 l). change (atan2 (sqrt (SS u1 u2 l)) (KK u1 u2 l)) with (sigma_of u1 u2 l).
  cbv zeta. destruct (Req_EM_T (sin (sigma_of u1 u2 l)) 0) as [Z|N]; [right; split; [left; exact Z|reflexivity]|].
  change (cos u1 * cos u2 * sin l / sin (sigma_of u1 u2 l)) with (sin_al u1 u2 l).
  destruct (sin_al_bound u1 u2 l N) as [A B]. destruct (Rlt_dec 1 (Rabs (sin_al u1 u2 l))) as [X|_].
  { exfalso. assert (Rabs (sin_al u1 u2 l) <= 1) by (apply Rabs_le; lra). lra. }
  pose proof (sin_asin _ (conj A B)) as SA. pose proof (cos_asin _ (conj A B)) as CA.
  assert (C2 : cos (asin (sin_al u1 u2 l)) * cos (asin (sin_al u1 u2 l)) = 1 - sin_al u1 u2 l * sin_al u1 u2 l).
  { pose proof (sc (asin (sin_al u1 u2 l))) as H. rewrite SA in H. lra. }
  assert (CP : 0 <= cos (asin (sin_al u1 u2 l))) by (rewrite CA; apply sqrt_pos).
  destruct (sigma_facts u1 u2 l) as (KC & KS & KQ & KR & KP). pose proof (sin_al_sqr u1 u2 l N) as HD.
  assert (SP : 0 < SS u1 u2 l) by (rewrite <- KQ; nra).
  destruct (Req_EM_T (cos (asin (sin_al u1 u2 l)) ^ 2) 0) as [Z|M].
  { right. split; [|reflexivity]. right. apply DD_zero with (l := l); [exact SP|]. rewrite <- HD, <- C2.
    replace (cos (asin (sin_al u1 u2 l)) * cos (asin (sin_al u1 u2 l))) with 0 by (rewrite <- Z; ring). ring. }
  left. split; [exact N|]. split.
  { destruct (Req_dec (sin u1) 0) as [E1|E1]; [|left; exact E1]. right. intros E2. apply M. replace (cos (asin (sin_al u1 u2 l)) ^ 2) with (1 - sin_al u1 u2 l * sin_al u1 u2 l) by (rewrite <- C2; ring).
    assert (D0 : DD u1 u2 l = 0) by (unfold DD; rewrite E1, E2; ring). rewrite D0 in HD. nra. }
  eexists. split; [reflexivity|].
  set (co := cos (asin (sin_al u1 u2 l))) in *. set (si := sin_al u1 u2 l) in *.
  assert (CQ : 0 < co) by (destruct CP as [P|P]; [exact P|exfalso; apply M; rewrite <- P; ring]).
  constructor; cbn [v_sqr_sin_sigma v_sin_sigma v_cos_sigma v_sigma v_alpha v_cos2sigma_m v_lembda].
  - reflexivity.
  - apply sigma_interior. exact N.
  - symmetry. exact KC.
  - symmetry. exact KS.
  - symmetry. exact KQ.
  - rewrite KC. reflexivity.
  - rewrite SA. unfold si, sin_al. field. exact N.
  - exact CQ.
  - fold co. field. lra.
  - fold co. replace (co ^ 2) with (1 - si * si) by (rewrite <- C2; ring).
    assert (DP : 0 < DD u1 u2 l) by (rewrite <- HD, <- C2; nra).
    assert (W : 0 < 1 - si * si) by (rewrite <- C2; nra).
    assert (E : cos (sigma_of u1 u2 l) - 2 * sin u1 * sin u2 / (1 - si * si)
                = (KK u1 u2 l * (sin u1 * sin u1 + sin u2 * sin u2) - 2 * sin u1 * sin u2) / DD u1 u2 l).
    { rewrite KC. assert (V : 1 - si * si = DD u1 u2 l / SS u1 u2 l) by (rewrite <- HD; field; lra). rewrite V.
      pose proof (SS_KK u1 u2 l) as T. apply Rmult_eq_reg_r with (DD u1 u2 l); [|lra].
      transitivity (KK u1 u2 l * DD u1 u2 l - 2 * sin u1 * sin u2 * SS u1 u2 l); [field; split; lra|].
      transitivity (KK u1 u2 l * (sin u1 * sin u1 + sin u2 * sin u2) - 2 * sin u1 * sin u2); [|field; lra].
      replace (SS u1 u2 l) with (1 - KK u1 u2 l * KK u1 u2 l) by lra. unfold DD. ring. }
    rewrite E. pose proof (KK_abs u1 u2 l) as [G1 G2]. set (k := KK u1 u2 l) in *. set (p := sin u1) in *. set (q := sin u2) in *.
    pose proof (sq_nonneg (p + q)). pose proof (sq_nonneg (p - q)).
    assert (DE : DD u1 u2 l = p * p + q * q - 2 * k * p * q) by reflexivity.
    split; apply Rmult_le_reg_r with (DD u1 u2 l); try exact DP.
    + replace ((k * (p * p + q * q) - 2 * p * q) / DD u1 u2 l * DD u1 u2 l) with (k * (p * p + q * q) - 2 * p * q) by (field; lra). rewrite DE. nra.
    + replace ((k * (p * p + q * q) - 2 * p * q) / DD u1 u2 l * DD u1 u2 l) with (k * (p * p + q * q) - 2 * p * q) by (field; lra). rewrite DE. nra.
  - reflexivity.
Qed.
Lemma vinc_step_ok f u1 u2 omega l s : vinc_step f u1 u2 omega l = Ok s -> pass f u1 u2 omega l s.
Proof. intros H. destruct (vinc_step_cases f u1 u2 omega l) as [(_ & _ & t & E & P)|(_ & E)]; rewrite H in E; [injection E as <-; exact P|discriminate]. Qed.
