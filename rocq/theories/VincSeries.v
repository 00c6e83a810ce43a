(** * The series of Vincenty's formulae approximate the integrals they stand for. *)
From Coq Require Import Reals QArith Qreals Lia ZArith.
From Verif Require Import Base Atan2 RPoly VincModel VincSpec VincProofs.
From Coq Require Import Lra.
Local Open Scope R_scope.

(** ** Distance: A and B. *)
Definition eA : expr := Add (K 1) (Mul (Mul X (K (1#16384))) (Add (K 4096) (Mul X (Add (K (-768)) (Mul X (Sub (K 320) (Mul (K 175) X))))))).
Definition eB : expr := Mul (Mul X (K (1#1024))) (Add (K 256) (Mul X (Add (K (-128)) (Mul X (Sub (K 74) (Mul (K 47) X)))))).
Lemma eA_ok x y z : eeval x y z eA = series_A x.
Proof. cbn [eeval eA]. unfold series_A, Q2R. cbn [Qnum Qden]. field. Qed.
Lemma eB_ok x y z : eeval x y z eB = series_B x.
Proof. cbn [eeval eB]. unfold series_B, Q2R. cbn [Qnum Qden]. field. Qed.

(** A (1 - B c - B^2/4 (2c^2-1) - B^3/8 (4c^3-3c)), the rate of the series at cos 2t = c. *)
Definition rate (A B c : R) : R := A * (1 - B * c - B * B * (1 / 4) * (2 * (c * c) - 1) - B * B * B * (1 / 8) * (4 * (c * c * c) - 3 * c)).
Definition eR : expr := Mul eA (Sub (Sub (Sub (K 1) (Mul eB Y)) (Mul (Mul (Mul eB eB) (K (1#4))) (Sub (Mul (K 2) (Mul Y Y)) (K 1))))
  (Mul (Mul (Mul (Mul eB eB) eB) (K (1#8))) (Sub (Mul (K 4) (Mul (Mul Y Y) Y)) (Mul (K 3) Y)))).
Lemma eR_ok x y z : eeval x y z eR = rate (series_A x) (series_B x) y.
Proof.
  unfold eR, rate. cbn [eeval]. rewrite !eA_ok, !eB_ok. set (A := series_A x). set (B := series_B x).
  replace (Q2R 1) with 1 by (unfold Q2R; cbn [Qnum Qden]; field). replace (Q2R (1#4)) with (1/4) by (unfold Q2R; cbn [Qnum Qden]; field).
  replace (Q2R 2) with 2 by (unfold Q2R; cbn [Qnum Qden]; field). replace (Q2R 3) with 3 by (unfold Q2R; cbn [Qnum Qden]; field).
  replace (Q2R 4) with 4 by (unfold Q2R; cbn [Qnum Qden]; field). replace (Q2R (1#8)) with (1/8) by (unfold Q2R; cbn [Qnum Qden]; field). reflexivity.
Qed.
Definition eE : expr := Sub (Mul eR eR) (Add (K 1) (Mul (Mul X (K (1#2))) (Sub (K 1) Y))).
Lemma rate_sqr x c : 0 <= x <= 1 / 40 -> Rabs c <= 1 ->
  Rabs (rate (series_A x) (series_B x) c * rate (series_A x) (series_B x) c - (1 + x * (1 / 2) * (1 - c))) <= x ^ 4 / 80.
Proof.
  intros Hx Hc. assert (C : check eE (1#40) 4 (1#80) = true) by (vm_compute; reflexivity).
  assert (Q40 : Q2R (1#40) = 1/40) by (unfold Q2R; cbn [Qnum Qden]; field).
  pose proof (check_ok eE (1#40) 4 (1#80) x c 0 C ltac:(rewrite Q40; exact Hx) Hc ltac:(rewrite Rabs_R0; lra)) as H.
  unfold eE in H. cbn [eeval] in H. rewrite eR_ok in H. replace (Q2R 1) with 1 in H by (unfold Q2R; cbn [Qnum Qden]; field).
  replace (Q2R (1#2)) with (1/2) in H by (unfold Q2R; cbn [Qnum Qden]; field). replace (Q2R (1#80)) with (1/80) in H by (unfold Q2R; cbn [Qnum Qden]; field).
  replace (x ^ 4 / 80) with (x ^ 4 * (1 / 80)) by field. exact H.
Qed.

Lemma abs_prod a b e : 0 <= a -> 1 <= b -> Rabs (a * a - b * b) <= e -> Rabs (a - b) <= e.
Proof.
  intros Ha Hb H. assert (E : a * a - b * b = (a - b) * (a + b)) by ring. rewrite E, Rabs_mult, (Rabs_pos_eq (a + b)) in H by lra.
  pose proof (Rabs_pos (a - b)). nra.
Qed.
Lemma rate_near_one x c : 0 <= x <= 1 / 40 -> Rabs c <= 1 -> Rabs (rate (series_A x) (series_B x) c - 1) <= x * (6 / 10).
Proof.
  intros Hx Hc. assert (C : check (Sub eR (K 1)) (1#40) 1 (6#10) = true) by (vm_compute; reflexivity).
  assert (Q40 : Q2R (1#40) = 1/40) by (unfold Q2R; cbn [Qnum Qden]; field).
  pose proof (check_ok _ (1#40) 1 (6#10) x c 0 C ltac:(rewrite Q40; exact Hx) Hc ltac:(rewrite Rabs_R0; lra)) as H.
  cbn [eeval] in H. rewrite eR_ok in H. replace (Q2R 1) with 1 in H by (unfold Q2R; cbn [Qnum Qden]; field).
  replace (Q2R (6#10)) with (6/10) in H by (unfold Q2R; cbn [Qnum Qden]; field). rewrite pow_1 in H. exact H.
Qed.

Lemma cos_2t t : cos (2 * t) = 1 - 2 * (sin t * sin t).
Proof. rewrite cos_2a_sin. ring. Qed.
Lemma abs_cos t : Rabs (cos t) <= 1.
Proof. pose proof (COS_bound t). apply Rabs_le. lra. Qed.
Lemma cos_4t t : cos (4 * t) = 2 * (cos (2 * t) * cos (2 * t)) - 1.
Proof. replace (4 * t) with (2 * (2 * t)) by ring. rewrite cos_2a_cos. ring. Qed.
Lemma cos_6t t : cos (6 * t) = 4 * (cos (2 * t) * cos (2 * t) * cos (2 * t)) - 3 * cos (2 * t).
Proof.
  replace (6 * t) with (2 * t + 2 * (2 * t)) by ring. rewrite cos_plus, (cos_2a_cos (2 * t)), (sin_2a (2 * t)). pose proof (sc (2 * t)) as H.
  replace (sin (2 * t) * (2 * sin (2 * t) * cos (2 * t))) with (2 * (sin (2 * t) * sin (2 * t)) * cos (2 * t)) by ring.
  replace (sin (2 * t) * sin (2 * t)) with (1 - cos (2 * t) * cos (2 * t)) by lra. ring.
Qed.

(** The rate at [t] is that of the arc length of the ellipse, up to x^4 / 80. *)
Lemma rate_close x t : 0 <= x <= 1 / 40 ->
  Rabs (rate (series_A x) (series_B x) (cos (2 * t)) - sqrt (1 + x * (sin t * sin t))) <= x ^ 4 / 80.
Proof.
  intros Hx. pose proof (rate_sqr x (cos (2 * t)) Hx (abs_cos _)) as H. pose proof (rate_near_one x (cos (2 * t)) Hx (abs_cos _)) as N.
  assert (P : 0 <= 1 + x * (sin t * sin t)) by (pose proof (sq_nonneg (sin t)); nra).
  assert (S1 : 1 <= sqrt (1 + x * (sin t * sin t))). { rewrite <- sqrt_1 at 1. apply sqrt_le_1_alt. pose proof (sq_nonneg (sin t)). nra. }
  apply abs_prod; [|exact S1|].
  - pose proof (Rle_abs (- (rate (series_A x) (series_B x) (cos (2 * t)) - 1))) as L. rewrite Rabs_Ropp in L. lra.
  - rewrite sqrt_sqrt by exact P. replace (1 + x * (sin t * sin t)) with (1 + x * (1 / 2) * (1 - cos (2 * t))) by (rewrite cos_2t; field). exact H.
Qed.

(** An antiderivative of the rate. *)
Definition prim (A B t : R) : R := A * (t - B / 2 * sin (2 * t) - B * B / 16 * sin (4 * t) - B * B * B / 48 * sin (6 * t)).

Lemma dsin k t : derivable_pt_lim (fun t => sin (k * t)) t (k * cos (k * t)).
Proof.
  replace (k * cos (k * t)) with (cos (k * t) * k) by ring.
  apply (derivable_pt_lim_comp (fun t => k * t) sin); [|apply derivable_pt_lim_sin].
  pose proof (derivable_pt_lim_scal id k t 1 (derivable_pt_lim_id t)) as H. rewrite Rmult_1_r in H. exact H.
Qed.
Lemma prim_deriv A B t : derivable_pt_lim (prim A B) t (rate A B (cos (2 * t))).
Proof.
  unfold prim. replace (rate A B (cos (2 * t))) with
    (A * (1 - B / 2 * (2 * cos (2 * t)) - B * B / 16 * (4 * cos (4 * t)) - B * B * B / 48 * (6 * cos (6 * t)))).
  2:{ rewrite cos_4t, cos_6t. unfold rate. field. }
  apply (derivable_pt_lim_scal (fun t => t - B / 2 * sin (2 * t) - B * B / 16 * sin (4 * t) - B * B * B / 48 * sin (6 * t)) A).
  apply (derivable_pt_lim_minus (fun t => t - B / 2 * sin (2 * t) - B * B / 16 * sin (4 * t)) (fun t => B * B * B / 48 * sin (6 * t))).
  2:{ apply (derivable_pt_lim_scal (fun t => sin (6 * t))). apply dsin. }
  apply (derivable_pt_lim_minus (fun t => t - B / 2 * sin (2 * t)) (fun t => B * B / 16 * sin (4 * t))).
  2:{ apply (derivable_pt_lim_scal (fun t => sin (4 * t))). apply dsin. }
  apply (derivable_pt_lim_minus (fun t => t) (fun t => B / 2 * sin (2 * t))).
  - apply derivable_pt_lim_id.
  - apply (derivable_pt_lim_scal (fun t => sin (2 * t))). apply dsin.
Qed.

(** The correction of lines 248-253 is the difference of the antiderivative. *)
Lemma delta_sigma_prim A B s1 s : let c2 := cos (2 * s1 + s) in
  A * (s - inv_delta_sigma B (sin s) (cos s) (sin s * sin s) c2) = prim A B (s1 + s) - prim A B s1.
Proof.
  cbv zeta. unfold inv_delta_sigma, prim. set (th := 2 * s1 + s).
  assert (P : forall n, 2 * (sin (n * s) * cos (n * th)) = sin (2 * n * (s1 + s)) - sin (2 * n * s1)).
  { intros n. replace (2 * n * (s1 + s)) with (n * s + n * th) by (unfold th; ring). replace (2 * n * s1) with (n * th - n * s) by (unfold th; ring).
    rewrite sin_plus, sin_minus. ring. }
  pose proof (P 1) as P1. pose proof (P 2) as P2. pose proof (P 3) as P3. clear P.
  rewrite !Rmult_1_l in P1. replace (2 * 1) with 2 in P1 by ring. replace (2 * 2) with 4 in P2 by ring. replace (2 * 3) with 6 in P3 by ring.
  rewrite sin_2a, cos_2a_cos in P2.
  assert (S3 : sin (3 * s) = 3 * sin s - 4 * (sin s * sin s * sin s)).
  { replace (3 * s) with (2 * s + s) by ring. rewrite sin_plus, sin_2a, cos_2a_sin. pose proof (sc s).
    replace (2 * sin s * cos s * cos s) with (2 * sin s * (cos s * cos s)) by ring. replace (cos s * cos s) with (1 - sin s * sin s) by lra. ring. }
  assert (C3 : cos (3 * th) = 4 * (cos th * cos th * cos th) - 3 * cos th).
  { replace (3 * th) with (2 * th + th) by ring. rewrite cos_plus, cos_2a_cos, sin_2a. pose proof (sc th).
    replace (2 * sin th * cos th * sin th) with (2 * (sin th * sin th) * cos th) by ring. replace (sin th * sin th) with (1 - cos th * cos th) by lra. ring. }
  rewrite S3, C3 in P3. set (si := sin s) in *. set (co := cos s) in *. set (c := cos th) in *.
  set (a2 := sin (2 * (s1 + s))) in *. set (b2 := sin (2 * s1)) in *. set (a4 := sin (4 * (s1 + s))) in *. set (b4 := sin (4 * s1)) in *.
  set (a6 := sin (6 * (s1 + s))) in *. set (b6 := sin (6 * s1)) in *.
  replace a2 with (2 * (si * c) + b2) by lra. replace a4 with (2 * (2 * si * co * (2 * c * c - 1)) + b4) by lra.
  replace a6 with (2 * ((3 * si - 4 * (si * si * si)) * (4 * (c * c * c) - 3 * c)) + b6) by lra. field.
Qed.

(** Functions whose derivatives are close stay close. *)
Lemma close_deriv (F M f' m' : R -> R) e a b : a <= b -> (forall t, a <= t <= b -> derivable_pt_lim F t (f' t)) ->
  (forall t, a <= t <= b -> derivable_pt_lim M t (m' t)) -> (forall t, a <= t <= b -> Rabs (f' t - m' t) <= e) ->
  Rabs ((F b - F a) - (M b - M a)) <= e * (b - a).
Proof.
  intros L HF HM HE. destruct L as [L| ->]; [|replace (F b - F b - (M b - M b)) with 0 by ring; rewrite Rabs_R0; lra].
  destruct (MVT_cor2 (fun t => F t - M t) (fun t => f' t - m' t) a b L) as (c & E & Hc).
  { intros t Ht. apply derivable_pt_lim_minus; [apply HF|apply HM]; exact Ht. }
  replace (F b - F a - (M b - M a)) with (F b - M b - (F a - M a)) by ring. rewrite E, Rabs_mult, (Rabs_pos_eq (b - a)) by lra.
  apply Rmult_le_compat_r; [lra|]. apply HE. lra.
Qed.

(** Distance part: A (sigma - delta_sigma) against the integral of sqrt (1 + x sin^2 t). *)
Lemma dist_close x s1 s M : 0 <= x <= 1 / 40 -> 0 <= s ->
  (forall t, s1 <= t <= s1 + s -> derivable_pt_lim M t (sqrt (1 + x * (sin t * sin t)))) ->
  Rabs (series_A x * (s - inv_delta_sigma (series_B x) (sin s) (cos s) (sin s * sin s) (cos (2 * s1 + s))) - (M (s1 + s) - M s1)) <= x ^ 4 / 80 * s.
Proof.
  intros Hx Hs HM. rewrite (delta_sigma_prim (series_A x) (series_B x) s1 s).
  assert (L : s1 <= s1 + s) by lra.
  pose proof (close_deriv _ M _ _ (x ^ 4 / 80) s1 (s1 + s) L (fun t _ => prim_deriv (series_A x) (series_B x) t) HM (fun t _ => rate_close x t Hx)) as H.
  replace (s1 + s - s1) with s in H by ring. exact H.
Qed.

(** ** Longitude: C. *)
Definition series_C (f w : R) : R := f / 16 * w * (4 + f * (4 - 3 * w)).
Definition lon_rate (C c : R) : R := (1 - C) * (1 + C * c + C * C * (2 * (c * c) - 1)).
Definition eC : expr := Mul (Mul (Mul X (K (1#16))) Y) (Add (K 4) (Mul X (Sub (K 4) (Mul (K 3) Y)))).
Definition eH : expr := Mul (Sub (K 1) eC) (Add (Add (K 1) (Mul eC Z)) (Mul (Mul eC eC) (Sub (Mul (K 2) (Mul Z Z)) (K 1)))).
Lemma eC_ok f w c : eeval f w c eC = series_C f w.
Proof. cbn [eeval eC]. unfold series_C, Q2R. cbn [Qnum Qden]. field. Qed.
Lemma eH_ok f w c : eeval f w c eH = lon_rate (series_C f w) c.
Proof. unfold eH. cbn [eeval]. rewrite !eC_ok. unfold lon_rate, Q2R. cbn [Qnum Qden]. field. Qed.

(** sqrt (1 - g z) and its approximation; g = 2 f - f^2. *)
Definition n_approx (f z : R) : R := 1 - (2 * f - f * f) * z * (1 / 2) - (2 * f - f * f) * z * ((2 * f - f * f) * z) * (1 / 8).
Definition eg : expr := Sub (Mul (K 2) X) (Mul X X).
Definition en (ez : expr) : expr := Sub (Sub (K 1) (Mul (Mul eg ez) (K (1#2)))) (Mul (Mul (Mul eg ez) (Mul eg ez)) (K (1#8))).
Lemma en_ok f w c ez : eeval f w c (en ez) = n_approx f (eeval f w c ez).
Proof. unfold en, n_approx, eg. cbn [eeval]. set (z := eeval f w c ez). unfold Q2R. cbn [Qnum Qden]. field. Qed.
Lemma Q100 : Q2R (1#100) = 1/100. Proof. unfold Q2R; cbn [Qnum Qden]; field. Qed.

Lemma n_approx_sqr f z : 0 <= f <= 1 / 100 -> Rabs z <= 1 ->
  Rabs (n_approx f z * n_approx f z - (1 - (2 * f - f * f) * z)) <= f ^ 3 * (102 / 100).
Proof.
  intros Hf Hz. set (e := Sub (Mul (en Y) (en Y)) (Sub (K 1) (Mul eg Y))).
  assert (C : check e (1#100) 3 (102#100) = true) by (vm_compute; reflexivity).
  pose proof (check_ok e (1#100) 3 (102#100) f z 0 C ltac:(rewrite Q100; exact Hf) Hz ltac:(rewrite Rabs_R0; lra)) as H.
  unfold e in H. cbn [eeval] in H. rewrite en_ok in H. cbn [eeval eg] in H.
  replace (Q2R 1) with 1 in H by (unfold Q2R; cbn [Qnum Qden]; field). replace (Q2R 2) with 2 in H by (unfold Q2R; cbn [Qnum Qden]; field).
  replace (Q2R (102#100)) with (102/100) in H by (unfold Q2R; cbn [Qnum Qden]; field). exact H.
Qed.
Lemma n_approx_one f z : 0 <= f <= 1 / 100 -> Rabs z <= 1 -> Rabs (n_approx f z - 1) <= f * (102 / 100).
Proof.
  intros Hf Hz. assert (C : check (Sub (en Y) (K 1)) (1#100) 1 (102#100) = true) by (vm_compute; reflexivity).
  pose proof (check_ok _ (1#100) 1 (102#100) f z 0 C ltac:(rewrite Q100; exact Hf) Hz ltac:(rewrite Rabs_R0; lra)) as H.
  cbn [eeval] in H. rewrite en_ok in H. cbn [eeval] in H. replace (Q2R 1) with 1 in H by (unfold Q2R; cbn [Qnum Qden]; field).
  replace (Q2R (102#100)) with (102/100) in H by (unfold Q2R; cbn [Qnum Qden]; field). rewrite pow_1 in H. exact H.
Qed.
Lemma lon_rate_poly f w c : 0 <= f <= 1 / 100 -> Rabs w <= 1 -> Rabs c <= 1 ->
  Rabs (lon_rate (series_C f w) c * (1 + n_approx f (1 - w * (1 / 2) * (1 - c))) - (2 - f)) <= f ^ 3 * (255 / 100).
Proof.
  intros Hf Hw Hc. set (ez := Sub (K 1) (Mul (Mul Y (K (1#2))) (Sub (K 1) Z))). set (e := Sub (Mul eH (Add (K 1) (en ez))) (Sub (K 2) X)).
  assert (C : check e (1#100) 3 (255#100) = true) by (vm_compute; reflexivity).
  pose proof (check_ok e (1#100) 3 (255#100) f w c C ltac:(rewrite Q100; exact Hf) Hw Hc) as H.
  unfold e in H. cbn [eeval] in H. rewrite en_ok, eH_ok in H. cbn [eeval ez] in H.
  replace (Q2R 1) with 1 in H by (unfold Q2R; cbn [Qnum Qden]; field). replace (Q2R 2) with 2 in H by (unfold Q2R; cbn [Qnum Qden]; field).
  replace (Q2R (1#2)) with (1/2) in H by (unfold Q2R; cbn [Qnum Qden]; field).
  replace (Q2R (255#100)) with (255/100) in H by (unfold Q2R; cbn [Qnum Qden]; field). exact H.
Qed.
Lemma lon_rate_one f w c : 0 <= f <= 1 / 100 -> Rabs w <= 1 -> Rabs c <= 1 -> Rabs (lon_rate (series_C f w) c - 1) <= f * (52 / 100).
Proof.
  intros Hf Hw Hc. assert (C : check (Sub eH (K 1)) (1#100) 1 (52#100) = true) by (vm_compute; reflexivity).
  pose proof (check_ok _ (1#100) 1 (52#100) f w c C ltac:(rewrite Q100; exact Hf) Hw Hc) as H.
  cbn [eeval] in H. rewrite eH_ok in H. replace (Q2R 1) with 1 in H by (unfold Q2R; cbn [Qnum Qden]; field).
  replace (Q2R (52#100)) with (52/100) in H by (unfold Q2R; cbn [Qnum Qden]; field). rewrite pow_1 in H. exact H.
Qed.

Lemma abs_prod' a b e : 1 <= a + b -> Rabs (a * a - b * b) <= e -> Rabs (a - b) <= e.
Proof.
  intros Hb H. assert (E : a * a - b * b = (a - b) * (a + b)) by ring. rewrite E, Rabs_mult, (Rabs_pos_eq (a + b)) in H by lra.
  pose proof (Rabs_pos (a - b)). nra.
Qed.
Lemma abs_between x e : Rabs x <= e -> - e <= x <= e.
Proof. intros H. pose proof (Rle_abs x). pose proof (Rle_abs (- x)) as L. rewrite Rabs_Ropp in L. lra. Qed.

(** Rate of the longitude integral on the ellipsoid. *)
Definition lon_true (f w t : R) : R := (2 - f) / (1 + sqrt ((1 - f) * (1 - f) + w * (1 - (1 - f) * (1 - f)) * (sin t * sin t))).
Lemma sin_sq_bound t : 0 <= sin t * sin t <= 1.
Proof. pose proof (sc t). pose proof (sq_nonneg (cos t)). pose proof (sq_nonneg (sin t)). lra. Qed.
Lemma lon_rate_close f w t : 0 <= f <= 1 / 100 -> 0 <= w <= 1 ->
  Rabs (lon_rate (series_C f w) (cos (2 * t)) - lon_true f w t) <= 2 * f ^ 3.
Proof.
  intros Hf Hw. set (c := cos (2 * t)). assert (Hc : Rabs c <= 1) by apply abs_cos. set (z := 1 - w * (1 / 2) * (1 - c)).
  assert (Ez : z = 1 - w * (sin t * sin t)) by (unfold z, c; rewrite cos_2t; field).
  pose proof (sin_sq_bound t) as Hs. assert (Hz : 0 <= z <= 1) by (rewrite Ez; split; nra).
  assert (Aw : Rabs w <= 1) by (rewrite Rabs_pos_eq; lra). assert (Az : Rabs z <= 1) by (rewrite Rabs_pos_eq; lra).
  set (g := 2 * f - f * f). assert (Hg : 0 <= g <= 2 / 100) by (unfold g; split; nra).
  assert (Er : (1 - f) * (1 - f) + w * (1 - (1 - f) * (1 - f)) * (sin t * sin t) = 1 - g * z) by (rewrite Ez; unfold g; ring).
  unfold lon_true. rewrite Er. set (n := sqrt (1 - g * z)).
  assert (Pn : 0 <= 1 - g * z) by nra. assert (Hn : n * n = 1 - g * z) by (apply sqrt_sqrt; exact Pn). assert (Hn0 : 0 <= n) by apply sqrt_pos.
  assert (Hn1 : 98 / 100 <= n) by nra.
  pose proof (abs_between _ _ (n_approx_one f z Hf Az)) as N1.
  assert (D : Rabs (n_approx f z - n) <= f ^ 3 * (102 / 100)).
  { apply abs_prod'; [lra|]. rewrite Hn. apply n_approx_sqr; assumption. }
  pose proof (lon_rate_poly f w c Hf Aw Hc) as P. fold z in P. pose proof (abs_between _ _ (lon_rate_one f w c Hf Aw Hc)) as R1.
  set (H := lon_rate (series_C f w) c) in *. set (n0 := n_approx f z) in *.
  assert (F3 : 0 <= f ^ 3) by (apply pow_le; lra).
  assert (Q : Rabs (H * (1 + n) - (2 - f)) <= f ^ 3 * (36 / 10)).
  { replace (H * (1 + n) - (2 - f)) with ((H * (1 + n0) - (2 - f)) + H * - (n0 - n)) by ring. apply Rle_trans with (1 := Rabs_triang _ _).
    rewrite (Rabs_mult H), Rabs_Ropp, (Rabs_pos_eq H) by lra. assert (H * Rabs (n0 - n) <= (101 / 100) * (f ^ 3 * (102 / 100))).
    { apply Rmult_le_compat; [lra|apply Rabs_pos|lra|exact D]. }
    lra. }
  assert (E : H - (2 - f) / (1 + n) = (H * (1 + n) - (2 - f)) * / (1 + n)) by (field; lra). rewrite E, Rabs_mult.
  assert (I0 : 0 < / (1 + n)) by (apply Rinv_0_lt_compat; lra). rewrite (Rabs_pos_eq (/ (1 + n))) by lra.
  assert (I : / (1 + n) <= 100 / 198). { apply Rmult_le_reg_l with (1 + n); [lra|]. rewrite Rinv_r by lra. lra. }
  apply Rle_trans with (f ^ 3 * (36 / 10) * (100 / 198)).
  - apply Rmult_le_compat; [apply Rabs_pos|lra|exact Q|exact I].
  - lra.
Qed.

Definition lon_prim (C t : R) : R := (1 - C) * (t + C / 2 * sin (2 * t) + C * C / 4 * sin (4 * t)).
Lemma lon_prim_deriv C t : derivable_pt_lim (lon_prim C) t (lon_rate C (cos (2 * t))).
Proof.
  unfold lon_prim. replace (lon_rate C (cos (2 * t))) with ((1 - C) * (1 + C / 2 * (2 * cos (2 * t)) + C * C / 4 * (4 * cos (4 * t)))).
  2:{ rewrite cos_4t. unfold lon_rate. field. }
  apply (derivable_pt_lim_scal (fun t => t + C / 2 * sin (2 * t) + C * C / 4 * sin (4 * t)) (1 - C)).
  apply (derivable_pt_lim_plus (fun t => t + C / 2 * sin (2 * t)) (fun t => C * C / 4 * sin (4 * t))).
  2:{ apply (derivable_pt_lim_scal (fun t => sin (4 * t))). apply dsin. }
  apply (derivable_pt_lim_plus (fun t => t) (fun t => C / 2 * sin (2 * t))).
  - apply derivable_pt_lim_id.
  - apply (derivable_pt_lim_scal (fun t => sin (2 * t))). apply dsin.
Qed.
Lemma lon_diff C s1 s : let c2 := cos (2 * s1 + s) in
  (1 - C) * (s + C * sin s * (c2 + C * cos s * (-1 + 2 * c2 ^ 2))) = lon_prim C (s1 + s) - lon_prim C s1.
Proof.
  cbv zeta. unfold lon_prim. set (th := 2 * s1 + s).
  assert (P : forall n, 2 * (sin (n * s) * cos (n * th)) = sin (2 * n * (s1 + s)) - sin (2 * n * s1)).
  { intros n. replace (2 * n * (s1 + s)) with (n * s + n * th) by (unfold th; ring). replace (2 * n * s1) with (n * th - n * s) by (unfold th; ring).
    rewrite sin_plus, sin_minus. ring. }
  pose proof (P 1) as P1. pose proof (P 2) as P2. clear P.
  rewrite !Rmult_1_l in P1. replace (2 * 1) with 2 in P1 by ring. replace (2 * 2) with 4 in P2 by ring.
  rewrite sin_2a, cos_2a_cos in P2. set (si := sin s) in *. set (co := cos s) in *. set (c := cos th) in *.
  set (a2 := sin (2 * (s1 + s))) in *. set (b2 := sin (2 * s1)) in *. set (a4 := sin (4 * (s1 + s))) in *. set (b4 := sin (4 * s1)) in *.
  replace a2 with (2 * (si * c) + b2) by lra. replace a4 with (2 * (2 * si * co * (2 * c * c - 1)) + b4) by lra. field.
Qed.
Lemma lon_close f w s1 s M : 0 <= f <= 1 / 100 -> 0 <= w <= 1 -> 0 <= s ->
  (forall t, s1 <= t <= s1 + s -> derivable_pt_lim M t (lon_true f w t)) ->
  Rabs ((1 - series_C f w) * (s + series_C f w * sin s * (cos (2 * s1 + s) + series_C f w * cos s * (-1 + 2 * cos (2 * s1 + s) ^ 2))) - (M (s1 + s) - M s1)) <= 2 * f ^ 3 * s.
Proof.
  intros Hf Hw Hs HM. rewrite (lon_diff (series_C f w) s1 s). assert (L : s1 <= s1 + s) by lra.
  pose proof (close_deriv _ M _ _ (2 * f ^ 3) s1 (s1 + s) L (fun t _ => lon_prim_deriv (series_C f w) t) HM (fun t _ => lon_rate_close f w t Hf Hw)) as H.
  replace (s1 + s - s1) with s in H by ring. exact H.
Qed.
