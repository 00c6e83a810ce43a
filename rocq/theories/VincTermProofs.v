(** * The loop of vinc_dist is a contraction unless the points are nearly antipodal. *)
From Coq Require Import Reals Machin Lia ZArith.
From Verif Require Import Base Atan2 VincModel VincSpec VincProofs VincSeries VincRunProofs VincGeoProofs.
From Coq Require Import Lra.
Local Open Scope R_scope.

(** ** Derivation rules in pointwise form *)
Lemma d_const c x : derivable_pt_lim (fun _ => c) x 0.
Proof. apply derivable_pt_lim_const. Qed.
Lemma d_plus g h x a b : derivable_pt_lim g x a -> derivable_pt_lim h x b -> derivable_pt_lim (fun t => g t + h t) x (a + b).
Proof. apply derivable_pt_lim_plus. Qed.
Lemma d_minus g h x a b : derivable_pt_lim g x a -> derivable_pt_lim h x b -> derivable_pt_lim (fun t => g t - h t) x (a - b).
Proof. apply derivable_pt_lim_minus. Qed.
Lemma d_mult g h x a b : derivable_pt_lim g x a -> derivable_pt_lim h x b -> derivable_pt_lim (fun t => g t * h t) x (a * h x + g x * b).
Proof. apply derivable_pt_lim_mult. Qed.
Lemma d_eq g x a b : derivable_pt_lim g x a -> a = b -> derivable_pt_lim g x b.
Proof. intros H <-. exact H. Qed.

(** ** Derivatives along the longitude *)
Section Along.
Variables u1 u2 : R.
Local Notation c := (cos u1 * cos u2).
Local Notation h := (sin u1 * sin u2).
Local Notation K := (KK u1 u2).
Local Notation S := (sigma_of u1 u2).
Definition yy (l : R) : R := c * sin l / sin (S l).
Definition qq (l : R) : R := ((1 - yy l * yy l) * cos (S l) - h) / sin (S l).

Lemma sigma_acos l : S l = acos (K l).
Proof. destruct (sigma_facts u1 u2 l) as (E & _ & _ & B & _). cbv zeta in *. rewrite <- E. symmetry. apply acos_cos. exact B. Qed.
Lemma d_K l : derivable_pt_lim K l (- (c * sin l)).
Proof.
  unfold KK. eapply d_eq; [apply d_plus; [apply d_const|apply d_mult; [apply d_const|apply derivable_pt_lim_cos]]|]. cbv beta. ring.
Qed.
Lemma K_inner l : 0 < sin (S l) -> -1 < K l < 1.
Proof.
  intros H. destruct (sigma_facts u1 u2 l) as (E & _ & Q & _ & _). cbv zeta in *. pose proof (sc (S l)) as T. rewrite E in T. assert (K l * K l < 1) by nra. split; nra.
Qed.
Lemma d_acos x : -1 < x < 1 -> derivable_pt_lim acos x (- / sqrt (1 - x * x)).
Proof.
  intros H. pose proof (derive_pt_acos x H) as E. unfold derive_pt in E. destruct (derivable_pt_acos x H) as (v & D). cbn in E.
  unfold Rdiv in E. rewrite Rmult_comm in E. eapply d_eq; [exact D|]. rewrite E. unfold Rsqr. ring.
Qed.
Lemma d_sigma l : 0 < sin (S l) -> derivable_pt_lim S l (yy l).
Proof.
  intros H. destruct (sigma_facts u1 u2 l) as (E & E2 & Q & _ & _). cbv zeta in *.
  assert (D : derivable_pt_lim (fun t => acos (K t)) l (- / sqrt (1 - K l * K l) * - (c * sin l))).
  { apply (derivable_pt_lim_comp K acos); [apply d_K|apply d_acos, K_inner, H]. }
  assert (X : - / sqrt (1 - K l * K l) * - (c * sin l) = yy l).
  { replace (1 - K l * K l) with (SS u1 u2 l) by (pose proof (SS_KK u1 u2 l); lra). rewrite <- E2. unfold yy. field. lra. }
  rewrite X in D. intros eps Heps. destruct (D eps Heps) as (d & Hd). exists d. intros x Hx Hxd. rewrite !sigma_acos. exact (Hd x Hx Hxd).
Qed.
Lemma d_sinS l : 0 < sin (S l) -> derivable_pt_lim (fun t => sin (S t)) l (cos (S l) * yy l).
Proof. intros H. apply (derivable_pt_lim_comp S sin); [apply d_sigma, H|apply derivable_pt_lim_sin]. Qed.
Lemma d_cosS l : 0 < sin (S l) -> derivable_pt_lim (fun t => cos (S t)) l (- sin (S l) * yy l).
Proof. intros H. apply (derivable_pt_lim_comp S cos); [apply d_sigma, H|apply derivable_pt_lim_cos]. Qed.
Lemma d_yy l : 0 < sin (S l) -> derivable_pt_lim yy l (qq l).
Proof.
  intros H. destruct (sigma_facts u1 u2 l) as (E & _ & _ & _ & _). cbv zeta in *.
  assert (D : derivable_pt_lim (fun t => c * sin t / sin (S t)) l (((0 * sin l + c * cos l) * sin (S l) - (cos (S l) * yy l) * (c * sin l)) / Rsqr (sin (S l)))).
  { apply (derivable_pt_lim_div (fun t => c * sin t) (fun t => sin (S t))); [|apply d_sinS, H|lra]. apply (d_mult (fun _ => c) sin); [apply d_const|apply derivable_pt_lim_sin]. }
  eapply d_eq; [exact D|]. unfold qq. replace (c * sin l) with (yy l * sin (S l)) by (unfold yy; field; lra).
  replace (c * cos l) with (cos (S l) - h) by (rewrite E; unfold KK; ring). unfold Rsqr. field. lra.
Qed.
End Along.

(** ** The new longitude as a function of the old one *)
Lemma am a b A B : Rabs a <= A -> Rabs b <= B -> Rabs (a * b) <= A * B.
Proof. intros Ha Hb. rewrite Rabs_mult. apply Rmult_le_compat; try assumption; apply Rabs_pos. Qed.
Lemma ap a b A B : Rabs a <= A -> Rabs b <= B -> Rabs (a + b) <= A + B.
Proof. intros Ha Hb. pose proof (Rabs_triang a b). lra. Qed.
Lemma an a b A B : Rabs a <= A -> Rabs b <= B -> Rabs (a - b) <= A + B.
Proof. intros Ha Hb. unfold Rminus. apply ap; [exact Ha|rewrite Rabs_Ropp; exact Hb]. Qed.
Lemma al a A B : Rabs a <= A -> A <= B -> Rabs a <= B.
Proof. lra. Qed.

(** The derivative and its bound, in terms of what it is made of. *)
Definition slope_expr (f y q sg s k w h : R) : R :=
  let w1 := -2 * (y * q) in let g := f / 16 * (4 + f * (4 - 3 * w)) in let g1 := f / 16 * (f * (-3 * w1)) in
  let C := g * w in let C1 := g1 * w + g * w1 in let D := w * k - 2 * h in let D1 := w1 * k + w * (- s * y) in
  let P := g * D in let P1 := g1 * D + g * D1 in let G := 2 * (P * P) - C * C in let G1 := 4 * (P * P1) - 2 * (C * C1) in
  let E := sg + s * P + s * k * G in let E1 := y + (k * y * P + s * P1) + ((k * y * k + s * (- s * y)) * G + s * k * G1) in
  q * ((1 - C) * E) + y * (- C1 * E + (1 - C) * E1).
Lemma slope_bound f y q sg s k w h m : 0 <= f <= 1 / 100 -> Rabs y <= 1 -> 0 < s <= 1 -> Rabs k <= 1 -> s <= sg <= m * s -> Rabs q * s <= 2 ->
  0 <= w <= 1 -> Rabs (w * k - 2 * h) <= 1 ->
  Rabs (slope_expr f y q sg s k w h) <= 202 / 100 * m + 102 / 100.
Proof.
  intros Hf Hy Hs Hk Hsg Hq Hw HD. unfold slope_expr. cbv zeta. set (w1 := -2 * (y * q)). set (g := f / 16 * (4 + f * (4 - 3 * w))). set (g1 := f / 16 * (f * (-3 * w1))).
  set (C := g * w). set (C1 := g1 * w + g * w1). set (D := w * k - 2 * h) in *. set (D1 := w1 * k + w * (- s * y)).
  set (P := g * D). set (P1 := g1 * D + g * D1). set (G := 2 * (P * P) - C * C). set (G1 := 4 * (P * P1) - 2 * (C * C1)).
  set (E := sg + s * P + s * k * G). set (E1 := y + (k * y * P + s * P1) + ((k * y * k + s * (- s * y)) * G + s * k * G1)).
  set (Q := Rabs q) in *. assert (Q0 : 0 <= Q) by apply Rabs_pos.
  assert (As : Rabs s <= 1) by (rewrite Rabs_pos_eq; lra). assert (As' : Rabs s <= s) by (rewrite Rabs_pos_eq; lra). assert (Aw : Rabs w <= 1) by (rewrite Rabs_pos_eq; lra).
  assert (Af : Rabs f <= 1 / 100) by (rewrite Rabs_pos_eq; lra). assert (Af16 : Rabs (f / 16) <= 1 / 1600) by (rewrite Rabs_pos_eq; lra).
  assert (Aq : Rabs q <= Q) by apply Rle_refl.
  assert (Aw1 : Rabs w1 <= 2 * Q). { unfold w1. eapply al; [apply am; [|apply am; [exact Hy|exact Aq]]; apply Rle_refl|]. rewrite Rabs_left by lra. lra. }
  assert (Hg : 0 <= g <= 253 / 100000). { unfold g. assert (0 <= f * (4 - 3 * w) <= 4 / 100) by (split; nra). split; [apply Rmult_le_pos; lra|].
    apply Rle_trans with (1 / 1600 * (4 + 4 / 100)); [apply Rmult_le_compat; lra|lra]. }
  assert (Ag : Rabs g <= 253 / 100000) by (rewrite Rabs_pos_eq; lra).
  assert (Ag1 : Rabs g1 <= 4 / 100000 * Q).
  { unfold g1. eapply al; [apply am; [exact Af16|apply am; [exact Af|apply am; [apply Rle_refl|exact Aw1]]]|]. rewrite Rabs_left by lra. lra. }
  assert (HC : 0 <= C <= 253 / 100000) by (unfold C; split; nra). assert (AC : Rabs C <= 253 / 100000) by (rewrite Rabs_pos_eq; lra).
  assert (AC1 : Rabs C1 <= 511 / 100000 * Q). { unfold C1. eapply al; [apply ap; [apply am; [exact Ag1|exact Aw]|apply am; [exact Ag|exact Aw1]]|]. lra. }
  assert (AD1 : Rabs D1 <= 2 * Q + s).
  { unfold D1. eapply al; [apply ap; [apply am; [exact Aw1|exact Hk]|apply am; [exact Aw|apply am; [rewrite Rabs_Ropp; exact As'|exact Hy]]]|]. lra. }
  assert (AP : Rabs P <= 253 / 100000). { unfold P. eapply al; [apply am; [exact Ag|exact HD]|]. lra. }
  assert (AP1 : Rabs P1 <= 511 / 100000 * Q + 253 / 100000 * s). { unfold P1. eapply al; [apply ap; [apply am; [exact Ag1|exact HD]|apply am; [exact Ag|exact AD1]]|]. lra. }
  assert (AG : Rabs G <= 2 / 100000).
  { unfold G. eapply al; [apply an; [apply am; [apply Rle_refl|apply am; [exact AP|exact AP]]|apply am; [exact AC|exact AC]]|]. rewrite Rabs_pos_eq by lra. lra. }
  assert (AG1 : Rabs G1 <= 1 / 10000 * Q + 1 / 10000 * s).
  { unfold G1. eapply al; [apply an; [apply am; [apply Rle_refl|apply am; [exact AP|exact AP1]]|apply am; [apply Rle_refl|apply am; [exact AC|exact AC1]]]|]. rewrite !Rabs_pos_eq by lra. lra. }
  assert (Asg : Rabs sg <= sg) by (rewrite Rabs_pos_eq; lra).
  assert (AE : Rabs E <= 10026 / 10000 * sg).
  { unfold E. eapply al; [apply ap; [apply ap; [exact Asg|apply am; [exact As'|exact AP]]|apply am; [apply am; [exact As'|exact Hk]|exact AG]]|]. lra. }
  assert (AE1 : Rabs E1 <= 102 / 100).
  { unfold E1. eapply al; [apply ap; [apply ap; [exact Hy|apply ap; [apply am; [apply am; [exact Hk|exact Hy]|exact AP]|apply am; [exact As'|exact AP1]]]|
      apply ap; [apply am; [apply ap; [apply am; [apply am; [exact Hk|exact Hy]|exact Hk]|apply am; [exact As|apply am; [rewrite Rabs_Ropp; exact As|exact Hy]]]|exact AG]|apply am; [apply am; [exact As'|exact Hk]|exact AG1]]]|].
    assert (s * s <= 1) by nra. lra. }
  assert (A1C : Rabs (1 - C) <= 1) by (rewrite Rabs_pos_eq; lra).
  assert (Qsg : Q * sg <= 2 * m). { assert (Q * sg <= Q * (m * s)) by (apply Rmult_le_compat_l; lra). assert (0 <= m) by nra. assert (m * (Q * s) <= m * 2) by (apply Rmult_le_compat_l; lra). lra. }
  assert (m0 : 0 <= m) by nra.
  eapply al; [apply ap; [apply am; [exact Aq|apply am; [exact A1C|exact AE]]|apply am; [exact Hy|apply ap; [apply am; [rewrite Rabs_Ropp; exact AC1|exact AE]|apply am; [exact A1C|exact AE1]]]]|]. lra.
Qed.

Section Map.
Variables f u1 u2 : R.
Hypothesis Hf : 0 <= f <= 1 / 100.
Local Notation h := (sin u1 * sin u2).
Local Notation S := (sigma_of u1 u2).
Local Notation y := (yy u1 u2).
Definition wt (l : R) : R := 1 - y l * y l.
Definition gt (l : R) : R := f / 16 * (4 + f * (4 - 3 * wt l)).
Definition Ct (l : R) : R := gt l * wt l.
Definition Pt (l : R) : R := gt l * (wt l * cos (S l) - 2 * h).
Definition Gt (l : R) : R := 2 * (Pt l * Pt l) - Ct l * Ct l.
Definition Et (l : R) : R := S l + sin (S l) * Pt l + sin (S l) * cos (S l) * Gt l.
Definition FF (l : R) : R := y l * ((1 - Ct l) * Et l).

Lemma yy_sin omega l s : pass f u1 u2 omega l s -> y l = sin (v_alpha s) /\ wt l = cos (v_alpha s) * cos (v_alpha s) /\ S l = v_sigma s.
Proof.
  intros P. pose proof (pass_sin_pos _ _ _ _ _ _ P) as SP. pose proof (p_alpha _ _ _ _ _ _ P) as A. pose proof (p_sigma _ _ _ _ _ _ P) as E.
  assert (Y : y l = sin (v_alpha s)) by (unfold yy; rewrite <- E, <- A; field; lra). split; [exact Y|]. split; [|symmetry; exact E].
  unfold wt. rewrite Y. pose proof (sc (v_alpha s)). lra.
Qed.
Lemma FF_corr omega l s : pass f u1 u2 omega l s -> FF l = sin (v_alpha s) * corr f s.
Proof.
  intros P. destruct (yy_sin omega l s P) as (Y & W & E). unfold FF, Et, Gt. rewrite Y, E. unfold corr.
  assert (C : Ct l = series_C f (cos (v_alpha s) * cos (v_alpha s))) by (unfold Ct, gt, series_C; rewrite W; field). rewrite <- C.
  assert (Pc : Pt l = Ct l * v_cos2sigma_m s).
  { unfold Pt, Ct. rewrite E, Rmult_assoc. f_equal. pose proof (p_c2 _ _ _ _ _ _ P) as Q. rewrite !pow2, <- W in Q. lra. }
  rewrite Pc. ring.
Qed.
Lemma new_FF omega l s : pass f u1 u2 omega l s -> v_lembda s = omega + f * FF l.
Proof. intros P. rewrite (p_new' _ _ _ _ _ _ P), (FF_corr omega l s P). ring. Qed.
Lemma FF_odd l : FF (- l) = - FF l.
Proof.
  assert (S1 : S (- l) = S l) by apply sigma_neg. assert (Y1 : y (- l) = - y l) by (unfold yy; rewrite S1, sin_neg; unfold Rdiv; ring).
  assert (W1 : wt (- l) = wt l) by (unfold wt; rewrite Y1; ring). assert (G1 : gt (- l) = gt l) by (unfold gt; rewrite W1; reflexivity).
  unfold FF, Et, Gt, Pt, Ct. rewrite Y1, S1, W1, G1. ring.
Qed.


(** Facts about the point reached at longitude [l]. *)
Lemma yy_facts l : 0 < sin (S l) -> (sin u1 <> 0 \/ sin u2 <> 0) -> Rabs (y l) <= 1 /\ 0 <= wt l <= 1 /\ Rabs (wt l * cos (S l) - 2 * h) <= 1 /\ Rabs (qq u1 u2 l) * sin (S l) <= 2.
Proof.
  intros H N. destruct (vinc_step_cases f u1 u2 0 l) as [(_ & _ & s & _ & P)|([Z|[Z1 Z2]] & _)]; [|lra|tauto].
  destruct (yy_sin 0 l s P) as (Y & W & E). pose proof (w_bound _ _ _ _ _ _ P) as B. rewrite <- W in B. split; [rewrite Y; apply abs_sin|]. split; [lra|]. split.
  - pose proof (p_c2 _ _ _ _ _ _ P) as Q. rewrite !pow2, <- W, <- E in Q. pose proof (p_c2b _ _ _ _ _ _ P) as Q2.
    replace (wt l * cos (S l) - 2 * h) with (v_cos2sigma_m s * wt l) by lra. eapply al; [apply (am _ _ 1 1)|lra]; apply Rabs_le; lra.
  - unfold qq. fold (wt l). unfold Rdiv. rewrite Rabs_mult, Rabs_inv, (Rabs_pos_eq (sin (S l))) by lra. rewrite Rmult_assoc, Rinv_l, Rmult_1_r by lra.
    eapply al; [apply (an _ _ 1 1)|lra].
    + eapply al; [apply (am _ _ 1 1); [rewrite Rabs_pos_eq; lra|apply abs_cos]|lra].
    + eapply al; [apply (am _ _ 1 1); apply abs_sin|lra].
Qed.

Definition FF1 (l : R) : R := slope_expr f (y l) (qq u1 u2 l) (S l) (sin (S l)) (cos (S l)) (wt l) h.
Lemma d_FF l : 0 < sin (S l) -> (sin u1 <> 0 \/ sin u2 <> 0) -> forall m, S l <= m * sin (S l) ->
  derivable_pt_lim FF l (FF1 l) /\ Rabs (FF1 l) <= 202 / 100 * m + 102 / 100.
Proof.
  intros H N m Hm. destruct (yy_facts l H N) as (B1 & B2 & B3 & B4). split; [|apply (slope_bound f (y l) (qq u1 u2 l) (S l) (sin (S l)) (cos (S l)) (wt l) h m Hf B1); try assumption].
  - pose proof (d_yy u1 u2 l H) as Dy. pose proof (d_sigma u1 u2 l H) as Ds. pose proof (d_sinS u1 u2 l H) as Dsi. pose proof (d_cosS u1 u2 l H) as Dco.
    set (q := qq u1 u2 l) in *.
    assert (Dw : derivable_pt_lim wt l (-2 * (y l * q))) by (unfold wt; eapply d_eq; [apply d_minus; [apply d_const|apply d_mult; exact Dy]|ring]). set (w1 := -2 * (y l * q)) in *.
    assert (Dg : derivable_pt_lim gt l (f / 16 * (f * (-3 * w1)))).
    { unfold gt. eapply d_eq; [apply d_mult; [apply d_const|apply d_plus; [apply d_const|apply d_mult; [apply d_const|apply d_minus; [apply d_const|apply d_mult; [apply d_const|exact Dw]]]]]|cbv beta; ring]. }
    set (g1 := f / 16 * (f * (-3 * w1))) in *.
    assert (DC : derivable_pt_lim Ct l (g1 * wt l + gt l * w1)) by (unfold Ct; apply d_mult; assumption). set (C1 := g1 * wt l + gt l * w1) in *.
    assert (DP : derivable_pt_lim Pt l (g1 * (wt l * cos (S l) - 2 * h) + gt l * (w1 * cos (S l) + wt l * (- sin (S l) * y l)))).
    { unfold Pt. eapply d_eq; [apply d_mult; [exact Dg|apply d_minus; [apply d_mult; [exact Dw|exact Dco]|apply d_const]]|cbv beta; ring]. }
    set (P1 := g1 * (wt l * cos (S l) - 2 * h) + gt l * (w1 * cos (S l) + wt l * (- sin (S l) * y l))) in *.
    assert (DG : derivable_pt_lim Gt l (4 * (Pt l * P1) - 2 * (Ct l * C1))).
    { unfold Gt. eapply d_eq; [apply d_minus; [apply d_mult; [apply d_const|apply d_mult; exact DP]|apply d_mult; exact DC]|cbv beta; ring]. } set (G1 := 4 * (Pt l * P1) - 2 * (Ct l * C1)) in *.
    assert (DE : derivable_pt_lim Et l (y l + (cos (S l) * y l * Pt l + sin (S l) * P1) + ((cos (S l) * y l * cos (S l) + sin (S l) * (- sin (S l) * y l)) * Gt l + sin (S l) * cos (S l) * G1))).
    { unfold Et. eapply d_eq; [apply d_plus; [apply d_plus; [exact Ds|apply d_mult; [exact Dsi|exact DP]]|apply d_mult; [apply d_mult; [exact Dsi|exact Dco]|exact DG]]|cbv beta; ring]. }
    unfold FF. eapply d_eq; [apply d_mult; [exact Dy|apply d_mult; [apply d_minus; [apply d_const|exact DC]|exact DE]]|]. unfold FF1, slope_expr. cbv beta zeta. fold q. fold w1. fold g1.
    change (f / 16 * (4 + f * (4 - 3 * wt l))) with (gt l). fold C1. fold P1. change (gt l * wt l) with (Ct l). change (gt l * (wt l * cos (S l) - 2 * h)) with (Pt l). fold (Gt l). fold G1. fold (Et l). ring.
  - pose proof (SIN_bound (S l)). lra.
  - apply abs_cos.
  - split; [|exact Hm]. destruct (sigma_facts u1 u2 l) as (_ & _ & _ & B & _). cbv zeta in B. destruct (Rle_lt_or_eq_dec 0 (S l) (proj1 B)) as [L|L]; [left; apply sin_lt_x; exact L|rewrite <- L; rewrite sin_0; lra].
Qed.
End Map.

(** ** Elementary bounds on the sine *)
Lemma cos_low x : 1 - x * x / 2 <= cos x.
Proof.
  replace x with (2 * (x / 2)) at 3 by field. rewrite cos_2t.
  assert (A : Rabs (sin (x / 2)) <= Rabs (x / 2)).
  { destruct (Rtotal_order (x / 2) 0) as [L|[E|L]]; [|rewrite E, sin_0; lra|].
    - pose proof (sin_gt_x _ L). destruct (Rle_lt_dec (sin (x / 2)) 0); [rewrite !Rabs_left1 by lra; lra|]. pose proof (SIN_bound (x / 2)).
      destruct (Rlt_le_dec (- PI) (x / 2)); [pose proof (sin_lt_0_var (x / 2)); lra|]. rewrite Rabs_pos_eq, (Rabs_left1 (x / 2)) by lra. pose proof PI2_3_2. lra.
    - pose proof (sin_lt_x _ L). destruct (Rle_lt_dec 0 (sin (x / 2))); [rewrite !Rabs_pos_eq by lra; lra|]. pose proof (SIN_bound (x / 2)).
      destruct (Rlt_le_dec (x / 2) PI); [pose proof (sin_gt_0 (x / 2)); lra|]. rewrite Rabs_left, (Rabs_pos_eq (x / 2)) by lra. pose proof PI2_3_2. lra. }
  assert (B : sin (x / 2) * sin (x / 2) <= x / 2 * (x / 2)).
  { rewrite <- (Rabs_pos_eq (sin (x / 2) * sin (x / 2))), <- (Rabs_pos_eq (x / 2 * (x / 2))) by apply sq_nonneg. rewrite !Rabs_mult. apply Rmult_le_compat; try assumption; apply Rabs_pos. }
  lra.
Qed.
Lemma pi_bounds : 314 / 100 < PI < 315 / 100.
Proof.
  pose proof (PI_2_3_7_ineq 1) as H. cbn [sum_f_R0 Nat.mul Nat.add] in H. unfold tg_alt, PI_2_3_7_tg, Ratan_seq in H. cbn [Nat.mul Nat.add pow INR] in H. lra.
Qed.
Lemma sine_ratio x : 0 < x <= 245 / 100 -> x <= 4 * sin x.
Proof.
  intros [H0 H1]. pose proof PI2_3_2 as P2. destruct (Rle_lt_dec x 1) as [L|G].
  - destruct (MVT_cor2 sin cos 0 x H0 (fun t _ => derivable_pt_lim_sin t)) as (t & E & Ht). rewrite sin_0 in E. pose proof (cos_low t).
    assert (t * t <= 1) by nra. assert (1 / 2 <= cos t) by lra. assert (1 / 2 * x <= cos t * x) by (apply Rmult_le_compat_r; lra). lra.
  - replace x with (PI / 2 + (x - PI / 2)) at 2 by ring. rewrite sin_plus, sin_PI2, cos_PI2. pose proof (cos_low (x - PI / 2)) as K.
    pose proof pi_bounds as PU. destruct (Rle_lt_dec x (PI / 2)) as [A|A].
    + assert ((x - PI / 2) * (x - PI / 2) <= 6 / 10 * (6 / 10)) by nra. lra.
    + assert ((x - PI / 2) * (x - PI / 2) <= 88 / 100 * (88 / 100)) by nra. lra.
Qed.

(** ** Iterates *)
Lemma cos_lip x z : Rabs (cos x - cos z) <= Rabs (x - z).
Proof.
  assert (H : forall a b, a < b -> Rabs (cos b - cos a) <= Rabs (b - a)).
  { intros a b L. destruct (MVT_cor2 cos (fun t => - sin t) a b L (fun t _ => derivable_pt_lim_cos t)) as (t & E & _). rewrite E, Rabs_mult, Rabs_Ropp.
    pose proof (abs_sin t). pose proof (Rabs_pos (b - a)). nra. }
  destruct (Rtotal_order x z) as [L|[->|L]]; [|replace (cos z - cos z) with 0 by ring; rewrite Rabs_R0; apply Rabs_pos|apply H; exact L].
  rewrite (Rabs_minus_sym (cos x)), (Rabs_minus_sym x). apply H. exact L.
Qed.
Lemma K_lip u1 u2 x z : Rabs (KK u1 u2 x - KK u1 u2 z) <= Rabs (x - z).
Proof.
  unfold KK. replace (sin u1 * sin u2 + cos u1 * cos u2 * cos x - (sin u1 * sin u2 + cos u1 * cos u2 * cos z)) with (cos u1 * cos u2 * (cos x - cos z)) by ring.
  eapply al; [apply am; [apply (am _ _ 1 1); apply abs_cos|apply cos_lip]|]. lra.
Qed.

Section Iterate.
Variables f u1 u2 W : R.
Hypothesis Hf : 0 <= f <= 1 / 100.
Hypothesis C1 : 0 < cos u1.
Hypothesis C2 : 0 < cos u2.
Hypothesis NE : sin u1 <> 0 \/ sin u2 <> 0.
Hypothesis HW : 0 < W <= PI.
Hypothesis HS : sigma_of u1 u2 W <= 12 / 5.
Local Notation S := (sigma_of u1 u2).
Definition JJ (x : R) : Prop := W <= x <= PI /\ x <= W + 405 / 10000.

Lemma JJ_sin x : JJ x -> 0 < sin (S x).
Proof.
  intros [[A1 A2] A3]. destruct (sigma_facts u1 u2 x) as (E & _ & _ & B & B'). cbv zeta in *. destruct (Rle_lt_or_eq_dec _ _ B') as [L|Z]; [exact L|exfalso].
  pose proof (sc (S x)) as T. rewrite <- Z, E in T.
  assert (U : KK u1 u2 x < 1).
  { apply Rlt_le_trans with (cos (u1 - u2)); [|apply COS_bound]. rewrite cos_minus. unfold KK. assert (Cx : cos x < 1).
    { replace x with (2 * (x / 2)) by field. rewrite cos_2t. assert (0 < sin (x / 2)) by (apply sin_gt_0; lra). nra. }
    assert (0 < cos u1 * cos u2) by nra. nra. }
  assert (D : - (9 / 10) <= KK u1 u2 x).
  { pose proof (abs_between _ _ (K_lip u1 u2 x W)) as KL. rewrite (Rabs_pos_eq (x - W)) in KL by lra.
    destruct (sigma_facts u1 u2 W) as (EW & _ & _ & BW & _). cbv zeta in *. rewrite <- EW in KL. pose proof pi_bounds as PB.
    assert (cos (12 / 5) <= cos (S W)) by (destruct (Rle_lt_or_eq_dec _ _ HS) as [L|E']; [left; apply cos_decreasing_1; lra|rewrite E'; apply Rle_refl]).
    assert (- (831 / 1000) <= cos (12 / 5)). { replace (12 / 5) with (PI / 2 + (12 / 5 - PI / 2)) by ring. rewrite cos_plus, cos_PI2, sin_PI2. pose proof (sin_lt_x (12 / 5 - PI / 2) ltac:(lra)). lra. }
    lra. }
  assert (Z2 : (1 - KK u1 u2 x) * (1 + KK u1 u2 x) = 0) by lra. destruct (Rmult_integral _ _ Z2); lra.
Qed.
Lemma yy_abs x : 0 < sin (S x) -> Rabs (yy u1 u2 x) <= 1.
Proof. intros H. apply (yy_facts f u1 u2 Hf x H NE). Qed.
Lemma JJ_ratio x : JJ x -> S x <= 4 * sin (S x).
Proof.
  intros J. pose proof (JJ_sin x J) as Hs. apply sine_ratio. destruct (sigma_facts u1 u2 x) as (_ & _ & _ & B & _). cbv zeta in *.
  assert (L0 : 0 < S x) by (destruct (Rle_lt_or_eq_dec _ _ (proj1 B)) as [L|E]; [exact L|rewrite <- E, sin_0 in Hs; lra]). split; [exact L0|].
  destruct J as [[A1 A2] A3]. destruct (Rle_lt_or_eq_dec _ _ A1) as [L|E]; [|subst; lra].
  destruct (MVT_cor2 S (yy u1 u2) W x L) as (t & E & Ht). { intros t Ht. apply d_sigma. apply JJ_sin. unfold JJ. lra. }
  assert (Hy : Rabs (yy u1 u2 t) <= 1) by (apply yy_abs, JJ_sin; unfold JJ; lra). apply abs_between in Hy. assert (yy u1 u2 t * (x - W) <= 1 * (x - W)) by (apply Rmult_le_compat_r; lra). lra.
Qed.
Lemma JJ_lip x z : JJ x -> JJ z -> Rabs (FF f u1 u2 x - FF f u1 u2 z) <= 91 / 10 * Rabs (x - z).
Proof.
  assert (G : forall a b, a < b -> JJ a -> JJ b -> Rabs (FF f u1 u2 b - FF f u1 u2 a) <= 91 / 10 * Rabs (b - a)).
  { intros a b L Ja Jb. assert (J : forall t, a <= t <= b -> JJ t) by (intros t Ht; unfold JJ in *; lra).
    destruct (MVT_cor2 (FF f u1 u2) (FF1 f u1 u2) a b L) as (t & E & Ht). { intros t Ht. apply (d_FF f u1 u2 Hf t (JJ_sin t (J t Ht)) NE 4 (JJ_ratio t (J t Ht))). }
    rewrite E. eapply al; [apply am; [apply (d_FF f u1 u2 Hf t (JJ_sin t (J t ltac:(lra))) NE 4 (JJ_ratio t (J t ltac:(lra))))|apply Rle_refl]|]. pose proof (Rabs_pos (b - a)). lra. }
  intros Jx Jz. destruct (Rtotal_order x z) as [L|[->|L]]; [rewrite (Rabs_minus_sym (FF f u1 u2 x)), (Rabs_minus_sym x); apply G; assumption| |apply G; assumption].
  replace (FF f u1 u2 z - FF f u1 u2 z) with 0 by ring. rewrite Rabs_R0. pose proof (Rabs_pos (z - z)). lra.
Qed.
Lemma JJ_size x : JJ x -> 0 <= FF f u1 u2 x <= 403 / 100 * sin x.
Proof.
  intros J. pose proof (JJ_sin x J) as Hs. pose proof (JJ_ratio x J) as Hr.
  destruct (vinc_step_cases f u1 u2 0 x) as [(_ & _ & s & _ & P)|([Z|[Z1 Z2]] & _)]; [|lra|tauto].
  rewrite (FF_corr f u1 u2 0 x s P). destruct (yy_sin f u1 u2 0 x s P) as (_ & _ & E). pose proof (corr_pos _ _ _ _ _ _ P Hf) as [K0 K1]. rewrite <- E in K1.
  assert (Sx : 0 <= sin x) by (apply sin_ge_0; unfold JJ in J; lra). destruct (alpha_sign _ _ _ _ _ _ P C1 C2) as [A _]. specialize (A Sx).
  pose proof (p_alpha _ _ _ _ _ _ P) as PA. rewrite <- E in PA.
  split; [apply Rmult_le_pos; assumption|]. apply Rle_trans with (sin (v_alpha s) * (10052 / 10000 * (4 * sin (S x)))); [apply Rmult_le_compat_l; lra|].
  replace (sin (v_alpha s) * (10052 / 10000 * (4 * sin (S x)))) with (40208 / 10000 * (sin (v_alpha s) * sin (S x))) by field. rewrite PA.
  assert (cos u1 * cos u2 <= 1) by (pose proof (COS_bound u1); pose proof (COS_bound u2); nra). assert (cos u1 * cos u2 * sin x <= 1 * sin x) by (apply Rmult_le_compat_r; lra). lra.
Qed.
Lemma JJ_next x : JJ x -> JJ (W + f * FF f u1 u2 x).
Proof.
  intros J. pose proof (JJ_size x J) as [Z0 Z1]. pose proof (SIN_bound x) as SB. destruct J as [[A1 A2] A3].
  assert (sin x <= PI - x). { rewrite <- sin_PI_x. destruct (Rle_lt_or_eq_dec _ _ A2) as [L|E]; [left; apply sin_lt_x; lra|]. subst x. replace (PI - PI) with 0 by ring. rewrite sin_0. lra. }
  assert (F0 : 0 <= f * FF f u1 u2 x) by (apply Rmult_le_pos; lra).
  assert (F1 : f * FF f u1 u2 x <= 1 / 100 * (403 / 100 * sin x)) by (apply Rmult_le_compat; lra).
  unfold JJ. lra.
Qed.
End Iterate.

(** ** The loop stops *)
Section Stop.
Variables f u1 u2 omega e : R.
Hypothesis Hf : 0 <= f <= 1 / 100.
Hypothesis C1 : 0 < cos u1.
Hypothesis C2 : 0 < cos u2.
Hypothesis NE : sin u1 <> 0 \/ sin u2 <> 0.
Hypothesis He : e = 1 \/ e = -1.
Hypothesis HW : 0 < e * omega <= PI.
Hypothesis HS : sigma_of u1 u2 omega <= 12 / 5.
Local Notation W := (e * omega).
Lemma sigma_e l : sigma_of u1 u2 (e * l) = sigma_of u1 u2 l.
Proof. destruct He; subst; [rewrite Rmult_1_l; reflexivity|]. replace (-1 * l) with (- l) by ring. apply sigma_neg. Qed.
Lemma FF_e l : FF f u1 u2 (e * l) = e * FF f u1 u2 l.
Proof. destruct He; subst; [rewrite !Rmult_1_l; reflexivity|]. replace (-1 * l) with (- l) by ring. rewrite FF_odd. ring. Qed.
Lemma abs_e l : Rabs (e * l) = Rabs l.
Proof. rewrite Rabs_mult. replace (Rabs e) with 1; [ring|]. destruct He; subst; [rewrite Rabs_R1; reflexivity|rewrite Rabs_left; lra]. Qed.
Local Notation J l := (JJ W (e * l)).

Lemma J_step l : J l -> exists s, vinc_step f u1 u2 omega l = Ok s /\ v_lembda s = omega + f * FF f u1 u2 l /\ J (v_lembda s).
Proof.
  intros Hl. assert (HS' : sigma_of u1 u2 W <= 12 / 5) by (rewrite sigma_e; exact HS).
  pose proof (JJ_sin u1 u2 W C1 C2 HW HS' (e * l) Hl) as Hs. rewrite sigma_e in Hs.
  destruct (vinc_step_cases f u1 u2 omega l) as [(_ & _ & s & E & P)|([Z|[Z1 Z2]] & _)]; [|exfalso; rewrite Z in Hs; exact (Rlt_irrefl _ Hs)|exfalso; destruct NE; contradiction].
  exists s. split; [exact E|]. pose proof (new_FF f u1 u2 omega l s P) as N. split; [exact N|]. rewrite N.
  replace (e * (omega + f * FF f u1 u2 l)) with (W + f * FF f u1 u2 (e * l)) by (rewrite FF_e; ring). apply JJ_next; assumption.
Qed.
Lemma J_range l : J l -> W <= Rabs l <= PI /\ -4 <= l.
Proof.
  intros [[A1 A2] A3]. rewrite <- abs_e. pose proof PI_4. rewrite Rabs_pos_eq by lra. split; [lra|]. destruct He; subst; lra.
Qed.
Lemma stop_small last l : J last -> J l -> Rabs (last - l) <= / 10 ^ 9 * W -> vinc_again last l = false.
Proof.
  intros Ja Jl D. destruct (J_range _ Ja) as [_ B1]. destruct (J_range _ Jl) as [[B2 _] _]. unfold vinc_again.
  destruct (Rlt_dec last (-3000000)) as [L|_]; [lra|]. destruct (Req_EM_T l 0) as [Z|N]; [reflexivity|]. destruct (Rlt_dec (1 / 10 ^ 9) (Rabs ((last - l) / l))) as [L|_]; [exfalso|reflexivity].
  unfold Rdiv in L at 2. rewrite Rabs_mult, Rabs_inv in L. apply (Rmult_lt_compat_r (Rabs l)) in L; [|apply Rabs_pos_lt; exact N].
  rewrite Rmult_assoc, Rinv_l, Rmult_1_r in L by (apply Rabs_no_R0; exact N). unfold Rdiv in L. rewrite Rmult_1_l in L.
  assert (0 < / 10 ^ 9) by (apply Rinv_0_lt_compat, pow_lt; lra). assert (/ 10 ^ 9 * W <= / 10 ^ 9 * Rabs l) by (apply Rmult_le_compat_l; lra). lra.
Qed.
Lemma loop_stops n : forall fuel last l st d, (n <= fuel)%nat -> J last -> J l -> l = omega + f * FF f u1 u2 last -> Rabs (last - l) <= d ->
  (91 / 1000) ^ n * d <= / 10 ^ 9 * W -> exists s, vinc_loop fuel f u1 u2 omega last l (Some st) = Some (Ok s).
Proof.
  induction n as [|n IH]; intros fuel last l st d Hn Ja Jl El Hd Hq.
  - exists st. assert (A : vinc_again last l = false) by (apply stop_small; [assumption|assumption|cbn [pow] in Hq; lra]).
    destruct fuel; cbn [vinc_loop]; rewrite A; reflexivity.
  - destruct fuel as [|fuel]; [lia|]. cbn [vinc_loop]. destruct (vinc_again last l); [|eexists; reflexivity].
    destruct (J_step l Jl) as (s & -> & Es & Js). apply (IH fuel l (v_lembda s) s (91 / 1000 * d)); [lia|exact Jl|exact Js|exact Es| |].
    + rewrite Es. rewrite El at 1. replace (omega + f * FF f u1 u2 last - (omega + f * FF f u1 u2 l)) with (f * (FF f u1 u2 last - FF f u1 u2 l)) by ring.
      rewrite Rabs_mult, (Rabs_pos_eq f) by lra. assert (HS' : sigma_of u1 u2 W <= 12 / 5) by (rewrite sigma_e; exact HS).
      pose proof (JJ_lip f u1 u2 W Hf C1 C2 NE HW HS' (e * last) (e * l) Ja Jl) as L. rewrite !FF_e, <- !Rmult_minus_distr_l, !abs_e in L.
      apply Rle_trans with (1 / 100 * (91 / 10 * Rabs (last - l))); [|lra]. apply Rmult_le_compat; [lra|apply Rabs_pos|lra|exact L].
    + replace ((91 / 1000) ^ n * (91 / 1000 * d)) with ((91 / 1000) ^ Datatypes.S n * d) by (cbn [pow]; ring). exact Hq.
Qed.
Lemma loop_from_start fuel : (9 <= fuel)%nat -> exists s, vinc_loop fuel f u1 u2 omega (-4000000) omega None = Some (Ok s).
Proof.
  intros Hn. destruct fuel as [|fuel]; [lia|]. cbn [vinc_loop]. rewrite again_start.
  assert (J0 : J omega) by (unfold JJ; lra). destruct (J_step omega J0) as (s & -> & Es & Js).
  assert (HS' : sigma_of u1 u2 W <= 12 / 5) by (rewrite sigma_e; exact HS).
  apply (loop_stops 8 fuel omega (v_lembda s) s (403 / 10000 * W)); [lia|exact J0|exact Js|exact Es| |].
  - rewrite Es. replace (omega - (omega + f * FF f u1 u2 omega)) with (- (f * FF f u1 u2 omega)) by ring. rewrite Rabs_Ropp, <- abs_e.
    replace (e * (f * FF f u1 u2 omega)) with (f * FF f u1 u2 (e * omega)) by (rewrite FF_e; ring).
    pose proof (JJ_size f u1 u2 W Hf C1 C2 NE HW HS' W J0) as [Z0 Z1]. rewrite Rabs_pos_eq by (apply Rmult_le_pos; lra). pose proof (sin_lt_x W ltac:(lra)).
    apply Rle_trans with (1 / 100 * (403 / 100 * W)); [|lra]. apply Rmult_le_compat; lra.
  - replace ((91 / 1000) ^ 8 * (403 / 10000 * W)) with ((91 / 1000) ^ 8 * (403 / 10000) * W) by ring. apply Rmult_le_compat_r; [lra|]. cbn [pow]. lra.
Qed.
End Stop.

(** The same meridian: one pass. *)
Lemma loop_meridian f u1 u2 fuel : 0 <= f <= 1 / 100 -> sin (sigma_of u1 u2 0) <> 0 -> (sin u1 <> 0 \/ sin u2 <> 0) -> (1 <= fuel)%nat ->
  exists s, vinc_loop fuel f u1 u2 0 (-4000000) 0 None = Some (Ok s) /\ pass f u1 u2 0 0 s /\ v_lembda s = 0.
Proof.
  intros Hf Hs NE Hn. destruct fuel as [|fuel]; [lia|]. cbn [vinc_loop]. rewrite again_start.
  destruct (vinc_step_cases f u1 u2 0 0) as [(_ & _ & s & E & P)|([Z|[Z1 Z2]] & _)]; [|contradiction|exfalso; destruct NE; contradiction].
  rewrite E. exists s. assert (Z : v_lembda s = 0).
  { rewrite (new_FF f u1 u2 0 0 s P). assert (F0 : FF f u1 u2 0 = 0) by (unfold FF, yy; rewrite sin_0; unfold Rdiv; ring). rewrite F0. ring. }
  split; [|split; assumption]. assert (A : vinc_again 0 (v_lembda s) = false) by (rewrite Z; apply again_same; lra). destruct fuel; cbn [vinc_loop]; rewrite A; reflexivity.
Qed.
