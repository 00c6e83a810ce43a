(** * Double precision against exact arithmetic along a line (C93). *)
From Coq Require Import Qpower Qfield.
From Verif Require Import Base BaseLemmas Rounding FloatSpec FloatModel FloatRndProofs TopoModel TopoSpec TopoLineProofs TopoMhProofs TopoCalcProofs TopoHillProofs.
From Verif Require Import TopoFlSpec TopoFlProofs TopoFlEndProofs.
Open Scope Z_scope.

Definition E52 : Q := 1 # 4503599627370496.
Lemma gp7 : (gp 7 <= 1 + 8 * E52)%Q. Proof. vm_compute. discriminate. Qed.
Lemma gp64 : (1 + 64 * E52 <= gp 64)%Q. Proof. vm_compute. discriminate. Qed.
Lemma gp71 : (gp 71 <= 1 + 72 * E52)%Q. Proof. vm_compute. discriminate. Qed.
Lemma u53_E : (u53 == (1#2) * E52)%Q. Proof. reflexivity. Qed.
Lemma E52_pos : (0 < E52 <= 1 # 1000000)%Q. Proof. split; vm_compute; [reflexivity|discriminate]. Qed.

(** Whole elevations. *)
Definition whole (y : list Q) : Prop := forall i, exists z, elev_at y i = inject_Z z /\ Z.abs z <= 2 ^ 51.

Section Fl.
Variable fl : Q -> Q.
Hypothesis F : fl_ok fl.
Hypothesis B : double fl.
Hypothesis L : fl_line fl (2 ^ 53).
Hypothesis Hend : forall n r ds, 1 <= n <= r -> r <= 2 ^ 50 -> (0 < ds)%Q ->
  Qfloor (fl (inject_Z r + fl (fl (2 * fl (fl (inject_Z n * ds) / 2)) / ds))) = r + n.
#[local] Instance fl_Proper : Proper (Qeq ==> Qeq) fl. Proof. intros x y. apply (fl_proper _ F). Qed.
#[local] Instance Qltb_P : Proper (Qeq ==> Qeq ==> eq) Qltb.
Proof. intros a b H c d H'. apply Qltb_comp; assumption. Qed.
#[local] Instance capped_P : Proper (Qeq ==> Qeq) capped.
Proof. intros a b H. unfold capped. rewrite H. reflexivity. Qed.
Let rr := rel_rnd fl F.
Let fpos := f_pos fl (2 ^ 53) L.

Variables (y : list Q) (v r : Z) (ds : Q).
Hypothesis Wy : whole y.
Hypothesis Hv : 0 <= v < r.
Hypothesis Hr : r <= last_pt y.
Hypothesis Hd : (0 < ds)%Q.
Hypothesis Hds : (fl ds == ds)%Q.
Hypothesis Hh : (elev_at y v < elev_at y r)%Q.
Hypothesis Hlen : zlen y <= 2 ^ 50.

Lemma diff_exact i j : (fl (elev_at y i - elev_at y j) == elev_at y i - elev_at y j)%Q.
Proof.
  destruct (Wy i) as (a & -> & A), (Wy j) as (b & -> & C). rewrite <- inject_Z_minus. apply (fl_int _ F). lia.
Qed.

Let n := r - v.
Let h := (elev_at y r - elev_at y v)%Q.
Let D := (inject_Z n * ds)%Q.
Let lu' := fl (fl (inject_Z (Z.abs (r - v)) * ds) / 2).
Let h' := fl (elev_at y r - elev_at y v)%Q.
Let slope' := fl (h' / fl (2 * lu'))%Q.
Let s := (h / D)%Q.

Lemma n_pos : (1 <= inject_Z n)%Q.
Proof. change 1%Q with (inject_Z 1). apply inject_Z_le. unfold n. lia. Qed.
Lemma D_pos : (0 < D)%Q.
Proof. unfold D. pose proof n_pos. apply Qmult_lt_0_compat; lra. Qed.
Lemma h_pos : (1 <= h)%Q.
Proof.
  unfold h in *. pose proof Hh as H. destruct (Wy r) as (a & E1 & _), (Wy v) as (b & E2 & _). rewrite E1, E2 in *. apply inject_Z_lt_inv in H.
  rewrite <- inject_Z_minus. change 1%Q with (inject_Z 1). apply inject_Z_le. lia.
Qed.
Lemma h_same : (h' == h)%Q. Proof. apply diff_exact. Qed.
Lemma lu_same : (lu' == fl D / 2)%Q.
Proof. unfold lu'. rewrite (Z.abs_eq (r - v)) by lia. destruct (double_half fl D B) as [E _]. exact E. Qed.
Lemma lu2_same : (fl (2 * lu') == fl D)%Q.
Proof. rewrite lu_same. destruct (double_half fl D B) as [_ E]. exact E. Qed.
Lemma relD : Rel 1 (fl D) D. Proof. apply (rel_fl fl F). pose proof D_pos. lra. Qed.
Lemma fD_pos : (0 < fl D)%Q. Proof. exact (rel_pos _ _ _ relD D_pos). Qed.
Lemma rel_slope : Rel 2 slope' s.
Proof.
  unfold slope'. apply rr. apply (rel_comp 1 (h / fl D) (h / D)); [rewrite h_same, lu2_same; reflexivity|reflexivity|].
  apply (rel_div 0 1); [apply fD_pos|apply D_pos| |apply relD]. apply rel_refl. pose proof h_pos. lra.
Qed.
Lemma s_pos : (0 < s)%Q. Proof. unfold s. pose proof h_pos. apply q_div_pos; [lra|apply D_pos]. Qed.

(** ** The downwind stretch *)
Let b := Z.min (last_pt y) (r + (r - v)).
Let hb := (elev_at y r - elev_at y b)%Q.
Let tt (x d : Q) := fl (fl (fl (15#10) * fl (x / d)) / slope')%Q.

Lemma tt_opp x d : (tt (- x) d == - tt x d)%Q.
Proof.
  unfold tt. pose proof (fl_opp _ F) as O.
  assert (E1 : (fl (- x / d) == - fl (x / d))%Q) by (rewrite <- (O (x / d)%Q); apply (fl_proper _ F); unfold Qdiv; ring). rewrite E1.
  assert (E2 : (fl (fl (15#10) * - fl (x / d)) == - fl (fl (15#10) * fl (x / d)))%Q) by (rewrite <- (O (fl (15#10) * fl (x / d))%Q); apply (fl_proper _ F); ring). rewrite E2.
  rewrite <- (O (fl (fl (15#10) * fl (x / d)) / slope')%Q). apply (fl_proper _ F). unfold Qdiv. ring.
Qed.
Lemma tt_proper x x' d d' : (x == x')%Q -> (d == d')%Q -> (tt x d == tt x' d')%Q.
Proof. intros E1 E2. unfold tt. rewrite E1, E2. reflexivity. Qed.
Lemma tt_rel x d dd : (0 <= x)%Q -> (0 < dd)%Q -> Rel 1 d dd -> Rel 7 (tt x d) ((15#10) * (x / dd) / s)%Q.
Proof.
  intros Hx Hdd Rd. unfold tt. pose proof (rel_pos _ _ _ Rd Hdd) as Pd. pose proof (rel_pos _ _ _ rel_slope s_pos) as Ps.
  apply (rr 6). apply (rel_div 4 2); [exact Ps|exact s_pos| |exact rel_slope].
  apply (rr 3). apply (rel_mul 1 2); [apply (rel_fl fl F); lra|]. apply (rr 1). apply (rel_div 0 1); try assumption. apply rel_refl. exact Hx.
Qed.

Lemma clamp_lip e e' d : (- d <= e' - e <= d)%Q -> (- d <= clamp (1#2) 3 e' - clamp (1#2) 3 e <= d)%Q.
Proof.
  intros H. unfold clamp.
  destruct (Q.min_spec 3 e) as [[? ->]|[? ->]], (Q.min_spec 3 e') as [[? ->]|[? ->]];
  repeat match goal with |- context [Qmax ?a ?c] => destruct (Q.max_spec a c) as [[? ->]|[? ->]] end; lra.
Qed.

Lemma esc_near : exists e, escarpment_factor fl y r v ds = Ok e /\ ((1#2) <= e <= 3)%Q /\ (Qabs (e - stretch y v r) <= 32 * E52)%Q.
Proof.
  destruct (escarpment_ok fl (2 ^ 53) L ltac:(lia) y v r ds Hv Hr Hd Hh) as (e & Ee & Be). exists e. split; [exact Ee|]. split; [exact Be|].
  revert Ee. unfold escarpment_factor. rewrite (pyget_elev y r) by lia. cbn [bind]. rewrite (pyget_elev y v) by lia. cbn [bind].
  fold h' lu'. pose proof fD_pos as PD. assert (P2 : (0 < fl (2 * lu'))%Q) by (rewrite lu2_same; exact PD).
  rewrite (fdiv_ok fl _ _ P2). cbn [bind]. rewrite (fdiv_ok fl _ _ Hd). cbn [bind]. fold slope'.
  assert (EF : Qfloor (fl (inject_Z r + fl (fl (2 * lu') / ds))) = r + (r - v)).
  { unfold lu'. rewrite (Z.abs_eq (r - v)) by lia. apply Hend; [lia| |exact Hd]. unfold last_pt in Hr. lia. }
  rewrite EF. change (zlen y - 1) with (last_pt y). fold b. assert (Hb : r <= b <= last_pt y) by (unfold b; lia).
  rewrite (pyget_elev y b) by lia. cbn [bind]. unfold stretch. fold b. pose proof E52_pos as E5.
  assert (BL : last_pt y < 2 ^ 50) by (unfold last_pt; lia).
  assert (EI : (fl (inject_Z (b - r)) == inject_Z (b - r))%Q) by (apply (fl_int _ F); lia).
  destruct (Z.eqb_spec b r) as [Eb|Nb].
  - assert (Z0 : (fl (fl (inject_Z (b - r)) * ds) == 0)%Q).
    { rewrite EI. replace (b - r) with 0 by lia. change (inject_Z 0) with 0%Q. rewrite (Qmult_0_l ds). apply (fz fl F). }
    rewrite (proj2 (Qltb_ge 0 (fl (fl (inject_Z (b - r)) * ds)))) by lra. intros [= <-]. change (Qabs (1 - 1)) with 0%Q. lra.
  - pose proof (inj_pos (b - r) ltac:(lia)) as HB. assert (PB : (0 < inject_Z (b - r) * ds)%Q) by (apply Qmult_lt_0_compat; assumption).
    assert (Rd : Rel 1 (fl (fl (inject_Z (b - r)) * ds)) (inject_Z (b - r) * ds)).
    { apply (rel_comp 1 (fl (inject_Z (b - r) * ds)) (inject_Z (b - r) * ds)); [rewrite EI; reflexivity|reflexivity|]. apply (rel_fl fl F). lra. }
    set (d := fl (fl (inject_Z (b - r)) * ds)) in *. pose proof (rel_pos _ _ _ Rd PB) as Pd.
    rewrite (proj2 (Qltb_lt 0 d) Pd). rewrite (fdiv_ok fl _ _ Pd). cbn [bind]. pose proof (rel_pos _ _ _ rel_slope s_pos) as Ps.
    rewrite (fdiv_ok fl _ _ Ps). cbn [bind]. fold (tt (fl (elev_at y r - elev_at y b)) d).
    assert (ET : (tt (fl (elev_at y r - elev_at y b)) d == tt hb d)%Q) by (apply tt_proper; [apply diff_exact|reflexivity]).
    set (t' := tt (fl (elev_at y r - elev_at y b)) d) in *.
    set (t := ((15#10) * (hb / (inject_Z (b - r) * ds)) / s)%Q).
    assert (SE : ((25#10) - (15#10) * ((elev_at y r - elev_at y b) / inject_Z (b - r)) / ((elev_at y r - elev_at y v) / inject_Z (r - v)) == (25#10) - t)%Q).
    { unfold t, s, D, n. fold h hb. pose proof h_pos. pose proof n_pos as NP. unfold n in NP. field. repeat split; lra. }
    (* t' against t *)
    assert (TT : (- (8 * E52 * Qabs t) <= t' - t <= 8 * E52 * Qabs t)%Q).
    { pose proof gp7 as G7. destruct (Qlt_le_dec hb 0) as [Neg|Pos].
      - pose proof (tt_rel (- hb) d _ ltac:(lra) PB Rd) as R.
        assert (Rt : Rel 7 (- t') (- t)).
        { eapply rel_comp; [| |exact R]; [rewrite tt_opp, ET; reflexivity|unfold t, Qdiv; ring]. }
        destruct Rt as (R1 & R2 & R3 & R4). rewrite (Qabs_neg t) by lra.
        assert (K1 : (- t * gp 7 <= - t * (1 + 8 * E52))%Q) by (rewrite !(Qmult_comm (- t)); apply Qmult_le_compat_r; lra).
        assert (K2 : (- t' * gp 7 <= - t' * (1 + 8 * E52))%Q) by (rewrite !(Qmult_comm (- t')); apply Qmult_le_compat_r; lra).
        assert (K3 : (- t' < - t -> (- t') * (8 * E52) <= (- t) * (8 * E52))%Q) by (intros; apply Qmult_le_compat_r; lra).
        split; [lra|]. destruct (Qlt_le_dec (- t') (- t)) as [C|C]; [specialize (K3 C); lra|]. assert (0 <= - t * (8 * E52))%Q by (apply Qmult_le_0_compat; lra). lra.
      - pose proof (tt_rel hb d _ Pos PB Rd) as R.
        assert (Rt : Rel 7 t' t) by (eapply rel_comp; [| |exact R]; [rewrite ET; reflexivity|reflexivity]).
        destruct Rt as (R1 & R2 & R3 & R4). rewrite (Qabs_pos t) by lra.
        assert (K1 : (t * gp 7 <= t * (1 + 8 * E52))%Q) by (rewrite !(Qmult_comm t); apply Qmult_le_compat_r; lra).
        assert (K2 : (t' * gp 7 <= t' * (1 + 8 * E52))%Q) by (rewrite !(Qmult_comm t'); apply Qmult_le_compat_r; lra).
        assert (K3 : (t' < t -> t' * (8 * E52) <= t * (8 * E52))%Q) by (intros; apply Qmult_le_compat_r; lra).
        split; [|lra]. destruct (Qlt_le_dec t' t) as [C|C]; [specialize (K3 C); lra|]. assert (0 <= t * (8 * E52))%Q by (apply Qmult_le_0_compat; lra). lra. }
    assert (F25 : (fl (25#10) == 25#10)%Q).
    { rewrite (fl_proper _ F (25#10) (inject_Z 5 * Qpower 2 (-1))) by reflexivity. rewrite (bin_exact _ _ B 5 (-1)) by (cbn; lia). reflexivity. }
    set (e0 := fl (fl (25#10) - t')). assert (EE0 : (e0 == fl ((25#10) - t'))%Q) by (unfold e0; rewrite F25; reflexivity).
    assert (RE : (- (u53 * Qabs ((25#10) - t')) <= e0 - ((25#10) - t') <= u53 * Qabs ((25#10) - t'))%Q).
    { rewrite EE0. apply Qabs_Qle_condition. apply (fl_rel _ F). }
    assert (EC : forall q, q = (if Qltb e0 (1#2) then Ok (1#2) else if Qltb 3 e0 then Ok 3%Q else Ok e0) -> q = Ok e -> (e == clamp (1#2) 3 e0)%Q).
    { intros q -> Q. revert Q. unfold clamp. destruct (Qltb e0 (1#2)) eqn:C1.
      - apply Qltb_lt in C1. intros [= <-]. rewrite Q.min_r by lra. rewrite Q.max_l by lra. reflexivity.
      - apply Qltb_ge in C1. destruct (Qltb 3 e0) eqn:C2; intros [= <-].
        + apply Qltb_lt in C2. rewrite Q.min_l by lra. rewrite Q.max_r by lra. reflexivity.
        + apply Qltb_ge in C2. rewrite Q.min_r by lra. rewrite Q.max_r by lra. reflexivity. }
    intros Q. pose proof (EC _ eq_refl Q) as Ce. clear EC Q. 
    assert (CS : (clamp (1#2) 3 ((25#10) - (15#10) * ((elev_at y r - elev_at y b) / inject_Z (b - r)) / ((elev_at y r - elev_at y v) / inject_Z (r - v))) == clamp (1#2) 3 ((25#10) - t))%Q)
      by (unfold clamp; rewrite SE; reflexivity).
    rewrite CS, Ce. clear CS SE ET EE0. clearbody t t' e0. pose proof u53_E as UE.
    apply Qabs_Qle_condition. 
    assert (Small : (Qabs t <= 3)%Q -> (- (32 * E52) <= e0 - ((25#10) - t) <= 32 * E52)%Q).
    { intros T3. assert (T4 : (8 * E52 * Qabs t <= 8 * E52 * 3)%Q) by (apply Qmult_le_l; lra). apply Qabs_Qle_condition in T3.
      assert (A4 : (Qabs ((25#10) - t') <= 6)%Q) by (apply Qabs_Qle_condition; lra).
      assert (U4 : (u53 * Qabs ((25#10) - t') <= u53 * 6)%Q) by (apply Qmult_le_l; [reflexivity|exact A4]). lra. }
    destruct (Qlt_le_dec t (-3)) as [T1|T1]; [|destruct (Qlt_le_dec 3 t) as [T2|T2]].
    + rewrite (Qabs_neg t) in TT by lra.
      assert (T5 : (8 * E52 * - t <= (1#10) * - t)%Q) by (apply Qmult_le_compat_r; lra).
      assert (N1 : (0 <= (25#10) - t')%Q) by lra. rewrite (Qabs_pos ((25#10) - t')) in RE by exact N1.
      assert (U5 : (u53 * ((25#10) - t') <= (1#10) * ((25#10) - t'))%Q) by (apply Qmult_le_compat_r; lra).
      unfold clamp. rewrite (Q.min_l 3 e0), (Q.min_l 3 ((25#10) - t)) by lra. lra.
    + rewrite (Qabs_pos t) in TT by lra.
      assert (T5 : (8 * E52 * t <= (1#100) * t)%Q) by (apply Qmult_le_compat_r; lra).
      assert (N1 : ((25#10) - t' <= 0)%Q) by lra. rewrite (Qabs_neg ((25#10) - t')) in RE by exact N1.
      assert (U5 : (u53 * - ((25#10) - t') <= (1#10) * - ((25#10) - t'))%Q) by (apply Qmult_le_compat_r; lra).
      unfold clamp. rewrite (Q.min_r 3 e0), (Q.min_r 3 ((25#10) - t)) by lra. rewrite (Q.max_l _ e0), (Q.max_l _ ((25#10) - t)) by lra. lra.
    + apply clamp_lip. apply Small. apply Qabs_Qle_condition. lra.
Qed.

(** ** One point *)
Let L1 := Qmax ((36#100) * (inject_Z (r - v) * ds / 2)) ((4#10) * h).
Let L2 := (4 * L1)%Q.
Let a := (h / ((35#10) * (10 + L1)))%Q.
Let e := stretch y v r.
Let L1' := Qmax (fl (fl (36#100) * lu')) (fl (fl (4#10) * h')).
Let L2' := fl (4 * L1').
Let a' := fl (h' / fl (fl (35#10) * fl (10 + L1'))).

Lemma L1_h : ((4#10) * h <= L1)%Q. Proof. apply Q.le_max_r. Qed.
Lemma rel_L1 : Rel 3 L1' L1.
Proof.
  unfold L1', L1. pose proof h_pos as HP. pose proof D_pos as DP. apply rel_max.
  - apply (rr 2). apply (rel_mul 1 1); [apply (rel_fl fl F); lra|].
    apply (rel_comp 1 (fl D * (1#2)) (D * (1#2))); [rewrite lu_same; field|unfold D, n; field|]. apply (rel_mul 1 0); [apply relD|]. apply rel_refl. lra.
  - apply (rel_weak 2 3); [lia|]. apply (rr 1). apply (rel_mul 1 0); [apply (rel_fl fl F); lra|].
    apply (rel_comp 0 h h); [symmetry; apply h_same|reflexivity|]. apply rel_refl. lra.
Qed.
Lemma rel_L2 : Rel 4 L2' L2.
Proof. unfold L2', L2. apply (rr 3). apply (rel_mul 0 3); [apply rel_refl; lra|apply rel_L1]. Qed.
Lemma L1_pos : (0 < L1)%Q. Proof. pose proof L1_h. pose proof h_pos. lra. Qed.
Lemma L2_pos : (0 < L2)%Q. Proof. unfold L2. pose proof L1_pos. lra. Qed.
Lemma L2'_pos : (0 < L2')%Q. Proof. exact (rel_pos _ _ _ rel_L2 L2_pos). Qed.
Lemma rel_a : Rel 7 a' a.
Proof.
  unfold a', a. pose proof L1_pos as LP. pose proof h_pos as HP.
  assert (R : Rel 6 (fl (fl (35#10) * fl (10 + L1'))) ((35#10) * (10 + L1))).
  { apply (rr 5). apply (rel_mul 1 4); [apply (rel_fl fl F); lra|]. apply (rr 3). apply rel_add; [apply (rel_weak 0 3); [lia|]; apply rel_refl; lra|apply rel_L1]. }
  apply (rr 6). apply (rel_div 0 6); [apply (rel_pos _ _ _ R); lra|lra| |exact R].
  apply (rel_comp 0 h h); [symmetry; apply h_same|reflexivity|]. apply rel_refl. lra.
Qed.
Lemma a_le : (0 <= a <= 1)%Q.
Proof.
  unfold a. pose proof L1_h as LH. pose proof L1_pos as LP. pose proof h_pos as HP. split; [apply q_div_nonneg; lra|].
  apply Qle_shift_div_r; lra.
Qed.
Lemma e_lo : ((1#2) <= e)%Q.
Proof. unfold e, stretch. destruct (_ =? _); [lra|]. unfold clamp. apply Q.le_max_l. Qed.

(** Roundings do not flip comparisons away from the limits. *)
Lemma keeps i j x' x t' t : Rel i x' x -> Rel j t' t -> (0 < t)%Q -> apart t x -> (i + j <= 71)%nat ->
  Qltb x' t' = Qltb x t /\ Qltb t' x' = Qltb t x.
Proof.
  intros (A1 & A2 & A3 & A4) (T1 & T2 & T3 & T4) Ht Ap Hij. unfold apart in Ap.
  pose proof (gp_mono _ _ Hij) as G. rewrite gp_add in G. pose proof gp71 as G71. pose proof (gp1 i) as Gi. pose proof (gp1 j) as Gj.
  set (gi := gp i) in *. set (gj := gp j) in *. clearbody gi gj.
  assert (EE : (80 * E52 <= (1#2) * Qpower 2 (-40))%Q) by (vm_compute; discriminate). pose proof E52_pos as E5.
  assert (EP : (0 < Qpower 2 (-40) <= 1#2)%Q) by (split; vm_compute; [reflexivity|discriminate]). set (d := Qpower 2 (-40)) in *. clearbody d.
  assert (GG : (gi * gj <= 1 + (1#2) * d)%Q) by lra. clear G G71.
  destruct (Qlt_le_dec x t) as [C|C].
  - rewrite Qabs_neg in Ap by lra.
    assert (K1 : (x * (gi * gj) < t)%Q).
    { apply Qle_lt_trans with (x * (1 + (1#2) * d))%Q; [rewrite !(Qmult_comm x); apply Qmult_le_compat_r; lra|].
      assert (X1 : (x * ((1#2) * d) <= t * ((1#2) * d))%Q) by (apply Qmult_le_compat_r; lra). assert (0 < t * d)%Q by (apply Qmult_lt_0_compat; lra). lra. }
    assert (K2 : (x' < t')%Q).
    { destruct (Qlt_le_dec x' t') as [Y|Y]; [exact Y|]. exfalso. assert (Y2 : (t' * gj <= x' * gj)%Q) by (apply Qmult_le_compat_r; lra).
      assert (Y3 : (x' * gj <= x * gi * gj)%Q) by (apply Qmult_le_compat_r; lra). lra. }
    split; [rewrite (proj2 (Qltb_lt _ _) K2), (proj2 (Qltb_lt _ _) C)|rewrite (proj2 (Qltb_ge t' x')), (proj2 (Qltb_ge t x)) by lra]; reflexivity.
  - rewrite Qabs_pos in Ap by lra.
    assert (K1 : (t * (gi * gj) < x)%Q).
    { apply Qle_lt_trans with (t * (1 + (1#2) * d))%Q; [rewrite !(Qmult_comm t); apply Qmult_le_compat_r; lra|].
      assert (0 < t * d)%Q by (apply Qmult_lt_0_compat; lra). lra. }
    assert (K2 : (t' < x')%Q).
    { destruct (Qlt_le_dec t' x') as [Y|Y]; [exact Y|]. exfalso. assert (Y2 : (x' * gi <= t' * gi)%Q) by (apply Qmult_le_compat_r; lra).
      assert (Y3 : (t' * gi <= t * gj * gi)%Q) by (apply Qmult_le_compat_r; lra). lra. }
    assert (C2 : (t < x)%Q). { assert (0 < t * d)%Q by (apply Qmult_lt_0_compat; lra). lra. }
    split; [rewrite (proj2 (Qltb_ge x' t')), (proj2 (Qltb_ge x t)) by lra|rewrite (proj2 (Qltb_lt _ _) K2), (proj2 (Qltb_lt _ _) C2)]; reflexivity.
Qed.

Section Esc.
Variable e' : Q.
Hypothesis He' : ((1#2) <= e' <= 3)%Q.
Hypothesis Hee : (Qabs (e' - e) <= 32 * E52)%Q.

Lemma rel_e : Rel 64 e' e.
Proof.
  pose proof e_lo as EL. pose proof He' as He. pose proof Hee as He2. apply Qabs_Qle_condition in He2. pose proof gp64 as G. pose proof E52_pos as E5.
  repeat split; try lra.
  - apply Qle_trans with (e * (1 + 64 * E52))%Q; [|rewrite !(Qmult_comm e); apply Qmult_le_compat_r; lra].
    assert (K : ((1#2) * (64 * E52) <= e * (64 * E52))%Q) by (apply Qmult_le_compat_r; lra). lra.
  - apply Qle_trans with (e' * (1 + 64 * E52))%Q; [|rewrite !(Qmult_comm e'); apply Qmult_le_compat_r; lra].
    assert (K : ((1#2) * (64 * E52) <= e' * (64 * E52))%Q) by (apply Qmult_le_compat_r; lra). lra.
Qed.
Lemma rel_E : Rel 69 (fl (e' * L2')) (e * L2)%Q.
Proof. apply (rr 68). apply (rel_mul 64 4); [apply rel_e|apply rel_L2]. Qed.
Lemma E_pos : (0 < e * L2)%Q. Proof. pose proof e_lo. pose proof L2_pos. apply Qmult_lt_0_compat; lra. Qed.
Lemma E_h : ((8#10) * h <= e * L2)%Q.
Proof.
  pose proof e_lo as EL. pose proof L1_h as LH. pose proof h_pos as HP. apply Qle_trans with ((1#2) * L2)%Q; [unfold L2; lra|].
  apply Qmult_le_compat_r; [exact EL|]. unfold L2. lra.
Qed.

Definition Hl (bq : Q) : Q := capped (1 + a * Qmax 0 (1 - bq)).
Let cap (w : Q) := if Qltb (fl (171#100)) w then fl (171#100) else w.

Lemma hl_far bq : (0 <= bq)%Q -> (1 <= bq * gp 71)%Q -> (Qabs (1 - Hl bq) <= 128 * E52)%Q.
Proof.
  intros Hb H. pose proof gp71 as G. pose proof (gp1 71) as G1. pose proof a_le as A. pose proof E52_pos as E5.
  assert (C : (0 <= Qmax 0 (1 - bq) <= 72 * E52)%Q).
  { split; [apply Q.le_max_l|]. apply Q.max_lub; [lra|]. destruct (Qlt_le_dec 1 bq) as [X|X]; [lra|].
    assert (K : (bq * (gp 71 - 1) <= 1 * (gp 71 - 1))%Q) by (apply Qmult_le_compat_r; lra). lra. }
  assert (P : (0 <= a * Qmax 0 (1 - bq) <= 72 * E52)%Q).
  { split; [apply Qmult_le_0_compat; lra|]. apply Qle_trans with (1 * (72 * E52))%Q; [apply mul_le; lra|lra]. }
  unfold Hl, capped. apply Qabs_Qle_condition. rewrite Q.min_l by lra. lra.
Qed.
Lemma cap_min w : (cap w == Qmin w (fl (171#100)))%Q.
Proof. unfold cap. destruct (Qltb (fl (171#100)) w) eqn:E; [apply Qltb_lt in E; rewrite Q.min_r by lra|apply Qltb_ge in E; rewrite Q.min_l by lra]; reflexivity. Qed.
Lemma hl_near bq bq' : Rel 71 bq' bq -> (bq' <= 1)%Q -> (Qabs (cap (fl (1 + fl (a' * fl (1 - bq')))) - Hl bq) <= 128 * E52)%Q.
Proof.
  intros R Hb. pose proof a_le as A. pose proof gp7 as G7. pose proof gp71 as G71. pose proof E52_pos as E5.
  pose proof (ramp fl F a' a bq' bq 7 71 rel_a (proj2 A) R Hb ltac:(lra)) as K. rewrite cap_min. unfold Hl, capped.
  pose proof (fl_rel _ F (171#100)) as C. rewrite (Qabs_pos (171#100)) in C by lra. rewrite u53_E in *. apply Qabs_Qle_condition in K, C. apply Qabs_Qle_condition.
  set (p := fl (1 + _)%Q) in *. set (q := (1 + a * _)%Q) in *. clearbody p q.
  destruct (Q.min_spec p (fl (171#100))) as [[? ->]|[? ->]], (Q.min_spec q (171#100)) as [[? ->]|[? ->]]; lra.
Qed.

Lemma hill_up x : (0 <= x)%Q -> (hill h L1 L2 s e x == Hl (x / L2))%Q.
Proof.
  intros Hx. pose proof L2_pos as LP. unfold hill, Hl. rewrite (proj2 (Qleb_le 0 x) Hx). cbn [andb]. destruct (Qltb x L2) eqn:E.
  - apply Qltb_lt in E. fold a. rewrite (Q.max_r 0 (1 - x / L2)); [reflexivity|]. assert (x / L2 <= 1)%Q by (apply Qle_shift_div_r; lra). lra.
  - apply Qltb_ge in E. rewrite (proj2 (Qltb_ge x 0) Hx). rewrite !andb_false_r. cbn [andb]. rewrite (Q.max_l 0 (1 - x / L2)).
    + unfold capped. rewrite Qmult_0_r. rewrite (Q.min_l (1 + 0)) by lra. reflexivity.
    + assert (1 <= x / L2)%Q by (apply Qle_shift_div_l; lra). lra.
Qed.
Definition sym (x : Q) : bool := Qltb (45#100) s && Qltb (- h / 4) x && Qltb (Qabs (e - 1)) (2#10).
Lemma hill_down x : (x < 0)%Q -> sym x = false -> (hill h L1 L2 s e x == Hl (- x / (e * L2)))%Q.
Proof.
  intros Hx S. pose proof E_pos as LP. unfold hill, Hl. rewrite (proj2 (Qleb_gt 0 x) Hx). cbn [andb]. rewrite (proj2 (Qltb_lt x 0) Hx).
  rewrite andb_true_r. unfold sym in S. rewrite S. cbn [andb]. destruct (Qltb (- (e * L2)) x) eqn:E.
  - apply Qltb_lt in E. fold a. rewrite (Q.max_r 0 (1 - - x / (e * L2))); [reflexivity|]. assert (- x / (e * L2) <= 1)%Q by (apply Qle_shift_div_r; lra). lra.
  - apply Qltb_ge in E. rewrite (Q.max_l 0 (1 - - x / (e * L2))).
    + unfold capped. rewrite Qmult_0_r. rewrite (Q.min_l (1 + 0)) by lra. reflexivity.
    + assert (1 <= - x / (e * L2))%Q by (apply Qle_shift_div_l; lra). lra.
Qed.
Lemma hill_sym x : (x < 0)%Q -> sym x = true -> (hill h L1 L2 s e x == 1 + (71#100) * Qmax 0 (1 - - x / (e * L2)))%Q /\ (- x / (e * L2) <= 1#2)%Q.
Proof.
  intros Hx S. pose proof E_pos as LP. pose proof E_h as EH. pose proof h_pos as HP. unfold hill. rewrite (proj2 (Qleb_gt 0 x) Hx). cbn [andb]. rewrite (proj2 (Qltb_lt x 0) Hx).
  rewrite andb_true_r. pose proof S as S'. unfold sym in S'. rewrite S'. apply andb_true_iff in S'. destruct S' as [S' _]. apply andb_true_iff in S'. destruct S' as [_ S']. apply Qltb_lt in S'.
  assert (Q4 : (- h / 4 == - ((1#4) * h))%Q) by field. rewrite Q4 in S'.
  assert (K : (- x / (e * L2) <= 1#2)%Q) by (apply Qle_shift_div_r; lra). split; [|exact K]. rewrite (Q.max_r 0 (1 - - x / (e * L2))) by lra. reflexivity.
Qed.

Definition ov (o : option Q) : Q := match o with Some w => w | None => 1%Q end.

Lemma cell_near k o : off_limits y v r ds k ->
  cell_value fl h' L1' L2' slope' e' (fl (inject_Z (r - k) * ds)) = Ok o ->
  (Qabs (ov o - hill h L1 L2 s e (inject_Z (r - k) * ds)) <= 128 * E52)%Q.
Proof.
  intros (O1 & O2 & O3 & O4). fold h in O2, O3, O4. fold n in O2. fold D in O2. fold s in O2. fold e in O3.
  pose proof L2'_pos as LP'. pose proof L2_pos as LP. pose proof E_pos as EP. pose proof (rel_pos _ _ _ rel_E EP) as EP'. pose proof gp71 as G71. pose proof E52_pos as E5.
  assert (DN : (0 < fl (fl (35#10) * fl (10 + L1')))%Q).
  { pose proof (rel_pos _ _ _ rel_L1 L1_pos). apply fpos. apply Qmult_lt_0_compat; apply fpos; lra. }
  unfold cell_value. rewrite (fdiv_ok fl _ _ DN), (fdiv_ok fl _ _ LP'), (fdiv_ok fl _ _ EP'). cbn [bind]. fold a' cap.
  set (x := (inject_Z (r - k) * ds)%Q) in *. destruct (Z_le_gt_dec 0 (r - k)) as [Zp|Zn].
  - assert (X0 : (0 <= x)%Q) by (apply Qmult_le_0_compat; [change 0%Q with (inject_Z 0); apply inject_Z_le; lia|lra]).
    assert (Rx : Rel 1 (fl x) x) by (apply (rel_fl fl F); exact X0). pose proof Rx as (X1 & _).
    rewrite (proj2 (Qleb_le 0 (fl x)) X1). cbn [andb]. rewrite (proj2 (Qltb_ge (fl x) 0) X1). rewrite !andb_false_r. cbn [andb].
    rewrite (hill_up x X0). assert (Rb : Rel 5 (fl x / L2') (x / L2)) by (apply (rel_div 1 4); try assumption; apply rel_L2).
    destruct (Qltb (fl x) L2') eqn:C; intros [= <-]; cbn [ov].
    + apply Qltb_lt in C. apply hl_near.
      * apply (rel_weak 6 71); [lia|]. apply (rel_comp 6 (fl (fl x / L2')) (x / L2)); [rewrite (Qabs_pos (fl x)) by lra; reflexivity|reflexivity|]. apply (rr 5). exact Rb.
      * apply (fl1 fl F). apply q_div_le1; [rewrite Qabs_pos; lra|exact LP'].
    + apply Qltb_ge in C. apply hl_far; [apply q_div_nonneg; lra|]. apply (rel_weak 5 71) in Rb; [|lia]. destruct Rb as (_ & _ & Rb & _).
      assert (1 <= fl x / L2')%Q by (apply Qle_shift_div_l; lra). lra.
  - set (X := (inject_Z (k - r) * ds)%Q). assert (EX : (x == - X)%Q) by (unfold x, X; rewrite !inject_Z_minus; ring).
    assert (X0 : (0 < X)%Q) by (apply Qmult_lt_0_compat; [apply (inj_pos (k - r)); lia|exact Hd]).
    assert (Rx : Rel 1 (fl X) X) by (apply (rel_fl fl F); lra). pose proof (rel_pos _ _ _ Rx X0) as X1.
    assert (EfX : (fl x == - fl X)%Q) by (rewrite <- (fl_opp _ F); apply (fl_proper _ F); exact EX).
    assert (AbX : (Qabs (fl x) == fl X)%Q) by (rewrite EfX, Qabs_opp; apply Qabs_pos; lra).
    assert (NegX : (fl x < 0)%Q) by lra. rewrite (proj2 (Qleb_gt 0 (fl x)) NegX). cbn [andb]. rewrite (proj2 (Qltb_lt (fl x) 0) NegX). rewrite andb_true_r.
    (* the symmetric case *)
    assert (S : Qltb (fl (45#100)) slope' && Qltb (fl (- h' / 4)) (fl x) && Qltb (Qabs (fl (e' - 1))) (fl (2#10)) = sym x).
    { unfold sym. f_equal; [f_equal|].
      - apply (keeps 2 1 slope' s (fl (45#100)) (45#100)); [apply rel_slope|apply (rel_fl fl F); lra|lra|exact O2|lia].
      - pose proof h_pos as HP. assert (EH : (fl (- h' / 4) == - fl (h / 4))%Q) by (rewrite <- (fl_opp _ F); apply (fl_proper _ F); rewrite h_same; field).
        assert (EH2 : (- h / 4 == - (h / 4))%Q) by field. rewrite EH, EfX, EH2, EX.
        assert (SW : forall p q, Qltb (- p) (- q) = Qltb q p).
        { intros p q. destruct (Qltb q p) eqn:C; [apply Qltb_lt in C; apply Qltb_lt; lra|apply Qltb_ge in C; apply Qltb_ge; lra]. }
        rewrite !SW. assert (H4 : (0 < h / 4)%Q) by (apply q_div_pos; lra).
        replace (Z.abs (r - k)) with (k - r) in O4 by lia. fold X in O4.
        apply (keeps 1 1 (fl X) X (fl (h / 4)) (h / 4)); [exact Rx|apply (rel_fl fl F); lra|exact H4|exact O4|lia].
      - clear O1 O2 O4. pose proof Hee as He. pose proof He' as Hb. apply Qabs_Qle_condition in He. pose proof e_lo as EL.
        assert (EU : (e <= 3 + 32 * E52)%Q) by lra.
        pose proof (fl_rel _ F (e' - 1)) as R1. pose proof (fl_rel _ F (2#10)) as R2. rewrite (Qabs_pos (2#10)) in R2 by lra. rewrite u53_E in R1, R2.
        assert (R3 : ((1#2) * E52 * Qabs (e' - 1) <= (1#2) * E52 * 2)%Q) by (apply Qmult_le_l; [lra|]; apply Qabs_Qle_condition; lra).
        assert (R4 : (- E52 <= fl (e' - 1) - (e' - 1) <= E52)%Q) by (apply Qabs_Qle_condition; lra). apply Qabs_Qle_condition in R2.
        assert (EE : (80 * E52 <= (1#10) * Qpower 2 (-40))%Q) by (vm_compute; discriminate). unfold apart in O3. set (dd := Qpower 2 (-40)) in *. clearbody dd.
        assert (R5 : (- (34 * E52) <= Qabs (fl (e' - 1)) - Qabs (e - 1) <= 34 * E52)%Q).
        { destruct (Qlt_le_dec (fl (e' - 1)) 0) as [N1|N1]; [rewrite (Qabs_neg (fl (e' - 1))) by lra|rewrite (Qabs_pos (fl (e' - 1))) by lra];
          (destruct (Qlt_le_dec (e - 1) 0) as [N2|N2]; [rewrite (Qabs_neg (e - 1)) by lra|rewrite (Qabs_pos (e - 1)) by lra]); lra. }
        set (p := Qabs (e - 1)) in *. set (q := Qabs (fl (e' - 1))) in *. clearbody p q. clear R1 R3 R4.
        destruct (Qltb p (2#10)) eqn:C.
        + apply Qltb_lt in C. apply Qltb_lt. rewrite (Qabs_neg (p - (2#10))) in O3 by lra. lra.
        + apply Qltb_ge in C. apply Qltb_ge. rewrite (Qabs_pos (p - (2#10))) in O3 by lra. lra. }
    rewrite S. clear S. assert (Rb0 : Rel 70 (fl X / fl (e' * L2')) (X / (e * L2))) by (apply (rel_div 1 69); try assumption; apply rel_E).
    assert (Eb : (- x / (e * L2) == X / (e * L2))%Q) by (rewrite EX; unfold Qdiv; ring).
    assert (Rb : Rel 71 (fl (Qabs (fl x) / fl (e' * L2'))) (- x / (e * L2))).
    { apply (rel_comp 71 (fl (fl X / fl (e' * L2'))) (X / (e * L2))); [rewrite AbX; reflexivity|symmetry; exact Eb|]. apply (rr 70). exact Rb0. }
    assert (Xn : (x < 0)%Q) by lra. assert (Bn : (0 <= - x / (e * L2))%Q) by (rewrite Eb; apply q_div_nonneg; lra).
    destruct (sym x) eqn:Sx.
    + destruct (hill_sym x Xn Sx) as [EH K]. rewrite EH. intros [= <-]. cbn [ov].
      assert (B1 : (fl (Qabs (fl x) / fl (e' * L2')) <= 1)%Q).
      { destruct Rb as (_ & _ & R3 & _). assert ((- x / (e * L2)) * gp 71 <= (1#2) * gp 71)%Q by (apply Qmult_le_compat_r; [exact K|pose proof (gp1 71); lra]). lra. }
      pose proof (ramp fl F (fl (71#100)) (71#100) _ _ 1 71 ltac:(apply (rel_fl fl F); lra) ltac:(lra) Rb B1 ltac:(vm_compute; discriminate)) as R.
      assert (G1 : (gp 1 <= 1 + 2 * E52)%Q) by (vm_compute; discriminate). rewrite u53_E in R. lra.
    + rewrite (hill_down x Xn Sx).
      assert (EC : (fl (- e' * L2') == - fl (e' * L2'))%Q) by (rewrite <- (fl_opp _ F); apply (fl_proper _ F); ring).
      destruct (Qltb (fl (- e' * L2')) (fl x)) eqn:C; intros [= <-]; cbn [ov].
      * apply Qltb_lt in C. apply hl_near; [exact Rb|]. apply (fl1 fl F). apply q_div_le1; [rewrite AbX; lra|exact EP'].
      * apply Qltb_ge in C. apply hl_far; [exact Bn|]. rewrite Eb. apply (rel_weak 70 71) in Rb0; [|lia]. destruct Rb0 as (_ & _ & R3 & _).
        assert (1 <= fl X / fl (e' * L2'))%Q by (apply Qle_shift_div_l; lra). lra.
Qed.

(** Points that the loop leaves out. *)
Lemma out_up k : k < r -> (fl (L2' / ds) <= inject_Z (r - k))%Q -> (Qabs (1 - hill h L1 L2 s e (inject_Z (r - k) * ds)) <= 128 * E52)%Q.
Proof.
  intros Hk H. pose proof L2_pos as LP. assert (Z0 : (0 < inject_Z (r - k))%Q) by (apply (inj_pos (r - k)); lia).
  assert (X0 : (0 < inject_Z (r - k) * ds)%Q) by (apply Qmult_lt_0_compat; lra). rewrite hill_up by lra. apply hl_far; [apply q_div_nonneg; lra|].
  assert (R : Rel 5 (fl (L2' / ds)) (L2 / ds)) by (apply (rr 4); apply (rel_div 4 0); try assumption; [apply rel_L2|apply rel_refl; lra]).
  apply (rel_weak 5 71) in R; [|lia]. destruct R as (_ & _ & _ & R). pose proof (gp1 71) as G.
  assert (K : (L2 / ds <= inject_Z (r - k) * gp 71)%Q) by (eapply Qle_trans; [exact R|]; apply Qmult_le_compat_r; lra).
  assert (K2 : (L2 / ds * ds <= inject_Z (r - k) * gp 71 * ds)%Q) by (apply Qmult_le_compat_r; lra).
  setoid_replace (L2 / ds * ds)%Q with L2 in K2 by (field; lra).
  setoid_replace (inject_Z (r - k) * ds / L2 * gp 71)%Q with (inject_Z (r - k) * gp 71 * ds / L2)%Q by (unfold Qdiv; ring). apply Qle_shift_div_l; lra.
Qed.
Lemma out_down k : r < k -> (fl (fl (e' * L2') / ds) <= inject_Z (k - r))%Q -> (Qabs (1 - hill h L1 L2 s e (inject_Z (r - k) * ds)) <= 128 * E52)%Q.
Proof.
  intros Hk H. pose proof E_pos as LP. assert (Z0 : (0 < inject_Z (k - r))%Q) by (apply (inj_pos (k - r)); lia).
  assert (X0 : (0 < inject_Z (k - r) * ds)%Q) by (apply Qmult_lt_0_compat; lra).
  assert (EX : (inject_Z (r - k) * ds == - (inject_Z (k - r) * ds))%Q) by (rewrite !inject_Z_minus; ring).
  assert (R : Rel 70 (fl (fl (e' * L2') / ds)) (e * L2 / ds)) by (apply (rr 69); apply (rel_div 69 0); try assumption; [apply rel_E|apply rel_refl; lra]).
  apply (rel_weak 70 71) in R; [|lia]. destruct R as (_ & _ & _ & R). pose proof (gp1 71) as G.
  assert (K : (e * L2 / ds <= inject_Z (k - r) * gp 71)%Q) by (eapply Qle_trans; [exact R|]; apply Qmult_le_compat_r; lra).
  assert (K2 : (e * L2 / ds * ds <= inject_Z (k - r) * gp 71 * ds)%Q) by (apply Qmult_le_compat_r; lra).
  setoid_replace (e * L2 / ds * ds)%Q with (e * L2)%Q in K2 by (field; lra).
  set (x := (inject_Z (r - k) * ds)%Q) in *.
  assert (KB : (1 <= (- x / (e * L2)) * gp 71)%Q).
  { rewrite EX. setoid_replace (- - (inject_Z (k - r) * ds) / (e * L2) * gp 71)%Q with (inject_Z (k - r) * gp 71 * ds / (e * L2))%Q by (unfold Qdiv; ring). apply Qle_shift_div_l; lra. }
  destruct (sym x) eqn:S.
  - exfalso. destruct (hill_sym x ltac:(lra) S) as [_ K3]. pose proof gp71 as G71. pose proof E52_pos.
    assert ((- x / (e * L2)) * gp 71 <= (1#2) * gp 71)%Q by (apply Qmult_le_compat_r; [exact K3|lra]). lra.
  - rewrite (hill_down x ltac:(lra) S). apply hl_far; [|exact KB]. apply q_div_nonneg; lra.
Qed.

End Esc.

Lemma negligible_fl : apart (5#100) s -> (Qltb slope' (fl (5#100)) || Qltb h' 10 || Qltb lu' ds = true <-> negligible y v r ds).
Proof.
  intros Ap. unfold negligible. fold h n. fold D. fold s. rewrite !orb_true_iff. rewrite (proj1 (keeps 2 1 slope' s (fl (5#100)) (5#100) rel_slope ltac:(apply (rel_fl fl F); lra) ltac:(lra) Ap ltac:(lia))).
  assert (K : Qltb lu' ds = true <-> n < 2).
  { rewrite lu_same. rewrite Qltb_lt. destruct (Z_lt_ge_dec n 2) as [C|C].
    - split; [intros _; exact C|intros _]. assert (n = 1) by (unfold n in *; lia). assert (ED : (D == ds)%Q) by (unfold D; rewrite H; change (inject_Z 1) with 1%Q; ring).
      rewrite ED, Hds. apply Qlt_shift_div_r; lra.
    - split; [|lia]. intros K. exfalso. assert (G2 : (2 <= inject_Z n)%Q) by (change 2%Q with (inject_Z 2); apply inject_Z_le; lia).
      assert (T : (fl (2 * ds) == 2 * ds)%Q).
      { destruct (bin_format _ _ B ds) as (c & w & Cw & E). rewrite (fl_proper _ F (2 * ds) (inject_Z c * Qpower 2 (w + 1))).
        - rewrite (bin_exact _ _ B c (w + 1) Cw). rewrite Qpower_plus by discriminate. change (Qpower 2 1) with 2%Q. rewrite <- Hds, E. generalize (Qpower 2 w). intros. ring.
        - rewrite Qpower_plus by discriminate. change (Qpower 2 1) with 2%Q. rewrite <- Hds, E. generalize (Qpower 2 w). intros. ring. }
      assert (G3 : (2 * ds <= fl D)%Q) by (rewrite <- T; apply (fl_mono _ F); unfold D; apply Qmult_le_compat_r; lra).
      assert (ds <= fl D / 2)%Q by (apply Qle_shift_div_l; lra). lra. }
  rewrite K, !Qltb_lt. rewrite h_same. tauto.
Qed.

(** ** One hill *)
Lemma mh_near : exists m, mh_calc fl y r v ds = Ok m /\ zlen m = zlen y /\
  forall k, 0 <= k < last_pt y -> off_limits y v r ds k ->
    (negligible y v r ds -> (q_at m k == 1)%Q) /\
    (~ negligible y v r ds -> (Qabs (q_at m k - hill_at y v r ds k) <= 128 * E52)%Q).
Proof.
  assert (H50 : 2 ^ 50 <= 2 ^ 53) by (apply Z.pow_le_mono_r; lia).
  destruct (mh_calc_form fl (2 ^ 53) L ltac:(lia) y v r ds Hv Hr Hd Hh ltac:(lia)) as (e' & Ee & Be & _ & _ & _ & Ha & Hb & f & Hf & Em).
  cbv zeta in *. fold h' lu' in Ha, Hb, Hf, Em. fold slope' in Hf, Em. fold L1' in Ha, Hb, Hf, Em. fold L2' in Ha, Hb, Hf, Em.
  destruct esc_near as (e2 & Ee2 & _ & Ne). assert (e2 = e') by congruence. subst e2. fold e in Ne. clear Ee Ee2.
  assert (N : 0 < zlen y) by (unfold last_pt in Hr; lia).
  assert (HA : forall k, hill_at y v r ds k = hill h L1 L2 s e (inject_Z (r - k) * ds)) by reflexivity.
  rewrite Em. clear Em. destruct (Qltb slope' (fl (5#100)) || Qltb h' 10 || Qltb lu' ds) eqn:Ng.
  - exists (ones (zlen y)). split; [reflexivity|]. split; [apply ones_len; lia|]. intros k Hk O. rewrite ones_at by (unfold last_pt in Hk; lia). split; [reflexivity|].
    intros NN. exfalso. apply NN. destruct O as (O1 & _). apply (negligible_fl O1). exact Ng.
  - set (p := Qfloor (Qmax 0 (fl (inject_Z r - inject_Z (Qfloor (fl (L2' / ds)))))) - 1) in *.
    set (q := Qfloor (fl (Qmin (inject_Z (zlen y - 1)) (fl (inject_Z r + inject_Z (Qfloor (fl (fl (e' * L2') / ds))))) + 1))) in *.
    destruct (loop_all f p q (ones (zlen y))) as (m & E & Lm & A); rewrite ?ones_len by lia; try assumption; try lia.
    rewrite ones_len in * by lia. exists m. split; [exact E|]. split; [exact Lm|]. intros k Hk O.
    assert (KL : k < zlen y - 1) by (unfold last_pt in Hk; lia).
    split; [intros NN; destruct O as (O1 & _); apply (negligible_fl O1) in NN; congruence|]. intros _. rewrite HA.
    rewrite A by lia. rewrite (proj2 (Z.eqb_neq k (zlen y - 1))) by lia. rewrite andb_false_r, ones_at by lia.
    assert (Inside : (Qabs (ov (f k) - hill h L1 L2 s e (inject_Z (r - k) * ds)) <= 128 * E52)%Q).
    { apply (cell_near e' Be Ne k (f k) O). apply Hf. }
    destruct (Z.leb_spec p k) as [Lp|Lp]; cbn [andb]; [destruct (Z.ltb_spec k q) as [Lq|Lq]|].
    + destruct (f k); exact Inside.
    + (* beyond the loop downwind *)
      assert (W0 : (0 <= fl (fl (e' * L2') / ds))%Q).
      { apply (fnn fl F). apply q_div_nonneg; [|exact Hd]. apply (fnn fl F). pose proof L2'_pos. apply Qmult_le_0_compat; lra. }
      pose proof (Qfloor_nonneg _ W0) as W1. set (w := Qfloor (fl (fl (e' * L2') / ds))) in *.
      assert (KW : r + w < k).
      { destruct (Z_lt_ge_dec (r + w) k) as [C|C]; [exact C|]. exfalso. assert (C' : (inject_Z k <= fl (inject_Z r + inject_Z w))%Q).
        { rewrite <- inject_Z_plus. rewrite <- (fl_int _ F k) by lia. apply (fl_mono _ F). apply inject_Z_le. lia. }
        assert (C2 : (inject_Z (k + 1) <= fl (Qmin (inject_Z (zlen y - 1)) (fl (inject_Z r + inject_Z w)) + 1))%Q).
        { rewrite <- (fl_int _ F (k + 1)) by lia. apply (fl_mono _ F). rewrite inject_Z_plus. change (inject_Z 1) with 1%Q.
          assert (inject_Z k <= Qmin (inject_Z (zlen y - 1)) (fl (inject_Z r + inject_Z w)))%Q by (apply Q.min_glb; [apply inject_Z_le; lia|exact C']). lra. }
        apply Qfloor_resp_le in C2. rewrite Qfloor_Z in C2. fold q in C2. lia. }
      apply (out_down e' Be Ne k); [lia|]. destruct (Qfloor_spec (fl (fl (e' * L2') / ds))) as [_ U]. fold w in U.
      assert (inject_Z (w + 1) <= inject_Z (k - r))%Q by (apply inject_Z_le; lia). rewrite inject_Z_plus in H. change (inject_Z 1) with 1%Q in H. lra.
    + (* before the loop upwind *)
      set (w := Qfloor (fl (L2' / ds))) in *.
      assert (KW : k + 2 <= r - w).
      { destruct (Z_le_gt_dec (k + 2) (r - w)) as [C|C]; [exact C|]. exfalso. assert (C' : (fl (inject_Z r - inject_Z w) <= inject_Z (k + 1))%Q).
        { rewrite <- inject_Z_minus. rewrite <- (fl_int _ F (k + 1)) by lia. apply (fl_mono _ F). apply inject_Z_le. lia. }
        assert (C2 : (Qmax 0 (fl (inject_Z r - inject_Z w)) <= inject_Z (k + 1))%Q) by (apply Q.max_lub; [change 0%Q with (inject_Z 0); apply inject_Z_le; lia|exact C']).
        apply Qfloor_resp_le in C2. rewrite Qfloor_Z in C2. lia. }
      assert (W0 : (0 <= fl (L2' / ds))%Q) by (apply (fnn fl F); apply q_div_nonneg; [pose proof L2'_pos; lra|exact Hd]).
      pose proof (Qfloor_nonneg _ W0) as W1. fold w in W1.
      apply (out_up e' k); [lia|]. destruct (Qfloor_spec (fl (L2' / ds))) as [_ U]. fold w in U.
      assert (inject_Z (w + 1) <= inject_Z (r - k))%Q by (apply inject_Z_le; lia). rewrite inject_Z_plus in H. change (inject_Z 1) with 1%Q in H. lra.
Qed.
End Fl.
