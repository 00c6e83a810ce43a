(** * The shielding multiplier in floating point is within a millionth of the exact one. *)
From Verif Require Import Base BaseLemmas NameModel TerrModel TerrSpec TerrProofs ShldModel ShldSpec ShldProofs ShldKernProofs ShldRunProofs
  FloatSpec FloatModel.
From Coq Require Import Permutation.
Open Scope Z_scope.

Notation U := (1 # 16777216)%Q.
Notation W := (1 # 9007199254740992)%Q.

Lemma abs_le x b : (- b <= x <= b)%Q -> (Qabs x <= b)%Q.
Proof. apply Qabs_Qle_condition. Qed.
Lemma le_abs x b : (Qabs x <= b)%Q -> (- b <= x <= b)%Q.
Proof. apply Qabs_Qle_condition. Qed.

Lemma mul_in a b x y : (- x <= a <= x)%Q -> (- y <= b <= y)%Q -> (- (x * y) <= a * b <= x * y)%Q.
Proof.
  intros A B. apply le_abs. rewrite Qabs_Qmult. pose proof (Qabs_nonneg a). pose proof (Qabs_nonneg b).
  apply abs_le in A. apply abs_le in B. apply Qmult_le_compat_nonneg; split; assumption.
Qed.

Section S.
  Variables dbl sgl : Q -> Q.
  Hypothesis Hd : double dbl.
  Hypothesis Hs : single sgl.

  Lemma sgl_near x : (Qabs (sgl x - x) <= U * Qabs x)%Q.
  Proof. exact (bin_near _ _ Hs x). Qed.
  Lemma dbl_near x : (Qabs (dbl x - x) <= W * Qabs x)%Q.
  Proof. exact (bin_near _ _ Hd x). Qed.
  Lemma sgl_pos x : (0 <= x)%Q -> ((1 - U) * x <= sgl x <= (1 + U) * x)%Q.
  Proof. intros H. pose proof (le_abs _ _ (sgl_near x)) as N. rewrite Qabs_pos in N by exact H. lra. Qed.
  Lemma dbl_pos x : (0 <= x)%Q -> ((1 - W) * x <= dbl x <= (1 + W) * x)%Q.
  Proof. intros H. pose proof (le_abs _ _ (dbl_near x)) as N. rewrite Qabs_pos in N by exact H. lra. Qed.
  (** On numbers of size at most [b]. *)
  Lemma sgl_abs x b : (Qabs x <= b)%Q -> (- (U * b) <= sgl x - x <= U * b)%Q.
  Proof. intros H. pose proof (le_abs _ _ (sgl_near x)) as N. pose proof (Qabs_nonneg x). lra. Qed.
  Lemma dbl_abs x b : (Qabs x <= b)%Q -> (- (W * b) <= dbl x - x <= W * b)%Q.
  Proof. intros H. pose proof (le_abs _ _ (dbl_near x)) as N. pose proof (Qabs_nonneg x). lra. Qed.
  Lemma dbl_zero x : (dbl x == 0)%Q <-> (x == 0)%Q.
  Proof.
    pose proof (dbl_near x) as N. split; intros E.
    - setoid_replace (dbl x - x)%Q with (- x)%Q in N by (rewrite E; ring). rewrite Qabs_opp in N. pose proof (Qabs_nonneg x).
      assert (X : (Qabs x <= 0)%Q) by lra. apply le_abs in X. lra.
    - assert (A : (Qabs x == 0)%Q) by (rewrite E; reflexivity). rewrite A in N. apply le_abs in N. lra.
  Qed.

  (** Nearly equal: [a] is [b] up to the factor [1 + e]. *)
  Definition near (e a b : Q) : Prop := (0 <= b /\ (1 - e) * b <= a <= (1 + e) * b)%Q.
  Definition nnear (e : Q) (x y : num) : Prop :=
    match x, y with NaN, NaN => True | Num a, Num b => near e a b | _, _ => False end.

  Lemma term_near w' w v' v : near W w' w -> near (U + W + U * W) v' v -> near ((102#100) * U) (dbl (w' * v')) (w * v).
  Proof.
    intros (A1 & A2 & A3) (B1 & B2 & B3).
    assert (P : (0 <= w * v)%Q) by (apply Qmult_le_0_compat; assumption).
    assert (W0 : (0 <= w')%Q) by lra. assert (V0 : (0 <= v')%Q) by lra.
    assert (L : ((1 - W) * (1 - (U + W + U * W)) * (w * v) <= w' * v')%Q).
    { setoid_replace ((1 - W) * (1 - (U + W + U * W)) * (w * v))%Q with (((1 - W) * w) * ((1 - (U + W + U * W)) * v))%Q by ring.
      apply Qmult_le_compat_nonneg; split; lra. }
    assert (R : (w' * v' <= (1 + W) * (1 + (U + W + U * W)) * (w * v))%Q).
    { setoid_replace ((1 + W) * (1 + (U + W + U * W)) * (w * v))%Q with (((1 + W) * w) * ((1 + (U + W + U * W)) * v))%Q by ring.
      apply Qmult_le_compat_nonneg; split; lra. }
    assert (P' : (0 <= w' * v')%Q) by (apply Qmult_le_0_compat; assumption).
    pose proof (dbl_pos _ P') as D. split; [exact P|]. split; lra.
  Qed.

  (** One more term of a sum: [k] roundings so far. *)
  Definition err (k : Z) : Q := ((103#100) * U + 3 * inject_Z k * W)%Q.
  Lemma add_near k A S t s : 0 <= k <= 2 ^ 26 -> near (err k) A S -> near ((102#100) * U) t s -> near (err (k + 1)) (dbl (A + t)) (S + s).
  Proof.
    intros K (S0 & L & R) (s0 & l & r). unfold near, err in *. rewrite inject_Z_plus. change (inject_Z 1) with 1%Q.
    assert (K1 : (0 <= inject_Z k)%Q) by (change 0%Q with (inject_Z 0); rewrite <- Zle_Qle; lia).
    assert (K2 : (inject_Z k <= 67108864)%Q) by (change (67108864)%Q with (inject_Z (2 ^ 26)); rewrite <- Zle_Qle; lia).
    set (x := inject_Z k) in *.
    set (e := ((103 # 100) * U + 3 * x * W)%Q) in *.
    assert (E0 : (0 <= e)%Q) by (unfold e; lra). assert (E1 : (e <= 2 * U)%Q) by (unfold e; lra).
    assert (EE : ((102#100) * U <= e)%Q) by (unfold e; lra).
    split; [lra|].
    assert (l' : ((1 - e) * s <= t)%Q) by nra. assert (r' : (t <= (1 + e) * s)%Q) by nra.
    assert (L2 : ((1 - e) * (S + s) <= A + t)%Q) by lra. assert (R2 : (A + t <= (1 + e) * (S + s))%Q) by lra.
    assert (P : (0 <= A + t)%Q) by nra.
    pose proof (dbl_pos _ P) as D.
    setoid_replace ((103 # 100) * U + 3 * (x + 1) * W)%Q with (e + 3 * W)%Q by (unfold e; ring).
    set (T := (S + s)%Q) in *. assert (T0 : (0 <= T)%Q) by (unfold T; lra).
    assert (eT : (0 <= e * T)%Q) by (apply Qmult_le_0_compat; assumption).
    assert (eT2 : (e * T <= 2 * U * T)%Q) by (apply Qmult_le_compat_r; assumption).
    split; lra.
  Qed.

  Lemma fold_near {A} (w w' : A -> Q) (v v' : A -> num) l : (forall x, In x l -> near W (w' x) (w x)) ->
    (forall x, In x l -> nnear (U + W + U * W) (v' x) (v x)) -> forall k a b, 0 <= k -> k + zlen l <= 2 ^ 26 -> nnear (err k) a b ->
    nnear (err (k + zlen l)) (fold_left (fun acc p => nround dbl (nadd acc (nround dbl (nscale (w' p) (v' p))))) l a)
                             (fold_left (fun acc p => nadd acc (nscale (w p) (v p))) l b).
  Proof.
    induction l as [|x l IH]; intros Hw Hv k a b K0 K N.
    - cbn [fold_left]. replace (k + zlen []) with k by (cbn; lia). exact N.
    - cbn [fold_left]. unfold zlen in *. cbn [length] in *. rewrite Nat2Z.inj_succ in *.
      replace (k + Z.succ (Z.of_nat (length l))) with ((k + 1) + Z.of_nat (length l)) by lia.
      apply IH; try (intros y Hy; first [apply Hw|apply Hv]; right; exact Hy); try lia.
      pose proof (Hw x (or_introl eq_refl)) as Wx. pose proof (Hv x (or_introl eq_refl)) as Vx.
      destruct (v' x) as [|p], (v x) as [|q]; cbn [nnear] in Vx; try contradiction.
      + destruct a, b; cbn [nnear] in N; try contradiction; exact I.
      + destruct a as [|a], b as [|b]; cbn [nnear] in N; try contradiction; [exact I|].
        cbn [nscale nround nadd nnear]. apply add_near; [lia|exact N|]. apply term_near; assumption.
  Qed.

  (** The initial values. *)
  Lemma init_near q : (0 <= q)%Q -> near (U + W + U * W) (sgl (dbl q)) q.
  Proof.
    intros H. pose proof (dbl_pos q H) as D. assert (P : (0 <= dbl q)%Q) by lra. pose proof (sgl_pos _ P) as E.
    split; [exact H|]. split; lra.
  Qed.

  Definition unit_grid (im : grid num) : Prop := forall r c q, g_at im r c = Num q -> (0 <= q <= 1)%Q.

  Lemma kernel_cells_fl d s : kernel_cells (kern_fl dbl d s) = kernel_cells (kern d s).
  Proof.
    unfold kernel_cells, kern_fl. cbn [gmap g_rows g_cols g_at]. apply filter_ext. intros p. f_equal.
    apply eq_true_iff_eq. rewrite !Qeq_bool_iff. apply dbl_zero.
  Qed.

  Lemma kern_nonneg d s a b : 1 <= s -> (0 <= g_at (kern d s) a b)%Q.
  Proof.
    intros H. rewrite kern_at by exact H. pose proof (ksum_pos d s H) as P.
    destruct (P_ d s a b); apply Qle_shift_div_l; lra.
  Qed.

  Lemma blur_near d s im i j : 1 <= s -> zlen (shield_cells d s) <= 2 ^ 26 -> unit_grid im ->
    within (3 * U) (g_at (blur_fl dbl sgl (gmap (nround (fun q => sgl (dbl q))) im) (kern_fl dbl d s)) i j) (g_at (blur im (kern d s)) i j) /\
    (forall q, g_at (blur im (kern d s)) i j = Num q -> (0 <= q <= 1)%Q).
  Proof.
    intros H1 Hn Hu.
    assert (B : forall q, g_at (blur im (kern d s)) i j = Num q -> (0 <= q <= 1)%Q).
    { intros q E. pose proof (blur_mean d s im i j H1) as M. rewrite E in M. unfold num_mean in M.
      destruct (num_sum _) as [t|] eqn:T; [|contradiction]. cbn [same_num] in M.
      assert (X : (0 * inject_Z (zlen (map (fun o => seen im (i + fst o) (j + snd o)) (shield_cells d s))) <= t
               <= 1 * inject_Z (zlen (map (fun o => seen im (i + fst o) (j + snd o)) (shield_cells d s))))%Q).
      { apply (num_sum_bounds 0 1 _ _ T). intros q' I. apply in_map_iff in I. destruct I as (o & I & _).
        unfold seen in I. destruct (inside _ _ _); [apply (Hu _ _ _ I)|]. injection I as <-. lra. }
      rewrite zlen_map in *. pose proof (shield_pos d s H1) as P.
      assert (Q : (0 < inject_Z (zlen (shield_cells d s)))%Q) by (change 0%Q with (inject_Z 0); rewrite <- Zlt_Qlt; lia).
      rewrite M. split; [apply Qle_shift_div_l; lra|apply Qle_shift_div_r; lra]. }
    split; [|exact B].
    set (im' := gmap (nround (fun q => sgl (dbl q))) im).
    unfold blur_fl, blur in *. cbn [g_at] in *. rewrite kernel_cells_fl.
    assert (L : zlen (kernel_cells (kern d s)) = zlen (shield_cells d s)).
    { pose proof (Permutation_length (kernel_permutation d s H1)) as P. rewrite map_length in P. unfold zlen. lia. }
    change (g_rows (kern_fl dbl d s)) with (g_rows (kern d s)). change (g_cols (kern_fl dbl d s)) with (g_cols (kern d s)).
    change (fun p : Z * Z => g_at (kern_fl dbl d s) (fst p) (snd p)) with (fun p : Z * Z => dbl (g_at (kern d s) (fst p) (snd p))).
    pose proof (fold_near (fun p : Z * Z => g_at (kern d s) (fst p) (snd p)) (fun p => g_at (kern_fl dbl d s) (fst p) (snd p))
      (fun p => cval im (i - (fst p - g_rows (kern d s) / 2)) (j - (snd p - g_cols (kern d s) / 2)))
      (fun p => cval im' (i - (fst p - g_rows (kern d s) / 2)) (j - (snd p - g_cols (kern d s) / 2))) (kernel_cells (kern d s))) as F.
    specialize (F (fun p _ => conj (kern_nonneg d s (fst p) (snd p) H1) (dbl_pos _ (kern_nonneg d s (fst p) (snd p) H1)))).
    assert (V : forall x : Z * Z, In x (kernel_cells (kern d s)) -> nnear (U + W + U * W)
       (cval im' (i - (fst x - g_rows (kern d s) / 2)) (j - (snd x - g_cols (kern d s) / 2)))
       (cval im (i - (fst x - g_rows (kern d s) / 2)) (j - (snd x - g_cols (kern d s) / 2)))).
    { intros x _. unfold cval, im'. cbn [gmap g_rows g_cols g_at].
      destruct (_ && _); [|cbn [nnear]; unfold near; repeat split; lra].
      destruct (g_at im _ _) as [|q] eqn:E; [exact I|]. cbn [nround nnear]. apply init_near. apply (Hu _ _ _ E). }
    specialize (F V 0 (Num 0) (Num 0)%Q (Z.le_refl 0) ltac:(lia)).
    assert (N0 : nnear (err 0) (Num 0) (Num 0)) by (cbn [nnear]; unfold near; repeat split; lra).
    specialize (F N0). rewrite L in F.
    set (X' := fold_left _ _ (Num 0)) in F. set (X := fold_left _ _ (Num 0)) in *.
    change (within (3 * U) (nround sgl X') X).
    destruct X' as [|a], X as [|b]; cbn [nnear] in F; try contradiction; [exact I|].
    cbn [nround within]. destruct F as (F0 & F1 & F2). destruct (B b eq_refl) as [_ B1].
    assert (K2 : (inject_Z (zlen (shield_cells d s)) <= 67108864)%Q) by (change (67108864)%Q with (inject_Z (2 ^ 26)); rewrite <- Zle_Qle; lia).
    assert (K1 : (0 <= inject_Z (zlen (shield_cells d s)))%Q) by (change 0%Q with (inject_Z 0); rewrite <- Zle_Qle; apply Nat2Z.is_nonneg).
    unfold err in F1, F2. rewrite Z.add_0_l in F1, F2. set (n := inject_Z (zlen (shield_cells d s))) in *.
    set (e := ((103 # 100) * U + 3 * n * W)%Q) in *.
    assert (E0 : (0 <= e)%Q) by (unfold e; lra). assert (E1 : (e <= (179#100) * U)%Q) by (unfold e; lra).
    assert (eb : (0 <= e * b)%Q) by (apply Qmult_le_0_compat; assumption).
    assert (eb2 : (e * b <= (179#100) * U * b)%Q) by (apply Qmult_le_compat_r; assumption).
    assert (A0 : (0 <= a)%Q) by lra. pose proof (sgl_pos a A0). apply abs_le. lra.
  Qed.

  Lemma abs_bound x b : (- b <= x <= b)%Q -> (Qabs x <= b)%Q. Proof. apply abs_le. Qed.

  Lemma weight_steep s e : (0 <= e)%Q -> ((1230#100) - e <= s)%Q -> (1 - e <= slope_weight s <= 1)%Q.
  Proof.
    intros E H. unfold slope_weight. pose proof (slope_weight_range s) as R. unfold slope_weight in R.
    destruct (Qleb s (327#100)) eqn:A; [apply Qleb_le in A; split; lra|].
    destruct (Qleb (1230#100) s) eqn:B; [split; lra|]. split; [|tauto].
    apply Qle_shift_div_l; lra.
  Qed.
  Lemma weight_flat s e : (0 <= e <= 1)%Q -> (s <= (327#100) + e)%Q -> (0 <= slope_weight s <= e)%Q.
  Proof.
    intros E H. unfold slope_weight. pose proof (slope_weight_range s) as R. unfold slope_weight in R.
    destruct (Qleb s (327#100)) eqn:A; [split; lra|].
    destruct (Qleb (1230#100) s) eqn:B; [apply Qleb_le in B; lra|]. split; [tauto|].
    apply Qle_shift_div_r; lra.
  Qed.
  Lemma weight_mid s e : (0 <= e <= 1)%Q -> ((327#100) - e <= s <= (1230#100) + e)%Q ->
    (- e <= (s - (327#100)) / (903#100) - slope_weight s <= e)%Q.
  Proof.
    intros E [H1 H2]. set (b := ((s - (327#100)) / (903#100))%Q). assert (Eb : (b * (903#100) == s - (327#100))%Q) by (unfold b; field).
    unfold slope_weight. fold b.
    destruct (Qleb s (327#100)) eqn:A; [apply Qleb_le in A; lra|].
    destruct (Qleb (1230#100) s) eqn:B; [apply Qleb_le in B; lra|lra].
  Qed.

  Lemma out2_near s v v' : (0 <= v <= 1)%Q -> (Qabs (v' - v) <= 3 * U)%Q ->
    let up_degree := dbl (1230#100) in let low_degree := dbl (327#100) in
    let up := Qleb up_degree s in let middle := Qltb low_degree s && Qltb s up_degree in
    let out1 := if up then 1%Q else v' in
    let out2 := if middle then sgl (dbl (dbl (dbl (sgl (1 - out1) * dbl (s - low_degree)) / dbl (up_degree - low_degree)) + out1)) else out1 in
    (- (6 * U) <= out2 - (v + slope_weight s * (1 - v)) <= 6 * U)%Q.
  Proof.
    intros Hv N. apply le_abs in N. intros t2 t1 up middle out1 out2. subst out2.
    assert (T1 : (- (4 * W) <= t1 - (327#100) <= 4 * W)%Q).
    { pose proof (dbl_abs (327#100) (327#100) ltac:(discriminate)). unfold t1. lra. }
    assert (T2 : (- (13 * W) <= t2 - (1230#100) <= 13 * W)%Q).
    { pose proof (dbl_abs (1230#100) (1230#100) ltac:(discriminate)). unfold t2. lra. }
    clearbody t1 t2. pose proof (slope_weight_range s) as R.
    destruct (Qleb t2 s) eqn:Eup; subst up; [apply Qleb_le in Eup|apply Qleb_gt in Eup].
    - (* steep *)
      assert (M : middle = false) by (unfold middle; rewrite (proj2 (Qltb_ge s t2)) by exact Eup; apply andb_false_r).
      rewrite M. subst out1. cbv iota.
      pose proof (weight_steep s (13 * W) ltac:(discriminate) ltac:(lra)) as K.
      set (w := slope_weight s) in *. pose proof (mul_in (1 - w) (1 - v) (13 * W) 1 ltac:(lra) ltac:(lra)) as A. lra.
    - subst out1. cbv iota. unfold middle; destruct (Qltb t1 s) eqn:Elo.
      + (* between *)
        rewrite (proj2 (Qltb_lt s t2)) by exact Eup. cbn [andb]. cbv iota. apply Qltb_lt in Elo.
        set (a := sgl (1 - v')%Q). assert (A : (- ((101#100) * U) <= a - (1 - v') <= (101#100) * U)%Q).
        { pose proof (sgl_abs (1 - v') (1 + 3 * U) ltac:(apply abs_le; lra)). unfold a. lra. }
        clearbody a.
        set (b := dbl (s - t1)%Q). assert (B : (- (14 * W) <= b - (s - (327#100)) <= 14 * W)%Q).
        { pose proof (dbl_abs (s - t1) (904#100) ltac:(apply abs_le; lra)). unfold b. lra. }
        clearbody b.
        set (c := dbl (t2 - t1)%Q). assert (C : (- (27 * W) <= c - (903#100) <= 27 * W)%Q).
        { pose proof (dbl_abs (t2 - t1) (904#100) ltac:(apply abs_le; lra)). unfold c. lra. }
        clearbody c.
        pose proof (weight_mid s (13 * W) ltac:(split; discriminate) ltac:(lra)) as WM.
        set (be := ((s - (327#100)) / (903#100))%Q) in *. assert (Ebe : (be * (903#100) == s - (327#100))%Q) by (unfold be; field).
        clearbody be. set (w := slope_weight s) in *. clearbody w.
        (* p / c against (1 - v') * be *)
        assert (AB : (Qabs (a * b) <= 10)%Q).
        { rewrite Qabs_Qmult. assert (X1 : (Qabs a <= 11#10)%Q) by (apply abs_le; lra). assert (X2 : (Qabs b <= 905#100)%Q) by (apply abs_le; lra).
          pose proof (Qabs_nonneg a). pose proof (Qabs_nonneg b).
          apply Qle_trans with ((11#10) * (905#100))%Q; [|discriminate]. apply Qmult_le_compat_nonneg; split; lra. }
        set (p := dbl (a * b)%Q). assert (P : (- (10 * W) <= p - a * b <= 10 * W)%Q).
        { pose proof (dbl_abs (a * b) 10 AB). unfold p. lra. }
        clearbody p.
        assert (X1 : (- ((102#100) * U * (905#100)) <= a * b - (1 - v') * b <= (102#100) * U * (905#100))%Q).
        { setoid_replace (a * b - (1 - v') * b)%Q with ((a - (1 - v')) * b)%Q by ring. apply le_abs. rewrite Qabs_Qmult.
          assert (Y1 : (Qabs (a - (1 - v')) <= (102#100) * U)%Q) by (apply abs_le; lra). assert (Y2 : (Qabs b <= 905#100)%Q) by (apply abs_le; lra).
          pose proof (Qabs_nonneg (a - (1 - v'))). pose proof (Qabs_nonneg b). apply Qmult_le_compat_nonneg; split; lra. }
        assert (X2 : (- (15 * W) <= (1 - v') * b - (1 - v') * (s - (327#100)) <= 15 * W)%Q).
        { setoid_replace ((1 - v') * b - (1 - v') * (s - (327#100)))%Q with ((1 - v') * (b - (s - (327#100))))%Q by ring. apply le_abs. rewrite Qabs_Qmult.
          assert (Y1 : (Qabs (1 - v') <= 15#14)%Q) by (apply abs_le; lra). assert (Y2 : (Qabs (b - (s - (327#100))) <= 14 * W)%Q) by (apply abs_le; lra).
          pose proof (Qabs_nonneg (1 - v')). pose proof (Qabs_nonneg (b - (s - (327#100)))).
          apply Qle_trans with ((15#14) * (14 * W))%Q; [|discriminate]. apply Qmult_le_compat_nonneg; split; lra. }
        assert (X3 : (- (30 * W) <= (1 - v') * be * (c - (903#100)) <= 30 * W)%Q).
        { apply le_abs. rewrite !Qabs_Qmult.
          assert (Y1 : (Qabs (1 - v') <= 101#100)%Q) by (apply abs_le; lra). assert (Y2 : (Qabs be <= 101#100)%Q) by (apply abs_le; lra).
          assert (Y3 : (Qabs (c - (903#100)) <= 27 * W)%Q) by (apply abs_le; lra).
          pose proof (Qabs_nonneg (1 - v')). pose proof (Qabs_nonneg be). pose proof (Qabs_nonneg (c - (903#100))).
          apply Qle_trans with (((101#100) * (101#100)) * (27 * W))%Q; [|discriminate].
          apply Qmult_le_compat_nonneg; split; try lra; [apply Qmult_le_0_compat; assumption|apply Qmult_le_compat_nonneg; split; lra]. }
        set (m := ((1 - v') * be)%Q) in *.
        assert (Em : ((1 - v') * (s - (327#100)) == m * (903#100))%Q) by (unfold m; rewrite <- Ebe; ring).
        assert (PM : (- ((93#10) * U) <= p - m * c <= (93#10) * U)%Q) by lra.
        assert (Mb : (- (2) <= m <= 2)%Q).
        { unfold m. apply le_abs. rewrite Qabs_Qmult.
          assert (Y1 : (Qabs (1 - v') <= 101#100)%Q) by (apply abs_le; lra). assert (Y2 : (Qabs be <= 101#100)%Q) by (apply abs_le; lra).
          pose proof (Qabs_nonneg (1 - v')). pose proof (Qabs_nonneg be).
          apply Qle_trans with ((101#100) * (101#100))%Q; [|discriminate]. apply Qmult_le_compat_nonneg; split; lra. }
        set (q0 := (p / c)%Q). assert (Eq0 : (q0 * c == p)%Q) by (unfold q0; field; lra).
        assert (Q0 : (- ((104#100) * U) <= q0 - m <= (104#100) * U)%Q).
        { assert (Z1 : (- ((93#10) * U) <= (q0 - m) * c <= (93#10) * U)%Q) by lra. clear - Z1 C. set (z := (q0 - m)%Q) in *. clearbody z.
          assert (CC : (902#100 <= c <= 904#100)%Q) by lra.
          split; [destruct (Qlt_le_dec z (- ((104#100) * U))) as [G|G]; [nra|exact G]|destruct (Qlt_le_dec ((104#100) * U) z) as [G|G]; [nra|exact G]]. }
        clearbody q0.
        set (q := dbl q0). assert (Qn : (- (3 * W) <= q - q0 <= 3 * W)%Q).
        { pose proof (dbl_abs q0 3 ltac:(apply abs_le; lra)). unfold q. lra. }
        clearbody q.
        (* the sum stays near [0, 1] *)
        assert (MW : (- (14 * W) <= m - (1 - v') * w <= 14 * W)%Q).
        { unfold m. setoid_replace ((1 - v') * be - (1 - v') * w)%Q with ((1 - v') * (be - w))%Q by ring. apply le_abs. rewrite Qabs_Qmult.
          assert (Y1 : (Qabs (1 - v') <= 14#13)%Q) by (apply abs_le; lra). assert (Y2 : (Qabs (be - w) <= 13 * W)%Q) by (apply abs_le; lra).
          pose proof (Qabs_nonneg (1 - v')). pose proof (Qabs_nonneg (be - w)).
          apply Qle_trans with ((14#13) * (13 * W))%Q; [|discriminate]. apply Qmult_le_compat_nonneg; split; lra. }
        set (y := (v' + w * (1 - v'))%Q).
        assert (YY : (- (3 * U) <= y - (v + w * (1 - v)) <= 3 * U)%Q).
        { unfold y. setoid_replace (v' + w * (1 - v') - (v + w * (1 - v)))%Q with ((1 - w) * (v' - v))%Q by ring. apply le_abs. rewrite Qabs_Qmult.
          assert (Y1 : (Qabs (1 - w) <= 1)%Q) by (apply abs_le; lra). assert (Y2 : (Qabs (v' - v) <= 3 * U)%Q) by (apply abs_le; lra).
          pose proof (Qabs_nonneg (1 - w)). pose proof (Qabs_nonneg (v' - v)).
          apply Qle_trans with (1 * (3 * U))%Q; [|discriminate]. apply Qmult_le_compat_nonneg; split; lra. }
        assert (Y01 : (0 <= v + w * (1 - v) <= 1)%Q).
        { assert (0 <= w * (1 - v))%Q by (apply Qmult_le_0_compat; lra). assert (0 <= (1 - w) * (1 - v))%Q by (apply Qmult_le_0_compat; lra). lra. }
        assert (Ey : (y == v' + (1 - v') * w)%Q) by (unfold y; ring). clearbody y.
        set (r := dbl (q + v')%Q). assert (Rn : (- (3 * W) <= r - (q + v') <= 3 * W)%Q).
        { pose proof (dbl_abs (q + v') 3 ltac:(apply abs_le; lra)). unfold r. lra. }
        clearbody r.
        pose proof (sgl_abs r (101#100) ltac:(apply abs_le; lra)) as F. lra.
      + (* flat *)
        cbn [andb]. apply Qltb_ge in Elo.
        pose proof (weight_flat s (4 * W) ltac:(split; discriminate) ltac:(lra)) as K.
        set (w := slope_weight s) in *. pose proof (mul_in w (1 - v) (4 * W) 1 ltac:(lra) ltac:(lra)) as A. lra.
  Qed.

  (** The last step: [x < c ? x c : x x] is steady in both arguments. *)
  Lemma last_near x y c : (0 <= y <= 1)%Q -> (- (6 * U) <= x - y <= 6 * U)%Q -> (- ((91#100) * U) <= c - (9#10) <= (91#100) * U)%Q ->
    (- (14 * U) <= (if Qltb x c then x * c else x * x) - less_conservative y <= 14 * U)%Q /\
    (- 2 <= (if Qltb x c then x * c else x * x) <= 2)%Q.
  Proof.
    intros Hy X C. unfold less_conservative.
    assert (Xb : (- (6 * U) <= x <= 1 + 6 * U)%Q) by lra.
    destruct (Qltb x c) eqn:A; destruct (Qltb y (9#10)) eqn:B;
      [apply Qltb_lt in A; apply Qltb_lt in B|apply Qltb_lt in A; apply Qltb_ge in B|apply Qltb_ge in A; apply Qltb_lt in B|apply Qltb_ge in A; apply Qltb_ge in B].
    - setoid_replace (x * c - (9#10) * y)%Q with (x * (c - (9#10)) + (9#10) * (x - y))%Q by ring.
      assert (Z1 : (- U <= x * (c - (9#10)) <= U)%Q).
      { apply le_abs. rewrite Qabs_Qmult. assert (Y1 : (Qabs x <= 1 + 6 * U)%Q) by (apply abs_le; lra).
        assert (Y2 : (Qabs (c - (9#10)) <= (91#100) * U)%Q) by (apply abs_le; lra). pose proof (Qabs_nonneg x). pose proof (Qabs_nonneg (c - (9#10))).
        apply Qle_trans with ((1 + 6 * U) * ((91#100) * U))%Q; [|discriminate]. apply Qmult_le_compat_nonneg; split; lra. }
      split; [lra|]. assert ((x * c == x * (c - (9#10)) + (9#10) * x)%Q) by ring. lra.
    - (* x < c, 0.9 <= y *)
      assert (E : (x * c - y * y == (x - y) * (x + y) + x * (c - x))%Q) by ring. rewrite E.
      assert (Z1 : (- ((121#10) * U) <= (x - y) * (x + y) <= (121#10) * U)%Q).
      { apply le_abs. rewrite Qabs_Qmult. assert (Y1 : (Qabs (x - y) <= 6 * U)%Q) by (apply abs_le; lra). assert (Y2 : (Qabs (x + y) <= 201#100)%Q) by (apply abs_le; lra).
        pose proof (Qabs_nonneg (x - y)). pose proof (Qabs_nonneg (x + y)).
        apply Qle_trans with ((6 * U) * (201#100))%Q; [|discriminate]. apply Qmult_le_compat_nonneg; split; lra. }
      pose proof (mul_in x (c - x) (1 + 6 * U) ((692#100) * U) ltac:(lra) ltac:(lra)) as Z2. assert (Z2' : (0 <= x * (c - x))%Q) by (apply Qmult_le_0_compat; lra).
      pose proof (mul_in x c (1 + 6 * U) (1) ltac:(lra) ltac:(lra)) as Z7.
      split; [|lra].
      assert (Z5 : ((x - y) * (x + y) <= 2 * U)%Q).
      { destruct (Qlt_le_dec x y) as [G|G].
        - assert (0 <= (y - x) * (x + y))%Q by (apply Qmult_le_0_compat; lra). lra.
        - pose proof (mul_in (x - y) (x + y) ((91#100) * U) (201#100) ltac:(lra) ltac:(lra)). lra. }
      split; lra.
    - (* c <= x, y < 0.9 *)
      assert (E : (x * x - (9#10) * y == (9#10) * (x - y) + x * (x - (9#10)))%Q) by ring. rewrite E.
      assert (Z2 : (- U <= x * (x - (9#10)) <= (61#10) * U)%Q).
      { destruct (Qlt_le_dec x (9#10)) as [G|G].
        - pose proof (mul_in x (x - (9#10)) 1 ((91#100) * U) ltac:(lra) ltac:(lra)). assert (0 <= x * ((9#10) - x))%Q by (apply Qmult_le_0_compat; lra). lra.
        - pose proof (mul_in x (x - (9#10)) (1 + 6 * U) (6 * U) ltac:(lra) ltac:(lra)). assert (0 <= x * (x - (9#10)))%Q by (apply Qmult_le_0_compat; lra). lra. }
      pose proof (mul_in x x (1 + 6 * U) (1 + 6 * U) ltac:(lra) ltac:(lra)).
      split; lra.
    - assert (E : (x * x - y * y == (x - y) * (x + y))%Q) by ring. rewrite E.
      assert (Z1 : (- ((121#10) * U) <= (x - y) * (x + y) <= (121#10) * U)%Q).
      { apply le_abs. rewrite Qabs_Qmult. assert (Y1 : (Qabs (x - y) <= 6 * U)%Q) by (apply abs_le; lra). assert (Y2 : (Qabs (x + y) <= 201#100)%Q) by (apply abs_le; lra).
        pose proof (Qabs_nonneg (x - y)). pose proof (Qabs_nonneg (x + y)).
        apply Qle_trans with ((6 * U) * (201#100))%Q; [|discriminate]. apply Qmult_le_compat_nonneg; split; lra. }
      pose proof (mul_in x x (1 + 6 * U) (1 + 6 * U) ltac:(lra) ltac:(lra)).
      split; lra.
  Qed.

  Lemma combine_near d slope asp ms ms' : within (3 * U) ms' ms -> (forall q, ms = Num q -> (0 <= q <= 1)%Q) ->
    within (1 # 1048576) (combine_cell_fl dbl sgl d slope asp ms') (combine_cell d slope asp ms).
  Proof.
    intros Wn B. destruct ms' as [|v'], ms as [|v]; cbn [within] in Wn; try contradiction; [exact I|].
    specialize (B v eq_refl).
    assert (C : (- ((91#100) * U) <= sgl (dbl (9#10)) - (9#10) <= (91#100) * U)%Q).
    { pose proof (dbl_abs (9#10) (9#10) ltac:(discriminate)) as D.
      pose proof (sgl_abs (dbl (9#10)) (901#1000) ltac:(apply abs_le; lra)). lra. }
    assert (K : exists y x, (0 <= y <= 1)%Q /\ (- (6 * U) <= x - y <= 6 * U)%Q /\
      (exists w, combine_cell d slope asp (Num v) = Num w /\ (w == less_conservative y)%Q) /\
      combine_cell_fl dbl sgl d slope asp (Num v') = Num (if Qltb x (sgl (dbl (9#10))) then sgl (x * sgl (dbl (9#10))) else sgl (x * x))).
    { assert (Plain : (0 <= v <= 1)%Q /\ (- (6 * U) <= v' - v <= 6 * U)%Q) by (split; [exact B|]; apply le_abs in Wn; lra).
      destruct slope as [|s].
      - exists v, v'. split; [apply Plain|]. split; [apply Plain|]. split; [apply combine_nan_slope|]. reflexivity.
      - destruct (asp =? dire_aspect d) eqn:F.
        + destruct (combine_spec d s asp v) as (w & E & Ew). rewrite F in Ew.
          pose proof (out2_near s v v' B Wn) as O. cbv zeta in O.
          eexists (v + slope_weight s * (1 - v))%Q, _. split.
          { pose proof (slope_weight_range s) as R. set (z := slope_weight s) in *.
            assert (0 <= z * (1 - v))%Q by (apply Qmult_le_0_compat; lra). assert (0 <= (1 - z) * (1 - v))%Q by (apply Qmult_le_0_compat; lra). lra. }
          split; [exact O|]. split; [exists w; split; assumption|].
          unfold combine_cell_fl. cbv zeta. cbn [nge ngt nlt]. rewrite F, !andb_true_r. reflexivity.
        + destruct (combine_spec d s asp v) as (w & E & Ew). rewrite F in Ew.
          exists v, v'. split; [apply Plain|]. split; [apply Plain|]. split; [exists w; split; assumption|].
          unfold combine_cell_fl. cbv zeta. rewrite F, !andb_false_r. reflexivity. }
    destruct K as (y & x & Y & X & (w & Ew & Kw) & Ex). rewrite Ew, Ex. cbn [within].
    destruct (last_near x y _ Y X C) as [L1 L2]. apply abs_le.
    assert (LC : (- (3#2) <= less_conservative y <= (3#2))%Q).
    { unfold less_conservative. pose proof (mul_in y y 1 1 ltac:(lra) ltac:(lra)). destruct (Qltb y (9#10)); lra. }
    destruct (Qltb x (sgl (dbl (9#10)))).
    - pose proof (sgl_abs _ 2 (abs_le _ 2 L2)) as G. rewrite Kw. lra.
    - pose proof (sgl_abs _ 2 (abs_le _ 2 L2)) as G. rewrite Kw. lra.
  Qed.

  Lemma kernel_size_le fl gw : fl_ok fl -> (1 <= gw <= 100)%Q -> 1 <= kernel_size fl gw <= 100.
  Proof.
    intros F G. split; [apply kernel_size_fine; [exact F|lra|lra]|]. unfold kernel_size.
    assert (P : (0 <= 100 / gw <= 100)%Q) by (split; [apply Qle_shift_div_l; lra|apply Qle_shift_div_r; lra]).
    assert (A : (fl (100 / gw) <= 100)%Q).
    { pose proof (fl_int fl F 100 ltac:(lia)) as I1. change (inject_Z 100) with 100%Q in I1. pose proof (fl_mono fl F _ _ (proj2 P)). lra. }
    assert (B : (0 <= fl (100 / gw))%Q).
    { pose proof (fl_int fl F 0 ltac:(lia)) as I1. change (inject_Z 0) with 0%Q in I1. pose proof (fl_mono fl F _ _ (proj1 P)). lra. }
    rewrite py_int_nonneg by exact B. pose proof (Qfloor_le (fl (100 / gw)%Q)) as L.
    rewrite Zle_Qle. change (inject_Z 100) with 100%Q. lra.
  Qed.
  Lemma cells_le d s : 1 <= s <= 100 -> zlen (shield_cells d s) <= 2 ^ 26.
  Proof.
    intros H. rewrite shield_length by lia. destruct (is_diagonal d); [|lia].
    apply Z.le_trans with (100 * 101 / 2); [apply Z.div_le_mono; [lia|nia]|discriminate].
  Qed.

  Lemma unit_table cast nodata table data : Forall (fun row => (0 <= snd row <= 100)%Q) table -> unit_grid (class2ms cast nodata table data).
  Proof.
    intros H r c q. unfold class2ms. cbn [gmap g_at].
    set (x := match nodata with Some n => _ | None => _ end). destruct (x =? -99); [discriminate|].
    assert (G : forall acc, (forall q, acc = Num q -> (0 <= q <= 1)%Q) ->
       fold_left (fun acc row => if x =? fst row then Num (snd row / 100) else acc) table acc = Num q -> (0 <= q <= 1)%Q).
    { clearbody x. clear -H. induction table as [|row l IH]; intros acc A E; [exact (A q E)|].
      inversion H; subst. apply (IH H3) in E; [exact E|]. intros q' Eq. destruct (x =? fst row); [|exact (A _ Eq)].
      injection Eq as <-. split; [apply Qle_shift_div_l; lra|apply Qle_shift_div_r; lra]. }
    apply G. intros q' E. injection E as <-. lra.
  Qed.

  Lemma convo_dirs_fl_fine s slope aspect ds data : 1 <= s ->
    convo_dirs_fl dbl sgl s slope aspect ds data = map (fun d => (d, combine_fl dbl sgl d slope aspect (blur_fl dbl sgl data (kern_fl dbl d s)))) ds.
  Proof.
    intros H. induction ds as [|d ds IH]; [reflexivity|]. cbn [convo_dirs_fl map]. rewrite (proj2 (Z.ltb_lt 0 s)) by lia. rewrite IH. reflexivity.
  Qed.

  Lemma shield_near fl cast table nodata terrain slope aspect gw : fl_ok fl -> (1 <= gw <= 100)%Q ->
    Forall (fun row => (0 <= snd row <= 100)%Q) table ->
    Forall2 (fun a b => fst a = fst b /\ g_rows (snd a) = g_rows (snd b) /\ g_cols (snd a) = g_cols (snd b) /\
                        forall r c, within (1 # 1048576) (g_at (snd a) r c) (g_at (snd b) r c))
      (shield_fl dbl sgl fl cast table nodata terrain slope aspect gw)
      (convo_combine fl gw slope aspect (class2ms cast nodata table terrain)).
  Proof.
    intros F G T. unfold shield_fl, convo_combine, class2ms_fl. pose proof (kernel_size_le fl gw F G) as K.
    rewrite convo_dirs_fine, convo_dirs_fl_fine by lia. induction dire as [|d ds IH]; [constructor|].
    cbn [map]. constructor; [|exact IH]. cbn [fst snd]. split; [reflexivity|]. split; [reflexivity|]. split; [reflexivity|]. intros r c.
    destruct (blur_near d (kernel_size fl gw) _ r c ltac:(lia) (cells_le d _ K) (unit_table cast nodata table terrain T)) as [N B].
    unfold combine_fl, combine. cbn [g_at]. apply combine_near; [exact N|exact B].
  Qed.
End S.
