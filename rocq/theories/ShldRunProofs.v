From Coq Require Import Permutation.
From Verif Require Import Base BaseLemmas NameModel ClipProofs TerrModel TerrSpec TerrProofs TerrRunProofs ShldModel ShldSpec ShldProofs ShldKernProofs.
Open Scope Z_scope.

(** ** Kernel weights *)
Lemma kern_sum d s : 1 <= s -> (grid_sum (kern d s) == 1)%Q.
Proof.
  intros Hs. unfold grid_sum. rewrite cells_pairs. destruct (kern_shape d s) as [-> ->].
  assert (K : forall l, (fold_right Qplus 0 (map (fun p => g_at (kern d s) (fst p) (snd p)) l) ==
     inject_Z (zlen (filter (fun p => P_ d s (fst p) (snd p)) l)) / ksum d s)%Q).
  { pose proof (ksum_pos d s Hs) as KP. induction l as [|p l IH]; [cbn; field; lra|]. cbn [map fold_right filter]. rewrite IH, kern_at by exact Hs.
    destruct (P_ d s (fst p) (snd p)).
    - unfold zlen. cbn [length]. rewrite Nat2Z.inj_succ. unfold Z.succ. rewrite inject_Z_plus. change (inject_Z 1) with 1%Q. field. lra.
    - field. lra. }
  rewrite K. pose proof (Permutation_length (P_permutation d s Hs)) as L. rewrite map_length in L.
  unfold zlen. rewrite L. fold (zlen (shield_cells d s)). rewrite ksum_eq by exact Hs. pose proof (ksum_pos d s Hs) as KP. rewrite ksum_eq in KP by exact Hs.
  field. lra.
Qed.

Lemma shield_upwind d s p : In p (shield_cells d s) ->
  0 < fst p * fst (upwind d) + snd p * snd (upwind d) /\ Z.abs (fst p) <= s /\ Z.abs (snd p) <= s.
Proof.
  intros H. apply in_shield in H. destruct p as [x y]. cbn [fst snd] in *. revert H.
  destruct d; cbn [P_ upwind fst snd]; unfold in_card, in_diag; rewrite ?orb_true_iff, !andb_true_iff, !Z.leb_le, ?Z.ltb_lt, ?Z.eqb_eq; lia.
Qed.

(** ** Bounds of the mean *)
Lemma num_sum_bounds lo hi l s : num_sum l = Some s -> (forall q, In (Num q) l -> (lo <= q <= hi)%Q) ->
  (lo * inject_Z (zlen l) <= s /\ s <= hi * inject_Z (zlen l))%Q.
Proof.
  revert s. induction l as [|[|q] l IH]; intros s E H; cbn [num_sum] in E; [|discriminate|].
  - injection E as <-. unfold zlen. cbn [length Z.of_nat]. change (inject_Z 0) with 0%Q. split; lra.
  - destruct (num_sum l) as [t|]; [|discriminate]. injection E as <-.
    destruct (IH t eq_refl (fun x Hx => H x (or_intror Hx))) as [A B]. pose proof (H q (or_introl eq_refl)) as [C D].
    assert (X : (inject_Z (zlen (Num q :: l)) == inject_Z (zlen l) + 1)%Q).
    { unfold zlen. cbn [length]. rewrite Nat2Z.inj_succ. unfold Z.succ. rewrite inject_Z_plus. reflexivity. }
    rewrite X. split; lra.
Qed.
Lemma num_mean_bounds lo hi l : l <> [] -> (forall x, In x l -> exists q, x = Num q /\ (lo <= q <= hi)%Q) ->
  exists q, num_mean l = Num q /\ (lo <= q <= hi)%Q.
Proof.
  intros Hl H. unfold num_mean. destruct (num_sum l) as [s|] eqn:E.
  - assert (P : (0 < inject_Z (zlen l))%Q) by (destruct l; [contradiction|]; unfold zlen; cbn [length]; unfold Qlt; cbn; lia).
    destruct (num_sum_bounds lo hi l s E) as [A B].
    { intros q Hq. destruct (H _ Hq) as (q' & Eq & K). injection Eq as <-. exact K. }
    eexists. split; [reflexivity|]. split; [apply Qle_shift_div_l|apply Qle_shift_div_r]; assumption.
  - apply num_sum_none in E. destruct (H _ E) as (q & X & _). discriminate.
Qed.
Lemma num_mean_nan l : num_mean l = NaN <-> In NaN l.
Proof. unfold num_mean. rewrite <- num_sum_none. destruct (num_sum l); split; congruence. Qed.
Lemma same_nan x y : same_num x y -> (x = NaN <-> y = NaN).
Proof. destruct x, y; cbn; try contradiction; split; congruence. Qed.

Lemma shield_nonempty d s : 1 <= s -> shield_cells d s <> [].
Proof. intros Hs E. pose proof (shield_pos d s Hs) as P. rewrite E in P. unfold zlen in P. cbn in P. lia. Qed.

Lemma blur_bounds d s im i j lo hi : 1 <= s -> (lo <= 1 <= hi)%Q ->
  (forall r c, 0 <= r < g_rows im -> 0 <= c < g_cols im -> exists q, g_at im r c = Num q /\ (lo <= q <= hi)%Q) ->
  exists q, g_at (blur im (kern d s)) i j = Num q /\ (lo <= q <= hi)%Q.
Proof.
  intros Hs H1 H. pose proof (blur_mean d s im i j Hs) as M.
  destruct (num_mean_bounds lo hi (map (fun o => seen im (i + fst o) (j + snd o)) (shield_cells d s))) as (q & E & B).
  - intros X. apply map_eq_nil in X. exact (shield_nonempty d s Hs X).
  - intros x Hx. apply in_map_iff in Hx. destruct Hx as (o & <- & _). unfold seen. destruct (inside _ _ _) eqn:Ei; [|eauto].
    apply inside_iff in Ei. apply H; apply Ei.
  - rewrite E in M. destruct (g_at _ i j) as [|q']; cbn in M; [contradiction|]. exists q'. split; [reflexivity|]. rewrite M. exact B.
Qed.
Lemma blur_nan d s im i j : 1 <= s ->
  (g_at (blur im (kern d s)) i j = NaN <->
   exists o, In o (shield_cells d s) /\ 0 <= i + fst o < g_rows im /\ 0 <= j + snd o < g_cols im /\ g_at im (i + fst o) (j + snd o) = NaN).
Proof.
  intros Hs. rewrite (same_nan _ _ (blur_mean d s im i j Hs)), num_mean_nan, in_map_iff. split.
  - intros (o & E & Ho). exists o. split; [exact Ho|]. unfold seen in E. destruct (inside _ _ _) eqn:Ei; [|discriminate]. apply inside_iff in Ei. cbn [fst snd] in Ei. tauto.
  - intros (o & Ho & H1 & H2 & E). exists o. split; [|exact Ho]. unfold seen. replace (inside _ _ _) with true; [exact E|]. symmetry. apply inside_iff. auto.
Qed.

(** ** Kernel size *)
Lemma kernel_size_fine fl gw : fl_ok fl -> (0 < gw)%Q -> (gw <= 100)%Q -> 1 <= kernel_size fl gw.
Proof.
  intros Hf Hg H. unfold kernel_size. assert (G : (1 <= 100 / gw)%Q) by (apply div_ge; lra).
  assert (F : (1 <= fl (100 / gw))%Q).
  { pose proof (fl_int fl Hf 1 ltac:(lia)) as I1. change (inject_Z 1) with 1%Q in I1. rewrite <- I1. apply (fl_mono fl Hf). exact G. }
  rewrite py_int_nonneg by lra. pose proof (Qfloor_spec (fl (100 / gw)%Q)) as [A B]. cut (0 < Qfloor (fl (100 / gw)%Q)); [lia|].
  apply inject_Z_lt_inv. change (inject_Z 0) with 0%Q. lra.
Qed.
Lemma kernel_size_coarse fl gw : fl_ok fl -> (101 <= gw)%Q -> kernel_size fl gw = 0.
Proof.
  intros Hf H. unfold kernel_size. assert (Hg : (0 < gw)%Q) by lra. pose proof (div_bounds 100 gw ltac:(lra) Hg) as P.
  assert (G : (100 / gw <= 9999 # 10000)%Q) by (apply div_le; lra).
  destruct (fl_pos fl Hf (100 / gw)%Q ltac:(lra)) as [A B]. rewrite u53_val in A, B. apply py_int_0; lra.
Qed.

(** ** The loop over directions *)
Lemma kernel_size_metres fl gw : fl_ok fl -> (0 < gw)%Q ->
  (inject_Z (kernel_size fl gw) * gw <= 100 * (1 + u53) /\ 100 * (1 - u53) < (inject_Z (kernel_size fl gw) + 1) * gw)%Q.
Proof.
  intros Hf Hg. unfold kernel_size. assert (P : (0 < 100 / gw)%Q) by (apply Qlt_shift_div_l; lra).
  destruct (fl_pos fl Hf (100 / gw)%Q ltac:(lra)) as [A B]. set (y := fl (100 / gw)%Q) in *.
  assert (Y : (0 <= y)%Q) by (rewrite u53_val in A; lra). rewrite py_int_nonneg by exact Y.
  pose proof (Qfloor_spec y) as [F1 F2]. set (n := inject_Z (Qfloor y)) in *.
  assert (E : (100 / gw * gw == 100)%Q) by (field; lra).
  assert (A' : (100 / gw * (1 - u53) * gw <= y * gw)%Q) by (apply Qmult_le_compat_r; lra).
  assert (B' : (y * gw <= 100 / gw * (1 + u53) * gw)%Q) by (apply Qmult_le_compat_r; lra).
  assert (A2 : (100 / gw * (1 - u53) * gw == 100 * (1 - u53))%Q) by (rewrite <- E at 2; ring).
  assert (B2 : (100 / gw * (1 + u53) * gw == 100 * (1 + u53))%Q) by (rewrite <- E at 2; ring).
  assert (C : (n * gw <= y * gw)%Q) by (apply Qmult_le_compat_r; lra).
  assert (D : (y * gw < (n + 1) * gw)%Q) by (apply Qmult_lt_compat_r; lra).
  split; lra.
Qed.
Lemma convo_dirs_fine s slope aspect ds data : 1 <= s ->
  convo_dirs s slope aspect ds data = map (fun d => (d, combine d slope aspect (blur data (kern d s)))) ds.
Proof.
  intros Hs. induction ds as [|d ds IH]; [reflexivity|]. cbn [convo_dirs map]. rewrite (proj2 (Z.ltb_lt 0 s)) by lia. rewrite IH. reflexivity.
Qed.
(** Coarse: the result of a direction is the initial value pushed through the
    correction of all directions up to and including it. *)
Lemma convo_dirs_coarse slope aspect ds : forall data l1 d l2, ds = l1 ++ d :: l2 ->
  nth_error (convo_dirs 0 slope aspect ds data) (length l1) =
  Some (d, fold_left (fun g d => combine d slope aspect g) (l1 ++ [d]) data).
Proof.
  induction ds as [|x ds IH]; intros data l1 d l2 E; [destruct l1; discriminate|].
  destruct l1 as [|y l1]; cbn [app] in E; injection E as <- E.
  - reflexivity.
  - cbn [length convo_dirs Z.ltb nth_error app fold_left]. change (0 <? 0) with false. cbv zeta iota. apply (IH _ l1 d l2 E).
Qed.

(** ** Slope on flat ground *)
Lemma nadd_num a b : nadd (Num a) (Num b) = Num (a + b). Proof. reflexivity. Qed.
Definition all_num (g : grid num) (f : Z -> Z -> Q) : Prop := forall r c, g_at g r c = Num (f r c).

Lemma reflect_range n k : 1 <= n -> -1 <= k <= n -> 0 <= reflect1 n k < n.
Proof. intros Hn Hk. unfold reflect1. destruct (Z.ltb_spec k 0); [lia|]. destruct (Z.leb_spec n k); lia. Qed.

Lemma sobel_num (g : grid num) (f : Z -> Z -> Q) r c :
  (forall a b, 0 <= a < g_rows g -> 0 <= b < g_cols g -> g_at g a b = Num (f a b)) ->
  0 <= r < g_rows g -> 0 <= c < g_cols g ->
  let R := reflect1 (g_rows g) in let C := reflect1 (g_cols g) in
  (exists q, sobel_x g r c = Num q /\
     (q == (f (R (r - 1)%Z) (C (c + 1)%Z) - f (R (r - 1)%Z) (C (c - 1)%Z)) + 2 * (f r (C (c + 1)%Z) - f r (C (c - 1)%Z))
         + (f (R (r + 1)%Z) (C (c + 1)%Z) - f (R (r + 1)%Z) (C (c - 1)%Z)))%Q) /\
  (exists q, sobel_y g r c = Num q /\
     (q == (f (R (r + 1)%Z) (C (c - 1)%Z) - f (R (r - 1)%Z) (C (c - 1)%Z)) + 2 * (f (R (r + 1)%Z) c - f (R (r - 1)%Z) c)
         + (f (R (r + 1)%Z) (C (c + 1)%Z) - f (R (r - 1)%Z) (C (c + 1)%Z)))%Q).
Proof.
  intros Hf Hr Hc R C.
  assert (RI : forall n k, 1 <= n -> reflect1 n (reflect1 n k) = reflect1 n k).
  { intros n k Hn. unfold reflect1. destruct (Z.ltb_spec k 0); [cbn; destruct (Z.leb_spec n 0); lia|].
    destruct (Z.leb_spec n k); [destruct (Z.ltb_spec (n - 1) 0); [lia|]; destruct (Z.leb_spec n (n - 1)); lia|].
    destruct (Z.ltb_spec k 0); [lia|]. destruct (Z.leb_spec n k); lia. }
  assert (R0 : forall n k, 0 <= k < n -> reflect1 n k = k).
  { intros n k Hk. unfold reflect1. destruct (Z.ltb_spec k 0); [lia|]. destruct (Z.leb_spec n k); lia. }
  assert (Rr : forall k, -1 <= k <= 1 -> 0 <= R (r + k) < g_rows g) by (intros; apply reflect_range; lia).
  assert (Cr : forall k, -1 <= k <= 1 -> 0 <= C (c + k) < g_cols g) by (intros; apply reflect_range; lia).
  pose proof (Rr (-1) ltac:(lia)) as Ra. pose proof (Rr 1 ltac:(lia)) as Rb. pose proof (Cr (-1) ltac:(lia)) as Ca. pose proof (Cr 1 ltac:(lia)) as Cb.
  replace (r + -1) with (r - 1) in Ra by lia. replace (c + -1) with (c - 1) in Ca by lia.
  unfold sobel_x, sobel_y, gref. cbv zeta. fold R C. unfold R, C in *.
  rewrite !RI by lia. rewrite (R0 (g_rows g) r Hr), (R0 (g_cols g) c Hc).
  rewrite !Hf by assumption. cbn [nscale nadd]. split; eexists; (split; [reflexivity|]); ring.
Qed.

Section Window.
Variables (rows cols r0 r1 c0 c1 B : Z).
Variables (tr0 tr1 tc0 tc1 : Z).
Hypothesis Htr : 0 <= tr0 < tr1 /\ tr1 <= rows.
Hypothesis Htc : 0 <= tc0 < tc1 /\ tc1 <= cols.
Hypothesis Hr0 : 0 <= r0 <= Z.max 0 (tr0 - B).
Hypothesis Hr1 : Z.min rows (tr1 + B) <= r1 <= rows.
Hypothesis Hc0 : 0 <= c0 <= Z.max 0 (tc0 - B).
Hypothesis Hc1 : Z.min cols (tc1 + B) <= c1 <= cols.
Hypothesis HB : 1 <= B.

(** [w] is the window of [g]. *)
Definition is_window {A} (g w : grid A) : Prop :=
  g_rows g = rows /\ g_cols g = cols /\ g_rows w = r1 - r0 /\ g_cols w = c1 - c0 /\
  forall r c, 0 <= r < r1 - r0 -> 0 <= c < c1 - c0 -> g_at w r c = g_at g (r0 + r) (c0 + c).
(** Agreement on the tile's pixels. *)
Definition tile_agree {A} (g w : grid A) : Prop :=
  forall i j, tr0 <= i < tr1 -> tc0 <= j < tc1 -> g_at w (i - r0) (j - c0) = g_at g i j.

Lemma window_is {A} (g : grid A) : g_rows g = rows -> g_cols g = cols -> is_window g (window g r0 r1 c0 c1).
Proof. intros H1 H2. unfold is_window, window. cbn. auto. Qed.
Lemma window_agree {A} (g w : grid A) : is_window g w -> tile_agree g w.
Proof. intros (_ & _ & _ & _ & H) i j Hi Hj. rewrite H by lia. f_equal; lia. Qed.
Lemma gmap_window {A C} (f : A -> C) g w : is_window g w -> is_window (gmap f g) (gmap f w).
Proof. intros (H1 & H2 & H3 & H4 & H). unfold is_window, gmap. cbn. repeat split; auto. intros. rewrite H by assumption. reflexivity. Qed.

Lemma reflect_window_r i k : tr0 <= i < tr1 -> i - 1 <= k <= i + 1 -> r0 + reflect1 (r1 - r0) (k - r0) = reflect1 rows k.
Proof. intros Hi Hk. unfold reflect1. destruct (Z.ltb_spec (k - r0) 0), (Z.ltb_spec k 0), (Z.leb_spec (r1 - r0) (k - r0)), (Z.leb_spec rows k); lia. Qed.
Lemma reflect_window_c i k : tc0 <= i < tc1 -> i - 1 <= k <= i + 1 -> c0 + reflect1 (c1 - c0) (k - c0) = reflect1 cols k.
Proof. intros Hi Hk. unfold reflect1. destruct (Z.ltb_spec (k - c0) 0), (Z.ltb_spec k 0), (Z.leb_spec (c1 - c0) (k - c0)), (Z.leb_spec cols k); lia. Qed.
Lemma reflect_near n i k : 0 <= i < n -> i - 1 <= k <= i + 1 -> i - 1 <= reflect1 n k <= i + 1.
Proof. intros Hi Hk. unfold reflect1. destruct (Z.ltb_spec k 0), (Z.leb_spec n k); lia. Qed.

Lemma reflect_in n k : 1 <= n -> -1 <= k <= n -> 0 <= reflect1 n k < n.
Proof. intros Hn Hk. unfold reflect1. destruct (Z.ltb_spec k 0), (Z.leb_spec n k); lia. Qed.

Lemma gref_window g w i j a b : is_window g w -> tr0 <= i < tr1 -> tc0 <= j < tc1 -> i - 1 <= a <= i + 1 -> j - 1 <= b <= j + 1 ->
  gref w (a - r0) (b - c0) = gref g a b.
Proof.
  intros (H1 & H2 & H3 & H4 & H) Hi Hj Ha Hb. unfold gref. rewrite H1, H2, H3, H4.
  pose proof (reflect_window_r i a Hi Ha). pose proof (reflect_window_c j b Hj Hb). assert (A : 0 <= reflect1 (r1 - r0) (a - r0) < r1 - r0) by (apply reflect_in; lia).
  assert (A' : 0 <= reflect1 (c1 - c0) (b - c0) < c1 - c0) by (apply reflect_in; lia).
  rewrite H by assumption. rewrite (reflect_window_r i a Hi Ha), (reflect_window_c j b Hj Hb). reflexivity.
Qed.
Lemma sobel_window g w i j : is_window g w -> tr0 <= i < tr1 -> tc0 <= j < tc1 ->
  sobel_x w (i - r0) (j - c0) = sobel_x g i j /\ sobel_y w (i - r0) (j - c0) = sobel_y g i j.
Proof.
  intros W Hi Hj. pose proof W as (H1 & H2 & H3 & H4 & _).
  assert (Rw : forall k, i - 1 <= k <= i + 1 -> reflect1 (r1 - r0) (k - r0) = reflect1 rows k - r0) by (intros k Hk; pose proof (reflect_window_r i k Hi Hk); lia).
  assert (Cw : forall k, j - 1 <= k <= j + 1 -> reflect1 (c1 - c0) (k - c0) = reflect1 cols k - c0) by (intros k Hk; pose proof (reflect_window_c j k Hj Hk); lia).
  assert (Ni : forall k, i - 1 <= k <= i + 1 -> i - 1 <= reflect1 rows k <= i + 1) by (intros; apply reflect_near; lia).
  assert (Nj : forall k, j - 1 <= k <= j + 1 -> j - 1 <= reflect1 cols k <= j + 1) by (intros; apply reflect_near; lia).
  assert (G : forall a b, i - 1 <= a <= i + 1 -> j - 1 <= b <= j + 1 -> gref w (a - r0) (b - c0) = gref g a b) by (intros; apply (gref_window g w i j); assumption).
  assert (N1 : i - 1 <= reflect1 rows (i - 1) <= i + 1) by (apply Ni; lia). assert (N2 : i - 1 <= reflect1 rows (i + 1) <= i + 1) by (apply Ni; lia).
  assert (N3 : j - 1 <= reflect1 cols (j - 1) <= j + 1) by (apply Nj; lia). assert (N4 : j - 1 <= reflect1 cols (j + 1) <= j + 1) by (apply Nj; lia).
  unfold sobel_x, sobel_y. cbv zeta. rewrite H1, H2, H3, H4.
  replace (i - r0 - 1) with (i - 1 - r0) by lia. replace (i - r0 + 1) with (i + 1 - r0) by lia.
  replace (j - c0 - 1) with (j - 1 - c0) by lia. replace (j - c0 + 1) with (j + 1 - c0) by lia.
  rewrite (Rw (i - 1)), (Rw (i + 1)), (Cw (j - 1)), (Cw (j + 1)) by lia.
  clear Rw Cw Ni Nj Htr Htc Hr0 Hr1 Hc0 Hc1.
  set (ra := reflect1 rows (i - 1)) in *. set (rb := reflect1 rows (i + 1)) in *. set (ca := reflect1 cols (j - 1)) in *. set (cb := reflect1 cols (j + 1)) in *.
  rewrite !G by lia. split; reflexivity.
Qed.

Lemma slope_aspect_window sf af nodata dem demw px py xm ym xmw ymw :
  is_window dem demw -> is_window xm xmw -> is_window ym ymw ->
  tile_agree (fst (get_slope_aspect sf af nodata dem px py xm ym)) (fst (get_slope_aspect sf af nodata demw px py xmw ymw)) /\
  tile_agree (snd (get_slope_aspect sf af nodata dem px py xm ym)) (snd (get_slope_aspect sf af nodata demw px py xmw ymw)).
Proof.
  intros Wd Wx Wy. pose proof (gmap_window (fun x => match nodata, x with Some n, Num q => if Qeq_bool q n then NaN else x | _, _ => x end) _ _ Wd) as We.
  fold (mask_nodata nodata dem) (mask_nodata nodata demw) in We.
  split; intros i j Hi Hj; unfold get_slope_aspect; cbn [fst snd g_at];
    destruct (sobel_window _ _ i j We Hi Hj) as [-> ->];
    try rewrite (window_agree _ _ We i j Hi Hj); rewrite (window_agree _ _ Wx i j Hi Hj), (window_agree _ _ Wy i j Hi Hj); reflexivity.
Qed.

Lemma blur_window im w d s i j : is_window im w -> 1 <= s <= B -> tr0 <= i < tr1 -> tc0 <= j < tc1 ->
  g_at (blur w (kern d s)) (i - r0) (j - c0) = g_at (blur im (kern d s)) i j.
Proof.
  intros (H1 & H2 & H3 & H4 & H) Hs Hi Hj. unfold blur. cbn [g_at]. destruct (kern_shape d s) as [E1 E2]. rewrite E1, E2.
  replace ((2 * s + 1) / 2) with s by (apply (Z.div_unique _ 2 s 1); lia).
  assert (K : forall p, In p (kernel_cells (kern d s)) -> cval w (i - r0 - (fst p - s)) (j - c0 - (snd p - s)) = cval im (i - (fst p - s)) (j - (snd p - s))).
  { intros p Hp. rewrite kernel_cells_eq in Hp by lia. apply filter_In in Hp. destruct Hp as [Hp _]. apply in_pairs in Hp.
    unfold cval. rewrite H1, H2, H3, H4.
    match goal with |- (if ?a then _ else _) = (if ?b then _ else _) => assert (AB : a = b) by (apply eq_true_iff_eq; rewrite !andb_true_iff, !Z.leb_le, !Z.ltb_lt; lia); rewrite <- AB; destruct a eqn:A; [|reflexivity] end.
    rewrite !andb_true_iff, !Z.leb_le, !Z.ltb_lt in A. rewrite H by lia. f_equal; lia. }
  revert K. generalize (Num 0). generalize (kernel_cells (kern d s)). induction l as [|p l IH]; intros a K; [reflexivity|].
  cbn [fold_left]. rewrite (K p (or_introl eq_refl)). apply IH. intros q Hq. apply K. right. exact Hq.
Qed.

Lemma convo_window s slope aspect data slopew aspectw w : 0 <= s <= B ->
  tile_agree slope slopew -> tile_agree aspect aspectw -> is_window data w ->
  forall ds, Forall2 (fun x y => fst x = fst y /\ tile_agree (snd y) (snd x)) (convo_dirs s slopew aspectw ds w) (convo_dirs s slope aspect ds data).
Proof.
  intros Hs Sl As W ds. destruct (Z.eq_dec s 0) as [->|N].
  - apply window_agree in W. revert data w W. induction ds as [|d ds IH]; intros data w W; [constructor|].
    cbn [convo_dirs]. change (0 <? 0) with false. cbv iota zeta.
    assert (T : tile_agree (combine d slope aspect data) (combine d slopew aspectw w)).
    { intros i j Hi Hj. unfold combine. cbn [g_at]. rewrite (Sl i j Hi Hj), (As i j Hi Hj), (W i j Hi Hj). reflexivity. }
    constructor; [split; [reflexivity|exact T]|]. apply IH. exact T.
  - rewrite !convo_dirs_fine by lia. induction ds as [|d ds IH]; [constructor|]. cbn [map]. constructor; [|exact IH]. split; [reflexivity|].
    intros i j Hi Hj. unfold combine. cbn [snd g_at]. rewrite (Sl i j Hi Hj), (As i j Hi Hj).
    rewrite (blur_window data w d s i j W) by (try assumption; lia). reflexivity.
Qed.
End Window.

Lemma kernel_size_nonneg fl gw : fl_ok fl -> (0 < gw)%Q -> 0 <= kernel_size fl gw.
Proof.
  intros Hf Hg. unfold kernel_size. pose proof (div_bounds 100 gw ltac:(lra) Hg) as P.
  destruct (fl_pos fl Hf (100 / gw)%Q ltac:(lra)) as [A _]. rewrite u53_val in A. rewrite py_int_nonneg by lra. apply Qfloor_nonneg. lra.
Qed.
