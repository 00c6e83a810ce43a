(** * Proofs about grid interpolation (C48-C50). *)
From Verif Require Import Base BaseLemmas BlrbModel BlrbSpec.
Open Scope Z_scope.

Lemma bilinear_at sr sc ul ur lr ll i j : ~ (sr == 1)%Q -> ~ (sc == 1)%Q ->
  exists v, g_at (bilinear sr sc ul ur lr ll) i j = Num v /\ (v == bilin ul ur ll lr (inject_Z i / (sr - 1)) (inject_Z j / (sc - 1)))%Q.
Proof.
  intros H1 H2. unfold bilinear, ogrid_pos. cbn [g_at].
  assert (E : forall n, ~ (n == 1)%Q -> Qeq_bool (n - 1) 0 = false).
  { intros n H. destruct (Qeq_bool (n - 1) 0) eqn:X; [|reflexivity]. apply Qeq_bool_eq in X. exfalso. apply H. lra. }
  rewrite (E sr H1), (E sc H2). eexists. split; [reflexivity|]. unfold bilin, lerp. ring.
Qed.

(** ** One block *)
Lemma block_raw oi oj sr sc f g i0 i1 j0 j1 :
  Qfloor oi = i0 -> Qceiling (oi + sr - 1) = i1 -> Qceiling sr = i1 - i0 + 1 -> 0 <= i0 <= i1 -> i1 < g_rows g ->
  Qfloor oj = j0 -> Qceiling (oj + sc - 1) = j1 -> Qceiling sc = j1 - j0 + 1 -> 0 <= j0 <= j1 -> j1 < g_cols g ->
  exists g', interpolate_block oi oj sr sc f g = Ok g' /\ g_rows g' = g_rows g /\ g_cols g' = g_cols g /\
    (forall r c, i0 <= r <= i1 -> j0 <= c <= j1 ->
       g_at g' r c = g_at (bilinear sr sc (f i0 j0) (f i0 j1) (f i1 j1) (f i1 j0)) (r - i0) (c - j0)) /\
    (forall r c, ~ (i0 <= r <= i1 /\ j0 <= c <= j1) -> g_at g' r c = g_at g r c).
Proof.
  intros A1 A2 A3 A4 A5 B1 B2 B3 B4 B5. unfold interpolate_block, indices. rewrite A1, A2, B1, B2. unfold slice_set.
  assert (Lr : slice_len (g_rows g) i0 i1 = i1 - i0 + 1) by (unfold slice_len; lia). assert (Lc : slice_len (g_cols g) j0 j1 = j1 - j0 + 1) by (unfold slice_len; lia).
  set (b := bilinear sr sc (f i0 j0) (f i0 j1) (f i1 j1) (f i1 j0)).
  assert (Rb : g_rows b = i1 - i0 + 1) by exact A3. assert (Cb : g_cols b = j1 - j0 + 1) by exact B3.
  rewrite Lr, Lc, Rb, Cb. unfold fits1. rewrite !Z.eqb_refl. cbn [orb andb]. eexists. split; [reflexivity|]. cbn [g_rows g_cols g_at]. split; [reflexivity|]. split; [reflexivity|]. split.
  - intros r c Hr Hc. rewrite !(proj2 (Z.leb_le _ _)) by lia. reflexivity.
  - intros r c H. destruct ((i0 <=? r) && (r <=? i1) && ((j0 <=? c) && (c <=? j1))) eqn:X; [|reflexivity]. rewrite !andb_true_iff, !Z.leb_le in X. tauto.
Qed.
Lemma block_spec oi oj sr sc f g i0 i1 j0 j1 :
  Qfloor oi = i0 -> Qceiling (oi + sr - 1) = i1 -> Qceiling sr = i1 - i0 + 1 -> 0 <= i0 <= i1 -> i1 < g_rows g -> ~ (sr == 1)%Q ->
  Qfloor oj = j0 -> Qceiling (oj + sc - 1) = j1 -> Qceiling sc = j1 - j0 + 1 -> 0 <= j0 <= j1 -> j1 < g_cols g -> ~ (sc == 1)%Q ->
  exists g', interpolate_block oi oj sr sc f g = Ok g' /\ g_rows g' = g_rows g /\ g_cols g' = g_cols g /\
    (forall r c, i0 <= r <= i1 -> j0 <= c <= j1 -> exists v, g_at g' r c = Num v /\
       (v == bilin (f i0 j0) (f i0 j1) (f i1 j0) (f i1 j1) (inject_Z (r - i0) / (sr - 1)) (inject_Z (c - j0) / (sc - 1)))%Q) /\
    (forall r c, ~ (i0 <= r <= i1 /\ j0 <= c <= j1) -> g_at g' r c = g_at g r c).
Proof.
  intros A1 A2 A3 A4 A5 A6 B1 B2 B3 B4 B5 B6. destruct (block_raw oi oj sr sc f g _ _ _ _ A1 A2 A3 A4 A5 B1 B2 B3 B4 B5) as (g' & E & R & C & In & Out).
  exists g'. split; [exact E|]. split; [exact R|]. split; [exact C|]. split; [|exact Out]. intros r c Hr Hc. rewrite (In r c Hr Hc).
  destruct (bilinear_at sr sc (f i0 j0) (f i0 j1) (f i1 j1) (f i1 j0) (r - i0) (c - j0) A6 B6) as (v & -> & X). exists v. split; [reflexivity|exact X].
Qed.

(** ** Halves of an axis *)
Lemma half_cases n : exists k, (n = 2 * k \/ n = 2 * k + 1) /\ n / 2 = k.
Proof. exists (n / 2). pose proof (Z.div_mod n 2 ltac:(lia)). pose proof (Z.mod_pos_bound n 2 ltac:(lia)). lia. Qed.
Lemma half_le z n : (inject_Z z <= half n)%Q <-> 2 * z <= n.
Proof.
  unfold half. assert (E : (inject_Z n / 2 == inject_Z n * (1#2))%Q) by field. rewrite E. split; intros H.
  - assert (X : (inject_Z (2 * z) <= inject_Z n)%Q) by (rewrite inject_Z_mult; change (inject_Z 2) with 2%Q; lra). rewrite Zle_Qle. exact X.
  - assert (X : (inject_Z (2 * z) <= inject_Z n)%Q) by (rewrite <- Zle_Qle; exact H). rewrite inject_Z_mult in X. change (inject_Z 2) with 2%Q in X. lra.
Qed.
Lemma half_ge z n : (half n <= inject_Z z)%Q <-> n <= 2 * z.
Proof.
  unfold half. assert (E : (inject_Z n / 2 == inject_Z n * (1#2))%Q) by field. rewrite E. split; intros H.
  - assert (X : (inject_Z n <= inject_Z (2 * z))%Q) by (rewrite inject_Z_mult; change (inject_Z 2) with 2%Q; lra). rewrite Zle_Qle. exact X.
  - assert (X : (inject_Z n <= inject_Z (2 * z))%Q) by (rewrite <- Zle_Qle; exact H). rewrite inject_Z_mult in X. change (inject_Z 2) with 2%Q in X. lra.
Qed.
Lemma floor_is q z : (inject_Z z <= q)%Q -> (q < inject_Z (z + 1))%Q -> Qfloor q = z.
Proof.
  intros H1 H2. pose proof (Qfloor_le q) as A. pose proof (Qlt_floor q) as B. assert (inject_Z z < inject_Z (Qfloor q + 1))%Q by lra. assert (inject_Z (Qfloor q) < inject_Z (z + 1))%Q by lra.
  rewrite <- Zlt_Qlt in *. lia.
Qed.
Lemma ceil_is q z : (q <= inject_Z z)%Q -> (inject_Z (z - 1) < q)%Q -> Qceiling q = z.
Proof. intros H1 H2. unfold Qceiling. rewrite (floor_is (- q) (- z)); [lia|rewrite inject_Z_opp; lra|]. replace (- z + 1) with (- (z - 1)) by lia. rewrite inject_Z_opp. lra. Qed.
Lemma half_two n : (half n + half n == inject_Z n)%Q.
Proof. unfold half. field. Qed.

Lemma floor_half n : Qfloor (half n) = n / 2.
Proof.
  destruct (half_cases n) as (k & K & ->). apply floor_is; [apply half_le; lia|]. apply Qnot_le_lt. rewrite half_le. lia.
Qed.
Lemma ceil_upper n : (n + 1) / 2 = n - n / 2.
Proof.
  pose proof (Z.div_mod n 2 ltac:(lia)). pose proof (Z.mod_pos_bound n 2 ltac:(lia)). pose proof (Z.div_mod (n + 1) 2 ltac:(lia)). pose proof (Z.mod_pos_bound (n + 1) 2 ltac:(lia)). lia.
Qed.
Lemma ceil_half n : Qceiling (half n) = (n + 1) / 2.
Proof.
  rewrite ceil_upper. destruct (half_cases n) as (k & K & ->). apply ceil_is; [apply half_ge; lia|]. apply Qnot_le_lt. rewrite half_ge. lia.
Qed.
Lemma ceil_comp p q : (p == q)%Q -> Qceiling p = Qceiling q.
Proof. intros ->. reflexivity. Qed.
Lemma floor_comp p q : (p == q)%Q -> Qfloor p = Qfloor q.
Proof. intros ->. reflexivity. Qed.
Lemma ceil_plus1 q : Qceiling (q + 1) = Qceiling q + 1.
Proof.
  pose proof (Qle_ceiling q) as A. pose proof (Qceiling_lt q) as B. rewrite inject_Z_minus in B. change (inject_Z 1) with 1%Q in B.
  apply ceil_is; [rewrite inject_Z_plus; change (inject_Z 1) with 1%Q; lra|]. replace (Qceiling q + 1 - 1) with (Qceiling q) by lia. lra.
Qed.
(** The two halves as block origins and shapes (as the code computes them). *)
Lemma upper_axis n : 2 <= n ->
  let o := 0%Q in let s := (0 + inject_Z n / 2 - 0 + 1)%Q in
  Qfloor o = 0 /\ Qceiling (o + s - 1) = (n + 1) / 2 /\ Qceiling s = (n + 1) / 2 - 0 + 1 /\ 0 <= 0 <= (n + 1) / 2 /\ (n + 1) / 2 < n /\ ~ (s == 1)%Q /\ (s - 1 == half n)%Q.
Proof.
  intros H o s. assert (S1 : (s - 1 == half n)%Q) by (unfold s, half; ring). rewrite ceil_upper. destruct (half_cases n) as (k & K & Ek). split; [reflexivity|].
  split; [rewrite (ceil_comp _ (half n)) by (unfold o, s, half; ring); rewrite ceil_half, ceil_upper; reflexivity|].
  split; [rewrite (ceil_comp s (half n + 1)) by (unfold s, half; ring); rewrite ceil_plus1, ceil_half, ceil_upper; lia|].
  split; [lia|]. split; [lia|]. split; [|exact S1]. intros X. assert (1 <= half n)%Q by (apply (half_le 1); lia). lra.
Qed.
Lemma lower_axis n : 2 <= n ->
  let o := (0 + inject_Z n / 2)%Q in let s := (0 + inject_Z n - 1 - (0 + inject_Z n / 2) + 1)%Q in
  Qfloor o = n / 2 /\ Qceiling (o + s - 1) = n - 1 /\ Qceiling s = (n - 1) - n / 2 + 1 /\ 0 <= n / 2 <= n - 1 /\ n - 1 < n /\ (3 <= n -> ~ (s == 1)%Q) /\ (s - 1 == half n - 1)%Q.
Proof.
  intros H o s. assert (S1 : (s == half n)%Q) by (unfold s, half; field). destruct (half_cases n) as (k & K & Ek).
  split; [rewrite (floor_comp o (half n)) by (unfold o, half; ring); apply floor_half|].
  split.
  { assert (E : (o + s - 1 == inject_Z (n - 1))%Q) by (rewrite S1; unfold o; rewrite inject_Z_minus; change (inject_Z 1) with 1%Q; pose proof (half_two n) as T; unfold half in *; lra).
    rewrite (ceil_comp _ _ E). apply Qceiling_Z. }
  split; [rewrite (ceil_comp s (half n)) by exact S1; rewrite ceil_half, ceil_upper; lia|]. split; [lia|]. split; [lia|]. split; [|lra].
  intros H3 X. assert (N : ~ (half n <= 1)%Q) by (rewrite (half_ge 1); lia). lra.
Qed.

(** ** One bisection of the whole grid *)
Lemma bilin_comp ul ur ll lr s s' t t' : (s == s')%Q -> (t == t')%Q -> (bilin ul ur ll lr s t == bilin ul ur ll lr s' t')%Q.
Proof. intros E1 E2. unfold bilin, lerp. rewrite E1, E2. reflexivity. Qed.

Lemma bisect_spec f g : 3 <= g_rows g -> 3 <= g_cols g ->
  exists g', interpolate_grid 1 0 0 (inject_Z (g_rows g)) (inject_Z (g_cols g)) f g = Ok g' /\ g_rows g' = g_rows g /\ g_cols g' = g_cols g /\
    forall r c, 0 <= r < g_rows g -> 0 <= c < g_cols g -> exists v, g_at g' r c = Num v /\ (v == bisected f (g_rows g) (g_cols g) r c)%Q.
Proof.
  set (nr := g_rows g). set (nc := g_cols g). intros Hr Hc.
  destruct (upper_axis nr ltac:(lia)) as (U1 & U2 & U3 & U4 & U5 & U6 & U7). destruct (lower_axis nr ltac:(lia)) as (L1 & L2 & L3 & L4 & L5 & L6 & L7).
  destruct (upper_axis nc ltac:(lia)) as (V1 & V2 & V3 & V4 & V5 & V6 & V7). destruct (lower_axis nc ltac:(lia)) as (M1 & M2 & M3 & M4 & M5 & M6 & M7).
  specialize (L6 Hr). specialize (M6 Hc). cbv zeta in *. cbn [interpolate_grid]. unfold subdivide, indices. cbn [foldM].
  destruct (block_spec _ _ _ _ f g _ _ _ _ U1 U2 U3 U4 U5 U6 V1 V2 V3 V4 V5 V6) as (g1 & E1 & R1 & C1 & A1 & O1). rewrite E1. cbn [bind].
  fold nr in R1. fold nc in C1.
  assert (L5' : nr - 1 < g_rows g1) by lia. assert (V5' : (nc + 1) / 2 < g_cols g1) by lia.
  destruct (block_spec _ _ _ _ f g1 _ _ _ _ L1 L2 L3 L4 L5' L6 V1 V2 V3 V4 V5' V6) as (g2 & E2 & R2 & C2 & A2 & O2). rewrite E2. cbn [bind].
  assert (U5' : (nr + 1) / 2 < g_rows g2) by lia. assert (M5' : nc - 1 < g_cols g2) by lia.
  destruct (block_spec _ _ _ _ f g2 _ _ _ _ U1 U2 U3 U4 U5' U6 M1 M2 M3 M4 M5' M6) as (g3 & E3 & R3 & C3 & A3 & O3). rewrite E3. cbn [bind].
  assert (L5'' : nr - 1 < g_rows g3) by lia. assert (M5'' : nc - 1 < g_cols g3) by lia.
  destruct (block_spec _ _ _ _ f g3 _ _ _ _ L1 L2 L3 L4 L5'' L6 M1 M2 M3 M4 M5'' M6) as (g4 & E4 & R4 & C4 & A4 & O4). rewrite E4. cbn [bind].
  exists g4. split; [reflexivity|]. split; [lia|]. split; [lia|]. intros r c Ir Ic.
  pose proof (ceil_upper nr) as Cr. pose proof (ceil_upper nc) as Cc. pose proof (half_cases nr) as (kr & Kr & Er). pose proof (half_cases nc) as (kc & Kc & Ec).
  unfold bisected, first_row, last_row, position. destruct (Z.ltb_spec r (nr / 2)) as [P|P], (Z.ltb_spec c (nc / 2)) as [Q|Q].
  - rewrite O4, O3, O2 by lia. destruct (A1 r c ltac:(lia) ltac:(lia)) as (v & Ev & X). exists v. split; [exact Ev|]. rewrite X. rewrite !Z.sub_0_r. apply bilin_comp; apply Qdiv_comp; try reflexivity; assumption.
  - rewrite O4 by lia. destruct (A3 r c ltac:(lia) ltac:(lia)) as (v & Ev & X). exists v. split; [exact Ev|]. rewrite X. rewrite !Z.sub_0_r. apply bilin_comp; apply Qdiv_comp; try reflexivity; assumption.
  - rewrite O4, O3 by lia. destruct (A2 r c ltac:(lia) ltac:(lia)) as (v & Ev & X). exists v. split; [exact Ev|]. rewrite X. rewrite !Z.sub_0_r. apply bilin_comp; apply Qdiv_comp; try reflexivity; assumption.
  - destruct (A4 r c ltac:(lia) ltac:(lia)) as (v & Ev & X). exists v. split; [exact Ev|]. rewrite X. apply bilin_comp; apply Qdiv_comp; try reflexivity; assumption.
Qed.

(** ** Constant functions, any depth *)
Lemma slice_set_const f g i0 i1 j0 j1 b g' k : slice_set g i0 i1 j0 j1 b = Ok g' ->
  (forall i j, g_at b i j = NaN \/ exists v, g_at b i j = Num v /\ (v == k)%Q) -> f = k ->
  g_rows g' = g_rows g /\ g_cols g' = g_cols g /\ forall r c, g_at g' r c = g_at g r c \/ g_at g' r c = NaN \/ exists v, g_at g' r c = Num v /\ (v == k)%Q.
Proof.
  unfold slice_set. intros H Hb _. destruct (fits1 _ _ && fits1 _ _); [|discriminate]. injection H as <-. cbn [g_rows g_cols g_at]. split; [reflexivity|]. split; [reflexivity|].
  intros r c. destruct (_ && _ && _); [right; apply Hb|left; reflexivity].
Qed.
Lemma const_any_depth f k : (forall i j, (f i j == k)%Q) -> forall depth oi oj sr sc g g', interpolate_grid depth oi oj sr sc f g = Ok g' ->
  g_rows g' = g_rows g /\ g_cols g' = g_cols g /\ forall r c, g_at g' r c = g_at g r c \/ g_at g' r c = NaN \/ exists v, g_at g' r c = Num v /\ (v == k)%Q.
Proof.
  intros Hf. induction depth as [|depth IH]; intros oi oj sr sc g g' H.
  - cbn [interpolate_grid] in H. unfold interpolate_block, indices in H. eapply (slice_set_const k); [exact H| |reflexivity]. intros i j. unfold bilinear. cbn [g_at].
    destruct (ogrid_pos sr i) as [s|]; [|left; reflexivity]. destruct (ogrid_pos sc j) as [t|]; [|left; reflexivity]. right. eexists. split; [reflexivity|]. rewrite !Hf. ring.
  - cbn [interpolate_grid] in H. revert H. generalize (subdivide oi oj sr sc). intros l. revert g. induction l as [|[[ui uj] [li lj]] l IHl]; intros g H.
    + cbn in H. injection H as <-. split; [reflexivity|]. split; [reflexivity|]. intros. left. reflexivity.
    + cbn [foldM] in H. destruct (interpolate_grid depth ui uj (li - ui + 1) (lj - uj + 1) f g) as [g1|] eqn:E; [|discriminate]. cbn [bind] in H.
      destruct (IH _ _ _ _ _ _ E) as (R1 & C1 & A1). destruct (IHl g1 H) as (R2 & C2 & A2). split; [congruence|]. split; [congruence|].
      intros r c. destruct (A2 r c) as [X|[X|X]]; [|right; left; exact X|right; right; exact X]. rewrite X. apply A1.
Qed.

(** ** Consequences of the closed form *)
Lemma half_pos n : 1 <= n -> (0 < half n)%Q.
Proof. intros H. apply Qnot_le_lt. rewrite (half_ge 0). lia. Qed.
Lemma half_even k : (half (2 * k) == inject_Z k)%Q.
Proof. unfold half. rewrite inject_Z_mult. change (inject_Z 2) with 2%Q. field. Qed.
Lemma div_even k : 2 * k / 2 = k.
Proof. rewrite Z.mul_comm. apply Z.div_mul. lia. Qed.

Lemma lerp_between a b s lo hi : (0 <= s <= 1)%Q -> (lo <= a <= hi)%Q -> (lo <= b <= hi)%Q -> (lo <= lerp a b s <= hi)%Q.
Proof. intros [S0 S1] [A0 A1] [B0 B1]. unfold lerp. split; nra. Qed.
Lemma bilin_between ul ur ll lr s t lo hi : (0 <= s <= 1)%Q -> (0 <= t <= 1)%Q ->
  (lo <= ul <= hi)%Q -> (lo <= ur <= hi)%Q -> (lo <= ll <= hi)%Q -> (lo <= lr <= hi)%Q -> (lo <= bilin ul ur ll lr s t <= hi)%Q.
Proof. intros. unfold bilin. apply lerp_between; [assumption| |]; apply lerp_between; assumption. Qed.
Lemma frac_01 a b : (0 < b)%Q -> (0 <= a)%Q -> (a <= b)%Q -> (0 <= a / b <= 1)%Q.
Proof. intros Hb H0 H1. split; [apply Qle_shift_div_l; lra|apply Qle_shift_div_r; lra]. Qed.

Lemma position_even k r : 2 <= k -> 0 <= r < 2 * k -> (0 <= position (2 * k) r <= 1)%Q.
Proof.
  intros Hk Hr. unfold position. rewrite div_even. pose proof (half_even k) as E. destruct (Z.ltb_spec r k).
  - apply frac_01; rewrite ?E; [rewrite <- (Zlt_Qlt 0)|rewrite <- (Zle_Qle 0)|rewrite <- Zle_Qle]; lia.
  - assert (E' : (half (2 * k) - 1 == inject_Z (k - 1))%Q) by (rewrite E, inject_Z_minus; reflexivity).
    apply frac_01; rewrite ?E'; [rewrite <- (Zlt_Qlt 0)|rewrite <- (Zle_Qle 0)|rewrite <- Zle_Qle]; lia.
Qed.
(** At the rows where the function is sampled the interpolation along one axis is exact. *)
Lemma axis_node k r (h : Z -> Q) : 2 <= k -> node (2 * k) r -> (lerp (h (first_row (2 * k) r)) (h (last_row (2 * k) r)) (position (2 * k) r) == h r)%Q.
Proof.
  intros Hk Hr. unfold node in Hr. unfold first_row, last_row, position. rewrite div_even in *. destruct (Z.ltb_spec r k).
  - assert (r = 0) as -> by lia. unfold lerp, Qdiv. change (inject_Z 0) with 0%Q. ring.
  - destruct Hr as [-> | [-> | ->]]; [lia| |].
    + replace (k - k) with 0 by lia. unfold lerp, Qdiv. change (inject_Z 0) with 0%Q. ring.
    + assert (E' : (half (2 * k) - 1 == inject_Z (k - 1))%Q) by (rewrite half_even, inject_Z_minus; reflexivity). replace (2 * k - 1 - k) with (k - 1) by lia.
      assert (P : (0 < inject_Z (k - 1))%Q) by (rewrite <- (Zlt_Qlt 0); lia). assert (Q1 : (inject_Z (k - 1) / (half (2 * k) - 1) == 1)%Q) by (rewrite E'; field; lra).
      unfold lerp. rewrite Q1. ring.
Qed.
Lemma bilin_axes ul ur ll lr s t : (bilin ul ur ll lr s t == lerp (lerp ul ll s) (lerp ur lr s) t)%Q.
Proof. unfold bilin, lerp. ring. Qed.
Lemma lerp_comp a a' b b' s : (a == a')%Q -> (b == b')%Q -> (lerp a b s == lerp a' b' s)%Q.
Proof. intros E1 E2. unfold lerp. rewrite E1, E2. reflexivity. Qed.
Lemma bisected_node f k l r c : 2 <= k -> 2 <= l -> node (2 * k) r -> node (2 * l) c -> (bisected f (2 * k) (2 * l) r c == f r c)%Q.
Proof.
  intros Hk Hl Hr Hc. unfold bisected. rewrite bilin_axes.
  rewrite (lerp_comp _ _ _ _ _ (axis_node k r (fun i => f i (first_row (2 * l) c)) Hk Hr) (axis_node k r (fun i => f i (last_row (2 * l) c)) Hk Hr)). apply (axis_node l c (fun j => f r j)); assumption.
Qed.
Lemma nodes_first n r : 0 <= r -> node n (first_row n r).
Proof. intros H. unfold node, first_row. destruct (r <? n / 2); auto. Qed.
Lemma nodes_last k r : node (2 * k) (last_row (2 * k) r).
Proof. unfold node, last_row. rewrite div_even, ceil_upper, div_even. destruct (r <? k); [right; left; lia|right; right; lia]. Qed.
Lemma bisected_between f k l r c lo hi : 2 <= k -> 2 <= l -> 0 <= r < 2 * k -> 0 <= c < 2 * l ->
  (forall i j, node (2 * k) i -> node (2 * l) j -> lo <= f i j <= hi)%Q -> (lo <= bisected f (2 * k) (2 * l) r c <= hi)%Q.
Proof.
  intros Hk Hl Hr Hc H. unfold bisected. apply bilin_between; try (apply position_even; assumption); apply H; first [apply nodes_first; lia|apply nodes_last].
Qed.
Lemma bisected_const f k rows cols r c : (forall i j, f i j == k)%Q -> (bisected f rows cols r c == k)%Q.
Proof. intros H. unfold bisected, bilin, lerp. rewrite !H. ring. Qed.
Lemma bisected_swap f rows cols r c : (bisected f rows cols r c == bisected (fun i j => f j i) cols rows c r)%Q.
Proof. unfold bisected, bilin, lerp. ring. Qed.

(** ** Very small grids *)
Lemma one_row f g : g_rows g = 1 -> interpolate_grid 1 0 0 (inject_Z (g_rows g)) (inject_Z (g_cols g)) f g = Err ValueError.
Proof.
  intros E. rewrite E. cbn [interpolate_grid]. unfold subdivide, indices. cbn [foldM]. unfold interpolate_block, indices, slice_set. rewrite E.
  match goal with |- context [fits1 (g_rows ?b) ?n] => replace (fits1 (g_rows b) n) with false by (cbn [g_rows bilinear]; vm_compute; reflexivity) end. reflexivity.
Qed.
Lemma two_rows f g : g_rows g = 2 -> 2 <= g_cols g ->
  exists g', interpolate_grid 1 0 0 (inject_Z (g_rows g)) (inject_Z (g_cols g)) f g = Ok g' /\ forall c, 0 <= c < g_cols g -> g_at g' 1 c = NaN.
Proof.
  set (nr := g_rows g). set (nc := g_cols g). intros Hr Hc.
  destruct (upper_axis nr ltac:(lia)) as (U1 & U2 & U3 & U4 & U5 & U6 & U7). destruct (lower_axis nr ltac:(lia)) as (L1 & L2 & L3 & L4 & L5 & L6 & L7).
  destruct (upper_axis nc ltac:(lia)) as (V1 & V2 & V3 & V4 & V5 & V6 & V7). destruct (lower_axis nc ltac:(lia)) as (M1 & M2 & M3 & M4 & M5 & M6 & M7).
  cbv zeta in *. cbn [interpolate_grid]. unfold subdivide, indices. cbn [foldM].
  destruct (block_raw _ _ _ _ f g _ _ _ _ U1 U2 U3 U4 U5 V1 V2 V3 V4 V5) as (g1 & E1 & R1 & C1 & A1 & O1). rewrite E1. cbn [bind]. fold nr in R1. fold nc in C1.
  assert (L5' : nr - 1 < g_rows g1) by lia. assert (V5' : (nc + 1) / 2 < g_cols g1) by lia.
  destruct (block_raw _ _ _ _ f g1 _ _ _ _ L1 L2 L3 L4 L5' V1 V2 V3 V4 V5') as (g2 & E2 & R2 & C2 & A2 & O2). rewrite E2. cbn [bind].
  assert (U5' : (nr + 1) / 2 < g_rows g2) by lia. assert (M5' : nc - 1 < g_cols g2) by lia.
  destruct (block_raw _ _ _ _ f g2 _ _ _ _ U1 U2 U3 U4 U5' M1 M2 M3 M4 M5') as (g3 & E3 & R3 & C3 & A3 & O3). rewrite E3. cbn [bind].
  assert (L5'' : nr - 1 < g_rows g3) by lia. assert (M5'' : nc - 1 < g_cols g3) by lia.
  destruct (block_raw _ _ _ _ f g3 _ _ _ _ L1 L2 L3 L4 L5'' M1 M2 M3 M4 M5'') as (g4 & E4 & R4 & C4 & A4 & O4). rewrite E4. cbn [bind].
  exists g4. split; [reflexivity|]. intros c Ic. pose proof (ceil_upper nc) as Cc. pose proof (half_cases nc) as (kc & Kc & Ec).
  assert (H2 : nr / 2 = 1) by (rewrite Hr; reflexivity).
  assert (Z0 : forall s ul ur lr ll i j, (s - 1 == 0)%Q -> forall sc, g_at (bilinear s sc ul ur lr ll) i j = NaN).
  { intros s ul ur lr ll i j Es sc. unfold bilinear, ogrid_pos. cbn [g_at]. rewrite (proj2 (Qeq_bool_iff _ _) Es). reflexivity. }
  assert (Ez : (half nr - 1 == 0)%Q) by (rewrite Hr; reflexivity).
  destruct (Z.ltb_spec c (nc / 2)) as [P|P].
  - rewrite O4 by lia. rewrite O3 by lia. rewrite A2 by lia. apply Z0. rewrite L7. exact Ez.
  - rewrite A4 by lia. apply Z0. rewrite L7. exact Ez.
Qed.

(** ** Sums over a grid *)
Notation Qs := (fold_right Qplus 0%Q).
Lemma Qs_add {A} (f h : A -> Q) l : (Qs (map (fun x => f x + h x)%Q l) == Qs (map f l) + Qs (map h l))%Q.
Proof. induction l as [|a l IH]; [reflexivity|]. cbn [map fold_right]. rewrite IH. ring. Qed.
Lemma Qs_zero {A} (l : list A) : (Qs (map (fun _ => 0%Q) l) == 0)%Q.
Proof. induction l as [|a l IH]; [reflexivity|]. cbn [map fold_right]. rewrite IH. ring. Qed.
Lemma Qs_swap {A B} (h : A -> B -> Q) l1 l2 : (Qs (map (fun a => Qs (map (fun b => h a b) l2)) l1) == Qs (map (fun b => Qs (map (fun a => h a b) l1)) l2))%Q.
Proof.
  induction l1 as [|a l1 IH]; cbn [map fold_right]; [symmetry; apply Qs_zero|]. rewrite IH, <- Qs_add. reflexivity.
Qed.
Lemma fold_sum_ext {A} (f h : A -> Q) l : (forall x, f x == h x)%Q -> (Qs (map f l) == Qs (map h l))%Q.
Proof. intros E. induction l as [|a l IH]; [reflexivity|]. cbn [map fold_right]. rewrite IH, E. reflexivity. Qed.
Lemma cell_sum_swap h n : (cell_sum h n n == cell_sum (fun r c => h c r) n n)%Q.
Proof. unfold cell_sum. apply (Qs_swap h). Qed.
Lemma num_sum_step l acc s (h : Z -> Q) cells : acc = Some s ->
  (forall c, In c l -> exists v, cells c = Num v /\ (v == h c)%Q) ->
  exists t, fold_right (fun x a => match x, a with Num v, Some a => Some (v + a)%Q | _, _ => None end) acc (map cells l) = Some t /\ (t == Qs (map h l) + s)%Q.
Proof.
  intros -> H. induction l as [|c l IH]; [exists s; split; [reflexivity|cbn; ring]|]. destruct IH as (t & E & X); [intros; apply H; right; assumption|].
  destruct (H c (or_introl eq_refl)) as (v & Ev & Xv). cbn [map fold_right]. rewrite E, Ev. eexists. split; [reflexivity|]. rewrite X, Xv. ring.
Qed.
Lemma num_sum_cells g h : (forall r c, 0 <= r < g_rows g -> 0 <= c < g_cols g -> exists v, g_at g r c = Num v /\ (v == h r c)%Q) ->
  exists s, num_sum g = Some s /\ (s == cell_sum h (g_rows g) (g_cols g))%Q.
Proof.
  intros H. unfold num_sum, glist, cell_sum. assert (I : forall r, In r (zrange (g_rows g)) -> 0 <= r < g_rows g) by (intros r; apply in_zrange). revert I. generalize (zrange (g_rows g)). intros l I.
  induction l as [|r l IH]; [exists 0%Q; split; reflexivity|]. destruct IH as (s & E & X); [intros; apply I; right; assumption|]. cbn [map concat]. rewrite fold_right_app, E.
  destruct (num_sum_step (zrange (g_cols g)) (Some s) s (h r) (fun c => g_at g r c)) as (t & Et & Xt); [reflexivity|intros c Hc; apply H; [apply I; left; reflexivity|apply in_zrange; exact Hc]|].
  exists t. split; [exact Et|]. rewrite Xt, X. reflexivity.
Qed.
