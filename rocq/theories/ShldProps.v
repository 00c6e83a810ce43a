(** * Theorems about the shielding multiplier (C26, C28-C34, C65). *)
From Coq Require Import Permutation.
From Verif Require Import Base BaseLemmas NameModel TerrModel TerrSpec TerrProofs TerrRunProofs ShldModel ShldSpec ShldProofs ShldKernProofs ShldRunProofs.
Open Scope Z_scope.

(** ** C26, shielding part. *)
Theorem C26_shielding_table cast nodata table data r c : nodata <> Some (g_at data r c) -> g_at data r c <> -99 ->
  (forall l1 l2 v, table = l1 ++ (g_at data r c, v) :: l2 -> ~ In (g_at data r c) (map fst l2) ->
     g_at (class2ms cast nodata table data) r c = Num (v / 100)) /\
  (~ In (g_at data r c) (map fst table) -> g_at (class2ms cast nodata table data) r c = Num 1).
Proof.
  intros H1 H2. rewrite ms_value by assumption. split.
  - intros l1 l2 v -> H. apply ms_last. exact H.
  - apply ms_unlisted.
Qed.
Print Assumptions C26_shielding_table.
Example C26_shielding_ex : let ms := class2ms (fun z => z) (Some 0) [(1, 90%Q); (2, 85%Q); (1, 80%Q)] (Grid 1 4 (fun _ c => c)) in
  glist ms = [[NaN; Num (80 / 100); Num (85 / 100); Num 1]].
Proof. reflexivity. Qed.

(** ** C28: aspect classes are compass sectors. *)
Theorem C28_sector d a : (0 <= a <= 360)%Q -> (reclassify_aspect (Num a) = dire_aspect d <-> in_sector d a).
Proof. exact (aspect_class d a). Qed.
Print Assumptions C28_sector.
Theorem C28_exactly_one a : (0 <= a <= 360)%Q ->
  exists d, in_sector d a /\ forall d', in_sector d' a -> d' = d.
Proof.
  intros Ha.
  assert (I : forall d d', dire_aspect d = dire_aspect d' -> d = d') by (intros [] []; cbn; congruence).
  assert (E : exists d, reclassify_aspect (Num a) = dire_aspect d).
  { rewrite reclassify_eq. rewrite (proj2 (Qltb_ge a 0)) by lra. rewrite (proj2 (Qleb_le a 360)) by lra.
    repeat match goal with |- context [Qltb a ?q] => destruct (Qltb a q) end;
    first [exists N_; reflexivity|exists NE; reflexivity|exists E_; reflexivity|exists SE; reflexivity
          |exists S_; reflexivity|exists SW; reflexivity|exists W_; reflexivity|exists NW; reflexivity]. }
  destruct E as (d & E). exists d. split; [apply C28_sector; assumption|]. intros d' H. apply C28_sector in H; [|exact Ha]. apply I. congruence.
Qed.
Print Assumptions C28_exactly_one.
(** Everything else, including a missing aspect, is the class of no direction. *)
Theorem C28_no_direction x : (match x with NaN => True | Num a => (a < 0)%Q \/ (360 < a)%Q end) ->
  reclassify_aspect x = 9 /\ forall d, dire_aspect d <> 9.
Proof.
  intros H. split; [|intros []; discriminate]. destruct x as [|a]; [reflexivity|]. rewrite reclassify_eq. destruct H as [H|H].
  - rewrite (proj2 (Qltb_lt a 0)) by exact H. reflexivity.
  - repeat match goal with |- context [Qltb a ?q] => rewrite (proj2 (Qltb_ge a q)) by lra end. rewrite (proj2 (Qleb_gt a 360)) by lra. reflexivity.
Qed.
Print Assumptions C28_no_direction.
Example C28_ex : reclassify_aspect (Num (225#10)) = dire_aspect NE /\ reclassify_aspect (Num 350) = dire_aspect N_ /\ in_sector NW (3374#10).
Proof. split; [reflexivity|]. split; [reflexivity|]. apply C28_sector; [lra|reflexivity]. Qed.

(** ** C29: kernels. *)
Theorem C29_normalised d s : 1 <= s ->
  (grid_sum (kern d s) == 1)%Q /\
  forall a b, (g_at (kern d s) a b == 0)%Q \/
              (g_at (kern d s) a b == 1 / inject_Z (zlen (shield_cells d s)))%Q.
Proof.
  intros Hs. split; [exact (kern_sum d s Hs)|]. intros a b. rewrite kern_at by exact Hs. rewrite ksum_eq by exact Hs.
  destruct (P_ d s a b); [right; reflexivity|left]. unfold Qdiv. ring.
Qed.
Print Assumptions C29_normalised.
(** The kernel cells with a weight are exactly the shielding cells. *)
Theorem C29_cells d s : 1 <= s ->
  Permutation (map (fun p => (s - fst p, s - snd p)) (kernel_cells (kern d s))) (shield_cells d s) /\
  zlen (shield_cells d s) = (if is_diagonal d then s * (s + 1) / 2 else 3 * s - 2).
Proof. intros Hs. split; [exact (kernel_permutation d s Hs)|exact (shield_length d s Hs)]. Qed.
Print Assumptions C29_cells.
(** ... all upwind and within reach; never the pixel itself. *)
Theorem C29_one_sided d s p : In p (shield_cells d s) ->
  0 < fst p * fst (upwind d) + snd p * snd (upwind d) /\ Z.abs (fst p) <= s /\ Z.abs (snd p) <= s.
Proof. exact (shield_upwind d s p). Qed.
Print Assumptions C29_one_sided.
(** The reach in metres: as many whole pixels as fit into 100 m, up to float rounding. *)
Theorem C29_reach fl gw : fl_ok fl -> (0 < gw)%Q ->
  (inject_Z (kernel_size fl gw) * gw <= 100 * (1 + u53) /\ 100 * (1 - u53) < (inject_Z (kernel_size fl gw) + 1) * gw)%Q.
Proof. exact (kernel_size_metres fl gw). Qed.
Print Assumptions C29_reach.

Example C29_ex : shield_cells W_ 2 = [(0, -1); (1, -2); (0, -2); (-1, -2)] /\ shield_cells NE 2 = [(-1, 1); (-2, 1); (-1, 2)].
Proof. split; reflexivity. Qed.

(** ** C30: the blur is the mean over the shielding cells, outside counting as 1. *)
Theorem C30_mean d s im i j : 1 <= s ->
  same_num (g_at (blur im (kern d s)) i j) (num_mean (map (fun o => seen im (i + fst o) (j + snd o)) (shield_cells d s))).
Proof. exact (blur_mean d s im i j). Qed.
Print Assumptions C30_mean.
Theorem C30_bounds d s im i j lo hi : 1 <= s -> (lo <= 1 <= hi)%Q ->
  (forall r c, 0 <= r < g_rows im -> 0 <= c < g_cols im -> exists q, g_at im r c = Num q /\ (lo <= q <= hi)%Q) ->
  exists q, g_at (blur im (kern d s)) i j = Num q /\ (lo <= q <= hi)%Q.
Proof. exact (blur_bounds d s im i j lo hi). Qed.
Print Assumptions C30_bounds.
Theorem C30_unshielded d s im i j : 1 <= s ->
  (forall r c, 0 <= r < g_rows im -> 0 <= c < g_cols im -> exists q, g_at im r c = Num q /\ (q == 1)%Q) ->
  exists q, g_at (blur im (kern d s)) i j = Num q /\ (q == 1)%Q.
Proof.
  intros Hs H. destruct (C30_bounds d s im i j 1%Q 1%Q Hs ltac:(lra)) as (q & E & B).
  - intros r c Hr Hc. destruct (H r c Hr Hc) as (q & E & K). exists q. split; [exact E|]. rewrite K. lra.
  - exists q. split; [exact E|]. lra.
Qed.
Print Assumptions C30_unshielded.
(** A uniform tile does not stay uniform at its edge (outside counts as 1). *)
Theorem C30_uniform_edge_refuted : exists d s im i j, 1 <= s /\ (forall r c, g_at im r c = Num (1#2)) /\
  0 <= i < g_rows im /\ 0 <= j < g_cols im /\ ~ same_num (g_at (blur im (kern d s)) i j) (Num (1#2)).
Proof.
  exists W_, 1, (Grid 2 2 (fun _ _ => Num (1#2))), 0, 0. split; [lia|]. split; [reflexivity|]. split; [cbn; lia|]. split; [cbn; lia|].
  vm_compute. discriminate.
Qed.
Print Assumptions C30_uniform_edge_refuted.
Example C30_ex : same_num (g_at (blur (Grid 3 4 (fun r c => Num (inject_Z (r * 4 + c)))) (kern W_ 2)) 1 2) (Num (17 # 4)).
Proof. vm_compute. reflexivity. Qed.

(** ** C31: slope correction. *)
Theorem C31_value d s asp v :
  exists w, combine_cell d (Num s) asp (Num v) = Num w /\
    (w == less_conservative (if asp =? dire_aspect d then v + slope_weight s * (1 - v) else v))%Q.
Proof. exact (combine_spec d s asp v). Qed.
Print Assumptions C31_value.
Theorem C31_steep_facing d s v : (1230#100 <= s)%Q -> exists w, combine_cell d (Num s) (dire_aspect d) (Num v) = Num w /\ (w == 1)%Q.
Proof.
  intros H. destruct (combine_spec d s (dire_aspect d) v) as (w & E & K). exists w. split; [exact E|]. rewrite K, Z.eqb_refl.
  assert (SW : (slope_weight s == 1)%Q).
  { unfold slope_weight. rewrite (proj2 (Qleb_gt s (327#100))) by lra. rewrite (proj2 (Qleb_le (1230#100) s)) by lra. reflexivity. }
  assert (V : (v + slope_weight s * (1 - v) == 1)%Q) by (rewrite SW; ring).
  unfold less_conservative. rewrite (Qltb_comp _ _ _ (9#10) V ltac:(reflexivity)). cbn. rewrite V. reflexivity.
Qed.
Print Assumptions C31_steep_facing.
(** Continuity of the two pieces: the slope weight is 0 at 3.27 and 1 at 12.30, and
    both conservatism branches give 0.81 at 0.9. *)
Theorem C31_continuous : ((327#100) - (327#100)) / (903#100) == 0 /\ ((1230#100) - (327#100)) / (903#100) == 1 /\ (9#10) * (9#10) == less_conservative (9#10).
Proof. repeat split; reflexivity. Qed.
Print Assumptions C31_continuous.
Theorem C31_monotone d s s' asp v v' w w' : (0 <= v)%Q -> (v <= v' <= 1)%Q -> (s <= s')%Q ->
  combine_cell d (Num s) asp (Num v) = Num w -> combine_cell d (Num s') asp (Num v') = Num w' -> (w <= w')%Q.
Proof.
  intros H0 Hv Hs E E'. destruct (combine_spec d s asp v) as (x & Ex & Kx). destruct (combine_spec d s' asp v') as (y & Ey & Ky).
  rewrite E in Ex. rewrite E' in Ey. injection Ex as <-. injection Ey as <-. rewrite Kx, Ky.
  pose proof (slope_weight_range s) as R1. pose proof (slope_weight_range s') as R2. pose proof (slope_weight_mono s s' Hs) as M.
  destruct (asp =? dire_aspect d); [|apply less_cons_mono; lra].
  set (a := slope_weight s) in *. set (b := slope_weight s') in *.
  assert (A1 : (0 <= a * (1 - v))%Q) by (apply Qmult_le_0_compat; lra).
  apply less_cons_mono; [lra|].
  assert (A2 : (0 <= (b - a) * (1 - v))%Q) by (apply Qmult_le_0_compat; lra).
  assert (A3 : (0 <= (1 - b) * (v' - v))%Q) by (apply Qmult_le_0_compat; lra). lra.
Qed.
Print Assumptions C31_monotone.
Theorem C31_range d s asp v w : (0 < v <= 1)%Q -> combine_cell d s asp (Num v) = Num w -> (0 < w <= 1)%Q.
Proof.
  intros Hv E. destruct s as [|s].
  - destruct (combine_nan_slope d asp v) as (x & Ex & K). rewrite E in Ex. injection Ex as <-. rewrite K. apply less_cons_range. exact Hv.
  - destruct (combine_spec d s asp v) as (x & Ex & K). rewrite E in Ex. injection Ex as <-. rewrite K. apply less_cons_range.
    destruct (asp =? dire_aspect d); [|exact Hv]. pose proof (slope_weight_range s) as R. set (a := slope_weight s) in *.
    assert (A1 : (0 <= a * (1 - v))%Q) by (apply Qmult_le_0_compat; lra).
    assert (A2 : (0 <= (1 - a) * (1 - v))%Q) by (apply Qmult_le_0_compat; lra). lra.
Qed.
Print Assumptions C31_range.
Theorem C31_missing d s asp v : combine_cell d s asp v = NaN <-> v = NaN.
Proof. exact (combine_missing d s asp v). Qed.
Print Assumptions C31_missing.
Example C31_ex : combine_cell N_ (Num (7785#1000)) 1 (Num (8#10)) = combine_cell N_ (Num 0) 1 (Num (8#10)) -> False.
Proof. vm_compute. discriminate. Qed.

(** ** C32: independence of directions. *)
Theorem C32_independent fl gw slope aspect data : fl_ok fl -> (0 < gw)%Q -> (gw <= 100)%Q ->
  convo_combine fl gw slope aspect data =
  map (fun d => (d, combine d slope aspect (blur data (kern d (kernel_size fl gw))))) dire.
Proof. intros Hf Hg H. apply convo_dirs_fine. exact (kernel_size_fine fl gw Hf Hg H). Qed.
Print Assumptions C32_independent.
(** The whole stage on pixels up to 100 m: each of the eight directions is written
    once; a pixel's value is the mean initial shielding over its shielding
    cells, moved towards 1 by the slope weight where the ground faces the wind
    (a missing slope counts as flat), then made less conservative. *)
Theorem C31_tile slope_fn aspect_fn fl cast table tnd terrain dnd dem px py xm ym gw : fl_ok fl -> (0 < gw)%Q -> (gw <= 100)%Q ->
  let '(slope, aspect) := get_slope_aspect slope_fn aspect_fn dnd dem px py xm ym in
  let initial := class2ms cast tnd table terrain in
  let out := shield slope_fn aspect_fn fl cast table tnd terrain dnd dem px py xm ym gw in
  NoDup (map fst out) /\
  forall d, exists o, In (d, o) out /\ g_rows o = g_rows terrain /\ g_cols o = g_cols terrain /\
    forall i j, same_num (g_at o i j)
      (match num_mean (map (fun p => seen initial (i + fst p) (j + snd p)) (shield_cells d (kernel_size fl gw))) with
       | NaN => NaN
       | Num v =>
           let w := match g_at slope i j with Num s => slope_weight s | NaN => 0%Q end in
           Num (less_conservative (if g_at aspect i j =? dire_aspect d then v + w * (1 - v) else v))
       end).
Proof.
  intros Hf Hg Hw. unfold shield. destruct (get_slope_aspect slope_fn aspect_fn dnd dem px py xm ym) as [slope aspect]. cbv zeta.
  rewrite C32_independent by assumption. pose proof (kernel_size_fine fl gw Hf Hg Hw) as Hk. split.
  - rewrite map_map. cbn [fst]. rewrite map_id. unfold dire. repeat constructor; cbn; intuition discriminate.
  - intros d. eexists. split; [apply in_map_iff; exists d; split; [reflexivity|destruct d; cbn; tauto]|].
    split; [reflexivity|]. split; [reflexivity|]. intros i j. cbn [combine g_at].
    pose proof (C30_mean d (kernel_size fl gw) (class2ms cast tnd table terrain) i j Hk) as M.
    destruct (g_at (blur _ _) i j) as [|v]; destruct (num_mean _) as [|v']; cbn in M; try contradiction; [exact I|].
    assert (L : forall x y, (x == y)%Q -> (less_conservative x == less_conservative y)%Q).
    { intros x y E. unfold less_conservative. destruct (Qltb x (9#10)) eqn:A, (Qltb y (9#10)) eqn:B; rewrite ?E; try reflexivity.
      - apply Qltb_lt in A. rewrite E in A. apply Qltb_lt in A. congruence.
      - apply Qltb_lt in B. rewrite <- E in B. apply Qltb_lt in B. congruence. }
    destruct (g_at slope i j) as [|s].
    + destruct (combine_nan_slope d (g_at aspect i j) v) as (w & -> & E). cbn [same_num]. rewrite E. apply L.
      destruct (_ =? _); rewrite M; ring.
    + destruct (combine_spec d s (g_at aspect i j) v) as (w & -> & E). cbn [same_num]. rewrite E. apply L.
      destruct (_ =? _); rewrite M; reflexivity.
Qed.
Print Assumptions C31_tile.

(** Coarse pixels: the k-th direction's result has been through the correction
    of all earlier directions as well. *)
Theorem C32_coarse_compounds fl gw slope aspect data l1 d l2 : fl_ok fl -> (101 <= gw)%Q -> dire = l1 ++ d :: l2 ->
  nth_error (convo_combine fl gw slope aspect data) (length l1) =
  Some (d, fold_left (fun g d => combine d slope aspect g) (l1 ++ [d]) data).
Proof. intros Hf H E. unfold convo_combine. rewrite (kernel_size_coarse fl gw Hf H). apply (convo_dirs_coarse slope aspect dire data l1 d l2 E). Qed.
Print Assumptions C32_coarse_compounds.
Theorem C32_coarse_refuted : exists slope aspect data o,
  nth_error (convo_combine (fun x => x) 200 slope aspect data) 7 = Some (SW, o) /\
  ~ same_num (g_at o 0 0) (g_at (combine SW slope aspect data) 0 0).
Proof.
  exists (Grid 1 1 (fun _ _ => Num 0)), (Grid 1 1 (fun _ _ => 9)), (Grid 1 1 (fun _ _ => Num (1#2))). eexists. split; [reflexivity|].
  vm_compute. discriminate.
Qed.
Print Assumptions C32_coarse_refuted.
Example C32_ex : map fst (convo_combine (fun x => x) 25 (Grid 1 1 (fun _ _ => Num 0)) (Grid 1 1 (fun _ _ => 9)) (Grid 1 1 (fun _ _ => Num (1#2)))) = dire
  /\ kernel_size (fun x => x) 25 = 4.
Proof. split; reflexivity. Qed.

(** ** C33: flat ground.  [slope_fn] is only required to give 0 for a zero gradient. *)
Theorem C33_flat_slope slope_fn aspect_fn nodata dem px py xm ym e r c :
  (forall x y, (x == 0)%Q -> (y == 0)%Q -> (slope_fn x y == 0)%Q) ->
  (forall a b, 0 <= a < g_rows dem -> 0 <= b < g_cols dem -> g_at dem a b = Num e) ->
  (forall n, nodata = Some n -> ~ (e == n)%Q) ->
  0 <= r < g_rows dem -> 0 <= c < g_cols dem ->
  exists s, g_at (fst (get_slope_aspect slope_fn aspect_fn nodata dem px py xm ym)) r c = Num s /\ (s == 0)%Q.
Proof.
  intros Hs He Hn Hr Hc. unfold get_slope_aspect. cbn [fst g_at]. set (m := mask_nodata nodata dem).
  assert (M : forall a b, 0 <= a < g_rows m -> 0 <= b < g_cols m -> g_at m a b = Num e).
  { intros a b Ha Hb. unfold m, mask_nodata, gmap. cbn [g_at]. rewrite He by assumption. destruct nodata as [n|]; [|reflexivity].
    destruct (Qeq_bool e n) eqn:E; [|reflexivity]. apply Qeq_bool_eq in E. destruct (Hn n eq_refl E). }
  destruct (sobel_num m (fun _ _ => e) r c M Hr Hc) as [(x & -> & Hx) (y & -> & Hy)]. rewrite (M r c Hr Hc). cbn [nscale].
  eexists. split; [reflexivity|]. apply Hs; [rewrite Hx; ring|rewrite Hy; ring].
Qed.
Print Assumptions C33_flat_slope.
Theorem C33_no_correction d s asp v : (s <= 327#100)%Q ->
  exists w, combine_cell d (Num s) asp (Num v) = Num w /\ (w == less_conservative v)%Q.
Proof.
  intros H. destruct (combine_spec d s asp v) as (w & E & K). exists w. split; [exact E|].
  assert (SW : slope_weight s = 0%Q) by (unfold slope_weight; rewrite (proj2 (Qleb_le s (327#100))) by lra; reflexivity).
  assert (V : ((if asp =? dire_aspect d then v + slope_weight s * (1 - v) else v) == v)%Q) by (rewrite SW; destruct (asp =? dire_aspect d); ring).
  rewrite K. unfold less_conservative. rewrite (Qltb_comp _ _ _ (9#10) V ltac:(reflexivity)). destruct (Qltb v (9#10)); rewrite V; reflexivity.
Qed.
Print Assumptions C33_no_correction.
(** Raising the whole landscape changes no gradient. *)
Theorem C33_shift g g' f h r c : g_rows g' = g_rows g -> g_cols g' = g_cols g ->
  (forall a b, 0 <= a < g_rows g -> 0 <= b < g_cols g -> g_at g a b = Num (f a b) /\ g_at g' a b = Num (f a b + h)) ->
  0 <= r < g_rows g -> 0 <= c < g_cols g ->
  same_num (sobel_x g' r c) (sobel_x g r c) /\ same_num (sobel_y g' r c) (sobel_y g r c).
Proof.
  intros Er Ec H Hr Hc.
  destruct (sobel_num g f r c) as [(x & -> & Hx) (y & -> & Hy)]; [intros; apply H; assumption|exact Hr|exact Hc|].
  destruct (sobel_num g' (fun a b => f a b + h)%Q r c) as [(x' & -> & Hx') (y' & -> & Hy')];
    [rewrite Er, Ec; intros; apply H; assumption|lia|lia|].
  cbv beta in Hx', Hy'. rewrite Er, Ec in Hx', Hy'. cbn [same_num]. split; [rewrite Hx, Hx'|rewrite Hy, Hy']; ring.
Qed.
Print Assumptions C33_shift.
Example C33_ex : exists s, g_at (fst (get_slope_aspect (fun x y => x * x + y * y)%Q (fun _ _ => 0%Q) None (Grid 2 3 (fun _ _ => Num 40)) 1 1
   (Grid 2 3 (fun _ _ => 25%Q)) (Grid 2 3 (fun _ _ => 25%Q)))) 1 2 = Num s /\ (s == 0)%Q.
Proof. eexists. split; [reflexivity|]. vm_compute. reflexivity. Qed.

(** ** C34: no-data. *)
(** After averaging a pixel is missing exactly when one of its upwind shielding
    cells is a missing pixel of the raster - its own data do not matter. *)
Theorem C34_exact fl gw slope aspect data d o i j : fl_ok fl -> (0 < gw)%Q -> (gw <= 100)%Q ->
  In (d, o) (convo_combine fl gw slope aspect data) ->
  (g_at o i j = NaN <->
   exists p, In p (shield_cells d (kernel_size fl gw)) /\ 0 <= i + fst p < g_rows data /\ 0 <= j + snd p < g_cols data /\
             g_at data (i + fst p) (j + snd p) = NaN).
Proof.
  intros Hf Hg H I. rewrite (C32_independent fl gw slope aspect data Hf Hg H) in I. apply in_map_iff in I. destruct I as (d' & E & _).
  injection E as -> <-. unfold combine. cbn [g_at]. rewrite combine_missing. apply blur_nan. exact (kernel_size_fine fl gw Hf Hg H).
Qed.
Print Assumptions C34_exact.
(** So both halves of the claim are false. *)
Theorem C34_refuted : exists data o, In (W_, o) (convo_combine (fun x => x) 100 (Grid 1 2 (fun _ _ => Num 0)) (Grid 1 2 (fun _ _ => 9)) data) /\
  g_at data 0 0 = NaN /\ g_at o 0 0 <> NaN /\ g_at data 0 1 <> NaN /\ g_at o 0 1 = NaN.
Proof.
  exists (Grid 1 2 (fun _ c => if c =? 0 then NaN else Num (9#10))). eexists. split; [left; reflexivity|].
  split; [reflexivity|]. split; [vm_compute; discriminate|]. split; [discriminate|]. vm_compute. reflexivity.
Qed.
Print Assumptions C34_refuted.
(** Which pixels are missing to start with: those of class -99 and, provided
    the class type can hold -99, those of the no-data class ... *)
Theorem C34_initially_missing cast nodata table data r c :
  g_at (class2ms cast nodata table data) r c = NaN <->
  (g_at data r c = -99 /\ (nodata = Some (-99) -> cast (-99) = -99)) \/ (nodata = Some (g_at data r c) /\ cast (-99) = -99).
Proof. exact (ms_missing cast nodata table data r c). Qed.
Print Assumptions C34_initially_missing.
(** ... so in a raster of unsigned bytes no pixel is ever missing. *)
Theorem C34_byte_raster_refuted nodata table data r c : 0 <= g_at data r c <= 255 ->
  g_at (class2ms (fun z => z mod 256) nodata table data) r c <> NaN.
Proof. intros H E. apply ms_missing in E. destruct E as [[E _]|[_ E]]; [lia|discriminate E]. Qed.
Print Assumptions C34_byte_raster_refuted.

(** ** C65: tiling. *)
(** The same for arrays that only agree with the windows inside the tile, and for
    another pixel size with the same kernels. *)
Lemma shield_window slope_fn aspect_fn fl cast table tnd (terrain tw : grid Z) dnd dem demw px py xm ym xmw ymw gw gww B tr0 tr1 tc0 tc1 r0 r1 c0 c1 :
  fl_ok fl -> (0 < gw)%Q -> 1 <= B -> kernel_size fl gw <= B -> kernel_size fl gww = kernel_size fl gw ->
  let rows := g_rows terrain in let cols := g_cols terrain in
  0 <= tr0 < tr1 /\ tr1 <= rows -> 0 <= tc0 < tc1 /\ tc1 <= cols ->
  0 <= r0 <= Z.max 0 (tr0 - B) -> Z.min rows (tr1 + B) <= r1 <= rows ->
  0 <= c0 <= Z.max 0 (tc0 - B) -> Z.min cols (tc1 + B) <= c1 <= cols ->
  is_window rows cols r0 r1 c0 c1 terrain tw -> is_window rows cols r0 r1 c0 c1 dem demw ->
  is_window rows cols r0 r1 c0 c1 xm xmw -> is_window rows cols r0 r1 c0 c1 ym ymw ->
  Forall2 (fun x y => fst x = fst y /\
             forall i j, tr0 <= i < tr1 -> tc0 <= j < tc1 -> g_at (snd x) (i - r0) (j - c0) = g_at (snd y) i j)
    (shield slope_fn aspect_fn fl cast table tnd tw dnd demw px py xmw ymw gww)
    (shield slope_fn aspect_fn fl cast table tnd terrain dnd dem px py xm ym gw).
Proof.
  intros Hf Hg HB HK EK rows cols Hr Hc Hr0 Hr1 Hc0 Hc1 Wt Wd Wx Wy. unfold shield.
  destruct (slope_aspect_window rows cols r0 r1 c0 c1 B tr0 tr1 tc0 tc1 Hr Hc Hr0 Hr1 Hc0 Hc1 HB slope_fn aspect_fn dnd dem
    demw px py xm ym xmw ymw Wd Wx Wy) as [S A].
  destruct (get_slope_aspect slope_fn aspect_fn dnd dem px py xm ym) as [sl asp].
  destruct (get_slope_aspect slope_fn aspect_fn dnd demw px py xmw ymw) as [slw aspw]. cbn [fst snd] in S, A.
  unfold convo_combine. rewrite EK.
  apply (convo_window rows cols r0 r1 c0 c1 B tr0 tr1 tc0 tc1 Hr Hc Hr0 Hr1 Hc0 Hc1); try assumption.
  - split; [apply kernel_size_nonneg; assumption|exact HK].
  - unfold class2ms. apply gmap_window. apply gmap_window. exact Wt.
Qed.
Theorem C65_tiling_independent slope_fn aspect_fn fl cast table tnd (terrain : grid Z) dnd dem px py xm ym gw B tr0 tr1 tc0 tc1 r0 r1 c0 c1 :
  fl_ok fl -> (0 < gw)%Q -> 1 <= B -> kernel_size fl gw <= B ->
  let rows := g_rows terrain in let cols := g_cols terrain in
  0 <= tr0 < tr1 /\ tr1 <= rows -> 0 <= tc0 < tc1 /\ tc1 <= cols ->
  g_rows dem = rows -> g_cols dem = cols -> g_rows xm = rows -> g_cols xm = cols -> g_rows ym = rows -> g_cols ym = cols ->
  0 <= r0 <= Z.max 0 (tr0 - B) -> Z.min rows (tr1 + B) <= r1 <= rows ->
  0 <= c0 <= Z.max 0 (tc0 - B) -> Z.min cols (tc1 + B) <= c1 <= cols ->
  let cut {A} (g : grid A) := window g r0 r1 c0 c1 in
  Forall2 (fun x y => fst x = fst y /\
             forall i j, tr0 <= i < tr1 -> tc0 <= j < tc1 -> g_at (snd x) (i - r0) (j - c0) = g_at (snd y) i j)
    (shield slope_fn aspect_fn fl cast table tnd (cut terrain) dnd (cut dem) px py (cut xm) (cut ym) gw)
    (shield slope_fn aspect_fn fl cast table tnd terrain dnd dem px py xm ym gw).
Proof.
  intros Hf Hg HB HK rows cols Hr Hc D1 D2 X1 X2 Y1 Y2 Hr0 Hr1 Hc0 Hc1 cut.
  apply (shield_window slope_fn aspect_fn fl cast table tnd terrain (cut _ terrain) dnd dem (cut _ dem) px py xm ym (cut _ xm) (cut _ ym) gw gw B tr0 tr1 tc0 tc1 r0 r1 c0 c1);
    try assumption; try reflexivity; apply window_is; assumption || reflexivity.
Qed.
Print Assumptions C65_tiling_independent.
Example C65_ex : kernel_size (fun x => x) 50 = 2 /\
  let t := Grid 5 5 (fun r c => (r + c) mod 3) in let e := Grid 5 5 (fun r c => Num (inject_Z (r * 9))) in let m := Grid 5 5 (fun _ _ => 25%Q) in
  let run t e m := shield (fun x y => (x * x + y * y) * 40)%Q (fun x y => 180%Q) (fun x => x) (fun z => z) [(1, 90%Q); (2, 85%Q)] (Some 0) t None e 1 1 m m 50 in
  match nth_error (run t e m) 3, nth_error (run (window t 0 4 0 5) (window e 0 4 0 5) (window m 0 4 0 5)) 3 with
  | Some (S_, o), Some (S_, ow) => g_at o 1 2 = g_at ow 1 2
  | _, _ => False end.
Proof. split; [reflexivity|]. vm_compute. reflexivity. Qed.
