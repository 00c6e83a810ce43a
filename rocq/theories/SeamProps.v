(** * C88: tiles count pixels with their own mean pixel size. *)
From Verif Require Import Base BaseLemmas NameModel TerrModel TerrSpec TerrProofs TerrRunProofs TerrProps ShldModel ShldSpec ShldProofs ShldKernProofs ShldRunProofs ShldProps SeamProofs.
Open Scope Z_scope.

(** terrain_mult.py:66-67, 85-110.  Two mean pixel sizes give the same terrain
    multipliers of a direction, on every raster, every table and at every
    pixel, exactly when they give the same two numbers of pixels. *)
Theorem C88_terrain fl gw1 gw2 d : fl_ok fl -> (0 < gw1 <= 353)%Q -> (0 < gw2 <= 353)%Q ->
  (widths fl gw1 d = widths fl gw2 d <->
   forall table data l1 l2 o1 o2 i j, terrain fl table data gw1 = Ok (Some l1) -> terrain fl table data gw2 = Ok (Some l2) ->
     In (d, o1) l1 -> In (d, o2) l2 -> 0 <= i < g_rows data -> 0 <= j < g_cols data -> same_num (g_at o1 i j) (g_at o2 i j)).
Proof.
  intros Hf H1 H2. split.
  - intros W table data l1 l2 o1 o2 i j E1 E2 I1 I2 _ _.
    destruct (terrain_skip_or_run _ _ _ _ _ E1) as [|(l' & El & _ & K1)]; [discriminate|]. injection El as <-. specialize (K1 d o1 I1).
    destruct (terrain_skip_or_run _ _ _ _ _ E2) as [|(l' & El & _ & K2)]; [discriminate|]. injection El as <-. specialize (K2 d o2 I2).
    rewrite W in K1. rewrite K1 in K2. injection K2 as <-. destruct (g_at o1 i j); cbn [same_num]; [exact I|reflexivity].
  - intros H. destruct (widths fl gw1 d) as [a1 l1] eqn:W1, (widths fl gw2 d) as [a2 l2] eqn:W2.
    destruct (Z.eq_dec a1 a2) as [Ea|Ea]; [destruct (Z.eq_dec l1 l2) as [El|El]; [congruence|]|].
    all: exfalso.
    all: pose proof (widths_nonneg fl gw1 Hf (proj1 H1) d) as P1; pose proof (widths_nonneg fl gw2 Hf (proj1 H2) d) as P2.
    all: pose proof (avg_positive fl gw1 Hf (proj1 H1) d (proj2 H1)) as A1; pose proof (avg_positive fl gw2 Hf (proj1 H2) d (proj2 H2)) as A2.
    all: rewrite W1 in P1, A1; rewrite W2 in P2, A2; cbn [fst snd] in *.
    all: destruct (window_differs a1 l1 a2 l2) as (k & K0 & K1 & K2); [lia|lia|lia|lia|congruence|].
    all: pose proof (reach_le fl gw1 d Hf (proj1 H1)) as R1; pose proof (reach_le fl gw2 d Hf (proj1 H2)) as R2; rewrite W1 in R1; rewrite W2 in R2; cbn [fst snd] in R1, R2.
    all: set (n := Z.max (reach_all fl gw1) (reach_all fl gw2) + 1).
    all: destruct (spike_value fl gw1 d n k Hf (proj1 H1) (proj2 H1)) as (r1 & o1 & q1 & E1 & I1 & G1 & V1 & L1); [lia|lia|].
    all: destruct (spike_value fl gw2 d n k Hf (proj1 H2) (proj2 H2)) as (r2 & o2 & q2 & E2 & I2 & G2 & V2 & L2); [lia|lia|].
    all: assert (Rn : g_rows (spike_tile d n k) = 2 * n + 1) by reflexivity; assert (Cn : g_cols (spike_tile d n k) = 2 * n + 1) by reflexivity.
    all: assert (S : same_num (g_at o1 n n) (g_at o2 n n)) by (apply (H spike_table (spike_tile d n k) r1 r2 o1 o2 n n); try assumption; lia).
    all: rewrite G1, G2 in S; cbn [same_num] in S; rewrite W1 in V1; rewrite W2 in V2; cbn [fst snd] in V1, V2; apply K2; rewrite <- V1, <- V2, S; reflexivity.
Qed.
Print Assumptions C88_terrain.

(** A tile computed with its own mean pixel size agrees with a run over the whole
    raster when both give the same two numbers of pixels, and its buffer
    holds them. *)
Theorem C88_terrain_tile fl table (data : grid Z) gw1 gw2 B tr0 tr1 tc0 tc1 r0 r1 c0 c1 l lw d o ow : fl_ok fl -> (0 < gw1 <= 353)%Q -> (0 < gw2)%Q ->
  widths fl gw1 d = widths fl gw2 d -> fst (widths fl gw1 d) + snd (widths fl gw1 d) <= B ->
  0 <= tr0 < tr1 /\ tr1 <= g_rows data -> 0 <= tc0 < tc1 /\ tc1 <= g_cols data ->
  0 <= r0 <= Z.max 0 (tr0 - B) -> Z.min (g_rows data) (tr1 + B) <= r1 <= g_rows data ->
  0 <= c0 <= Z.max 0 (tc0 - B) -> Z.min (g_cols data) (tc1 + B) <= c1 <= g_cols data ->
  terrain fl table (window data r0 r1 c0 c1) gw1 = Ok (Some lw) -> In (d, ow) lw ->
  terrain fl table data gw2 = Ok (Some l) -> In (d, o) l ->
  forall i j, tr0 <= i < tr1 -> tc0 <= j < tc1 -> same_num (g_at ow (i - r0) (j - c0)) (g_at o i j).
Proof.
  intros Hf H1 H2 W HB Hr Hc R0 R1 C0 C1 Ew How E Ho i j Hi Hj.
  destruct (terrain_skip_or_run _ _ _ _ _ E) as [|(l' & El & _ & K)]; [discriminate|]. injection El as <-. specialize (K d o Ho).
  destruct (terrain_skip_or_run _ _ _ _ _ Ew) as [|(l' & El & _ & Kw)]; [discriminate|]. injection El as <-. specialize (Kw d ow How).
  pose proof (avg_positive fl gw1 Hf (proj1 H1) d (proj2 H1)) as Ha. rewrite <- W in K.
  pose proof (terrain_dir_window (g_rows data) (g_cols data) r0 r1 c0 c1 B tr0 tr1 tc0 tc1 Hr Hc R0 R1 C0 C1 d
    (zero_to_nan (class2mz table data)) (zero_to_nan (class2mz table (window data r0 r1 c0 c1))) (fst (widths fl gw1 d)) (snd (widths fl gw1 d))
    eq_refl eq_refl (proj2 (widths_nonneg fl gw1 Hf (proj1 H1) d)) ltac:(lia) ltac:(lia) eq_refl eq_refl (fun _ _ _ _ => eq_refl)) as T.
  rewrite K, Kw in T. apply T; assumption.
Qed.
Print Assumptions C88_terrain_tile.

(** shield_mult.py:282-283, 297.  Two mean pixel sizes of at most 100 m give the same
    shielding multipliers of a direction, on every ground and at every
    pixel, exactly when the same whole number of pixels fits into 100 m. *)
Theorem C88_shielding fl gw1 gw2 d : fl_ok fl -> (0 < gw1 <= 100)%Q -> (0 < gw2 <= 100)%Q ->
  (kernel_size fl gw1 = kernel_size fl gw2 <->
   forall slope aspect data o1 o2 i j, In (d, o1) (convo_combine fl gw1 slope aspect data) -> In (d, o2) (convo_combine fl gw2 slope aspect data) ->
     0 <= i < g_rows data -> 0 <= j < g_cols data -> same_num (g_at o1 i j) (g_at o2 i j)).
Proof.
  intros Hf H1 H2.
  assert (Out : forall gw slope aspect data o, (0 < gw <= 100)%Q -> (In (d, o) (convo_combine fl gw slope aspect data) <-> o = combine d slope aspect (blur data (kern d (kernel_size fl gw))))).
  { intros gw slope aspect data o H. rewrite (C32_independent fl gw slope aspect data Hf (proj1 H) (proj2 H)), in_map_iff. split.
    - intros (d' & E & _). injection E as -> <-. reflexivity.
    - intros ->. exists d. split; [reflexivity|destruct d; cbn; tauto]. }
  split.
  - intros K slope aspect data o1 o2 i j I1 I2 _ _. apply (Out gw1 slope aspect data o1 H1) in I1. apply (Out gw2 slope aspect data o2 H2) in I2.
    rewrite K, <- I2 in I1. subst o1. destruct (g_at o2 i j); cbn [same_num]; [exact I|reflexivity].
  - intros H. pose proof (kernel_size_fine fl gw1 Hf (proj1 H1) (proj2 H1)) as K1. pose proof (kernel_size_fine fl gw2 Hf (proj1 H2) (proj2 H2)) as K2.
    destruct (Z.eq_dec (kernel_size fl gw1) (kernel_size fl gw2)) as [|N]; [assumption|]. exfalso.
    set (s := Z.max (kernel_size fl gw1) (kernel_size fl gw2)).
    destruct (dip_value d s (kernel_size fl gw1) ltac:(lia)) as (q1 & G1 & A1 & B1). destruct (dip_value d s (kernel_size fl gw2) ltac:(lia)) as (q2 & G2 & A2 & B2).
    assert (S : same_num (Num q1) (Num q2)).
    { rewrite <- G1, <- G2. apply (H (Grid (2 * s + 1) (2 * s + 1) (fun _ _ => Num 0)) (Grid (2 * s + 1) (2 * s + 1) (fun _ _ => 9)) (dip d s)).
      - apply Out; [exact H1|reflexivity].
      - apply Out; [exact H2|reflexivity].
      - change (g_rows (dip d s)) with (2 * s + 1). lia.
      - change (g_cols (dip d s)) with (2 * s + 1). lia. }
    cbn [same_num] in S. destruct (Z.lt_total (kernel_size fl gw1) (kernel_size fl gw2)) as [L|[L|L]]; [|congruence|].
    + specialize (A1 ltac:(lia)). specialize (B2 ltac:(lia)). lra.
    + specialize (A2 ltac:(lia)). specialize (B1 ltac:(lia)). lra.
Qed.
Print Assumptions C88_shielding.

(** If the smallest and the largest mean pixel size of all tiles give the same
    numbers of pixels then so does every size between them. *)
Theorem C88_extremes fl lo hi gw d : fl_ok fl -> (0 < lo)%Q -> (lo <= gw <= hi)%Q ->
  (widths fl lo d = widths fl hi d -> widths fl gw d = widths fl lo d) /\
  (kernel_size fl lo = kernel_size fl hi -> kernel_size fl gw = kernel_size fl lo).
Proof.
  intros Hf H0 [H1 H2]. split; intros E.
  - pose proof (widths_antitone fl lo gw d Hf H0 H1). pose proof (widths_antitone fl gw hi d Hf ltac:(lra) H2). rewrite <- E in *.
    destruct (widths fl gw d), (widths fl lo d). cbn [fst snd] in *. f_equal; lia.
  - pose proof (kernel_antitone fl lo gw Hf H0 H1). pose proof (kernel_antitone fl gw hi Hf ltac:(lra) H2). lia.
Qed.
Print Assumptions C88_extremes.

(** Tiles whose mean pixel sizes differ as little as one likes can disagree: at
    25 m four pixels fit into 100 m, at any larger size at most three.  So
    neighbouring tiles at different latitudes need not match at their seam. *)
Theorem C88_seam_refuted : forall eps, (0 < eps)%Q -> (eps < 8)%Q -> forall d, exists slope aspect data o1 o2 i j,
  In (d, o1) (convo_combine (fun x => x) 25 slope aspect data) /\ In (d, o2) (convo_combine (fun x => x) (25 + eps) slope aspect data) /\
  0 <= i < g_rows data /\ 0 <= j < g_cols data /\ ~ same_num (g_at o1 i j) (g_at o2 i j).
Proof.
  intros eps E0 E8 d. assert (Hf : fl_ok (fun x => x)) by exact fl_ok_id.
  assert (K1 : kernel_size (fun x => x) 25 = 4) by reflexivity.
  assert (K2 : kernel_size (fun x => x) (25 + eps) = 3).
  { unfold kernel_size. rewrite py_int_nonneg by (apply Qle_shift_div_l; lra).
    destruct (Qfloor_spec (100 / (25 + eps))) as [F1 F2].
    assert (A : (3 < 100 / (25 + eps))%Q) by (apply Qlt_shift_div_l; lra). assert (B : (100 / (25 + eps) < 4)%Q) by (apply Qlt_shift_div_r; lra).
    set (f := Qfloor _) in *. assert (C1 : (inject_Z f < inject_Z 4)%Q) by (change (inject_Z 4) with 4%Q; lra).
    assert (C2 : (inject_Z 3 < inject_Z (f + 1))%Q) by (rewrite inject_Z_plus; change (inject_Z 3) with 3%Q; change (inject_Z 1) with 1%Q; lra).
    rewrite <- Zlt_Qlt in C1, C2. lia. }
  destruct (dip_value d 4 4 ltac:(lia)) as (q1 & G1 & _ & B1). destruct (dip_value d 4 3 ltac:(lia)) as (q2 & G2 & A2 & _).
  specialize (B1 eq_refl). specialize (A2 ltac:(lia)).
  exists (Grid 9 9 (fun _ _ => Num 0)), (Grid 9 9 (fun _ _ => 9)), (dip d 4).
  eexists _, _, 4, 4. rewrite !C32_independent by (try exact Hf; lra). rewrite K1, K2.
  split; [apply in_map_iff; exists d; split; [reflexivity|destruct d; cbn; tauto]|].
  split; [apply in_map_iff; exists d; split; [reflexivity|destruct d; cbn; tauto]|].
  change (2 * 4 + 1) with 9 in G1, G2. rewrite G1, G2. split; [cbn; lia|]. split; [cbn; lia|]. cbn [same_num]. lra.
Qed.
Print Assumptions C88_seam_refuted.

(** Sizes met in practice: between 26 and 33 m all directions agree on shielding and at
    26 and 26.2 m the western terrain multipliers agree, at 26 and 27 m they do not. *)
Example C88_ex : kernel_size (fun x => x) 26 = kernel_size (fun x => x) 33 /\ widths (fun x => x) 26 W_ = (19, 8) /\
  widths (fun x => x) (262#10) W_ = (19, 8) /\ widths (fun x => x) 27 W_ = (19, 7) /\ widths (fun x => x) 26 NW = (13, 5).
Proof. vm_compute. repeat split. Qed.
Example C88_tile_ex : let t := Grid 40 40 (fun r c => (r + c * c) mod 3) in
  let tb := [(1, Num (1#2)); (2, Num (3#4))] in
  match terrain (fun x => x) tb (window t 5 40 5 40) 26, terrain (fun x => x) tb t (262#10) with
  | Ok (Some ((W_, ow) :: _)), Ok (Some ((W_, o) :: _)) => match g_at ow 28 29, g_at o 33 34 with Num a, Num b => (Qeq_bool a b && negb (Qeq_bool a 1) = true) | _, _ => False end
  | _, _ => False end.
Proof. vm_compute. reflexivity. Qed.
