(** * Numbers of pixels that a tile derives from its own mean pixel size. *)
From Verif Require Import Base BaseLemmas NameModel TerrModel TerrSpec TerrProofs TerrRunProofs TerrProps ShldModel ShldSpec ShldProofs ShldKernProofs ShldRunProofs ShldProps.
Open Scope Z_scope.

(** ** Terrain *)
Lemma qsum_spike l : (forall x, In x l -> (1 <= x)%Q) -> (exists x, In x l /\ (2 <= x)%Q) -> (inject_Z (zlen l) + 1 <= qsum l)%Q.
Proof.
  assert (B : forall l, (forall x, In x l -> (1 <= x)%Q) -> (inject_Z (zlen l) <= qsum l)%Q).
  { induction l0 as [|x l0 IH]; intros H; [apply Qle_refl|]. cbn [qsum fold_right]. fold (qsum l0). unfold zlen. cbn [length]. rewrite Nat2Z.inj_succ.
    unfold Z.succ. rewrite inject_Z_plus. change (inject_Z 1) with 1%Q. specialize (IH (fun y I => H y (or_intror I))). unfold zlen in IH.
    pose proof (H x (or_introl eq_refl)). lra. }
  induction l as [|x l IH]; intros H (y & I & Y); [destruct I|]. cbn [qsum fold_right]. fold (qsum l). unfold zlen in *. cbn [length]. rewrite Nat2Z.inj_succ.
  unfold Z.succ. rewrite inject_Z_plus. change (inject_Z 1) with 1%Q. destruct I as [->|I].
  - specialize (B l (fun z J => H z (or_intror J))). unfold zlen in B. lra.
  - specialize (IH (fun z J => H z (or_intror J)) (ex_intro _ y (conj I Y))). pose proof (H x (or_introl eq_refl)). lra.
Qed.

Lemma mean_spike own l : (forall x, In x l -> (1 <= x)%Q) -> (exists x, In x l /\ (2 <= x)%Q) -> (1 < mean_or own l)%Q.
Proof.
  intros H E. pose proof (qsum_spike l H E) as S. destruct l as [|x l]; [destruct E as (y & [] & _)|].
  change (mean_or own (x :: l)) with (qsum (x :: l) / inject_Z (zlen (x :: l)))%Q.
  assert (P : (0 < inject_Z (zlen (x :: l)))%Q) by (unfold zlen; cbn [length]; unfold Qlt; cbn; lia).
  apply Qlt_shift_div_l; lra.
Qed.

Definition reach_all (fl : Q -> Q) (gw : Q) : Z := fold_right (fun d s => fst (widths fl gw d) + snd (widths fl gw d) + s) 0 dire.
Lemma reach_le fl gw d : fl_ok fl -> (0 < gw)%Q -> fst (widths fl gw d) + snd (widths fl gw d) <= reach_all fl gw.
Proof.
  intros Hf Hg. pose proof (widths_nonneg fl gw Hf Hg) as P. unfold reach_all, dire. cbn [fold_right].
  pose proof (P W_). pose proof (P E_). pose proof (P N_). pose proof (P S_). pose proof (P NW). pose proof (P NE). pose proof (P SE). pose proof (P SW).
  destruct d; lia.
Qed.

(** One class-2 pixel at distance [k] upwind of the middle, class 1 elsewhere. *)
Definition spike_tile (d : dir) (n k : Z) : grid Z :=
  Grid (2 * n + 1) (2 * n + 1) (fun r c => if (r =? fst (up_pixel d k n n)) && (c =? snd (up_pixel d k n n)) then 2 else 1).
Definition spike_table : list (Z * num) := [(1, Num 1); (2, Num 2)].

Lemma up_inj d k m i j : up_pixel d k i j = up_pixel d m i j -> k = m.
Proof. unfold up_pixel. destruct d; cbn; intros H; injection H; lia. Qed.
Lemma up_in d k n : 0 <= k <= n -> 0 <= fst (up_pixel d k n n) < 2 * n + 1 /\ 0 <= snd (up_pixel d k n n) < 2 * n + 1.
Proof. unfold up_pixel. destruct d; cbn [upwind fst snd]; lia. Qed.

Lemma spike_value fl gw d n k : fl_ok fl -> (0 < gw)%Q -> (gw <= 353)%Q -> reach_all fl gw < n -> 0 < k <= n ->
  exists l o q, terrain fl spike_table (spike_tile d n k) gw = Ok (Some l) /\ In (d, o) l /\ g_at o n n = Num q /\
    ((1 < q)%Q <-> snd (widths fl gw d) < k <= snd (widths fl gw d) + fst (widths fl gw d)) /\ (1 <= q)%Q.
Proof.
  intros Hf Hg H353 Hn Hk.
  assert (N : forall d, fst (widths fl gw d) + snd (widths fl gw d) < n) by (intros d'; pose proof (reach_le fl gw d' Hf Hg); lia).
  pose proof (widths_nonneg fl gw Hf Hg) as P.
  assert (N1 : 1 <= n) by (pose proof (N d); pose proof (P d); lia).
  assert (Rn : g_rows (spike_tile d n k) = 2 * n + 1) by reflexivity. assert (Cn : g_cols (spike_tile d n k) = 2 * n + 1) by reflexivity.
  assert (Ln : forall d', snd (widths fl gw d') <> g_rows (spike_tile d n k)) by (intros d'; specialize (N d'); specialize (P d'); lia).
  destruct (C23_completes fl spike_table (spike_tile d n k) gw Hf Hg H353 ltac:(lia) ltac:(lia) Ln) as (r & E).
  destruct r as [l|].
  2:{ exfalso. assert (PT : positive_table spike_table).
      { intros cat v [X|[X|[]]]; injection X as <- <-; eexists; (split; [reflexivity|lra]). }
      pose proof (proj1 (C24_skipped fl spike_table (spike_tile d n k) gw PT ltac:(lia) ltac:(lia)) E 0 0 ltac:(lia) ltac:(lia)) as X.
      apply X. unfold listed, spike_tile. cbn [g_at map spike_table fst]. destruct (_ && _); cbn; tauto. }
  destruct (C21_tile fl spike_table (spike_tile d n k) gw l Hf Hg E) as [_ T]. destruct (T d) as (o & Io & V). cbv zeta in V.
  pose proof (C23_zero_width fl gw d Hf Hg) as [ZW _]. specialize (ZW H353). specialize (N d). specialize (P d).
  set (avg := fst (widths fl gw d)) in *. set (lag := snd (widths fl gw d)) in *.
  destruct V as (R & C & V); [lia|lia|destruct d; lia|].
  set (mult := fun r c => if (r =? fst (up_pixel d k n n)) && (c =? snd (up_pixel d k n n)) then Num 2 else Num 1).
  specialize (V mult n n).
  assert (M : forall r c, class_mult spike_table (g_at (spike_tile d n k) r c) (mult r c)).
  { intros r c. unfold mult, spike_tile. cbn [g_at]. destruct (_ && _); cbn [class_mult]; (split; [|discriminate]).
    - exists [(1, Num 1)], []. split; [reflexivity|intros []].
    - exists [], [(2, Num 2)]. split; [reflexivity|]. cbn. intros [X|[]]. discriminate. }
  specialize (V M ltac:(lia) ltac:(lia)). rewrite Rn, Cn in V.
  assert (Own : exists x, mult n n = Num x /\ (1 <= x <= 2)%Q) by (unfold mult; destruct (_ && _); eexists; (split; [reflexivity|lra])).
  destruct Own as (x & Ex & Hx). rewrite Ex in V. destruct (g_at o n n) as [|q] eqn:Eq; cbn [same_num] in V; [contradiction|].
  exists l, o, q. split; [exact E|]. split; [exact Io|]. split; [exact Eq|].
  set (vs := map _ (fetch d (2 * n + 1) (2 * n + 1) lag avg n n)) in V.
  assert (VS : forall y, In y vs -> (1 <= y)%Q).
  { intros y Iy. unfold vs in Iy. apply in_map_iff in Iy. destruct Iy as (p & <- & _). unfold mult. destruct (_ && _); lra. }
  assert (Inv : snd (widths fl gw d) < k <= snd (widths fl gw d) + fst (widths fl gw d) -> (1 < q)%Q).
  { fold avg lag. intros K. rewrite V. apply mean_spike; [exact VS|]. exists 2%Q. split; [|lra]. unfold vs. apply in_map_iff.
    exists (up_pixel d k n n). split; [unfold mult; rewrite !Z.eqb_refl; reflexivity|]. apply in_fetch. exists k. destruct (up_in d k n ltac:(lia)).
    split; [lia|]. split; [reflexivity|]. split; assumption. }
  assert (One : ~ (snd (widths fl gw d) < k <= snd (widths fl gw d) + fst (widths fl gw d)) -> (q == 1)%Q).
  { fold avg lag. intros K. rewrite V.
    assert (NE : vs <> []).
    { intros X. assert (I : In (up_pixel d (lag + 1) n n) (fetch d (2 * n + 1) (2 * n + 1) lag avg n n)).
      { apply in_fetch. exists (lag + 1). destruct (up_in d (lag + 1) n ltac:(lia)). split; [lia|]. split; [reflexivity|]. split; assumption. }
      unfold vs in X. apply (in_map (fun p => match mult (fst p) (snd p) with Num v => v | NaN => 1%Q end)) in I. rewrite X in I. destruct I. }
    assert (A1 : forall y, In y vs -> (1 <= y <= 1)%Q).
    { intros y Iy. unfold vs in Iy. apply in_map_iff in Iy. destruct Iy as (p & <- & Ip). apply in_fetch in Ip. destruct Ip as (m & Hm & -> & _).
      unfold mult. destruct (_ && _) eqn:Eb; [|lra]. exfalso. apply andb_true_iff in Eb. rewrite !Z.eqb_eq in Eb. destruct Eb as [E1 E2].
      assert (X : up_pixel d m n n = up_pixel d k n n) by (destruct (up_pixel d m n n), (up_pixel d k n n); cbn in *; congruence).
      apply up_inj in X. lia. }
    clearbody vs. clear - NE A1. destruct vs as [|y vs]; [congruence|].
    pose proof (mean_or_bounds 1 1 1 (y :: vs) ltac:(lra) A1) as B. change (mean_or x (y :: vs)) with (mean_or 1 (y :: vs)). lra. }
  destruct (Z_lt_le_dec lag k) as [K1|K1]; [destruct (Z_le_gt_dec k (lag + avg)) as [K2|K2]|].
  - specialize (Inv ltac:(fold avg lag; lia)). split; [|lra]. split; [intros _; fold avg lag; lia|intros _; exact Inv].
  - specialize (One ltac:(fold avg lag; lia)). split; [|lra]. split; [intros X; lra|fold avg lag; lia].
  - specialize (One ltac:(fold avg lag; lia)). split; [|lra]. split; [intros X; lra|fold avg lag; lia].
Qed.

Lemma window_differs a1 l1 a2 l2 : 0 <= l1 -> 0 <= l2 -> 1 <= a1 -> 1 <= a2 -> (a1, l1) <> (a2, l2) ->
  exists k, 0 < k /\ k <= Z.max (l1 + a1) (l2 + a2) /\ ~ (l1 < k <= l1 + a1 <-> l2 < k <= l2 + a2).
Proof.
  intros L1 L2 A1 A2 N. destruct (Z.lt_total l1 l2) as [C|[C|C]].
  - exists (l1 + 1). split; [lia|]. split; [lia|]. lia.
  - subst l2. assert (a1 <> a2) by congruence. exists (l1 + Z.max a1 a2). lia.
  - exists (l2 + 1). split; [lia|]. split; [lia|]. lia.
Qed.

(** ** Shielding *)
(** The shielding cell furthest upwind for a reach of [s] pixels. *)
Definition far_cell (d : dir) (s : Z) : Z * Z :=
  if is_diagonal d then (s * fst (upwind d), snd (upwind d)) else (s * fst (upwind d), s * snd (upwind d)).
Definition dip (d : dir) (s : Z) : grid num :=
  Grid (2 * s + 1) (2 * s + 1) (fun r c => if (r =? s + fst (far_cell d s)) && (c =? s + snd (far_cell d s)) then Num 0 else Num 1).

Lemma far_in d s : 1 <= s -> In (far_cell d s) (shield_cells d s).
Proof.
  intros Hs. unfold far_cell, shield_cells. destruct d; cbn [upwind is_diagonal fst snd]; apply in_flat_map;
    try (exists s; split; [apply in_range2; lia|]; apply in_map_iff; exists 0; split; [f_equal; lia|destruct (s =? 1); cbn; tauto]);
    (exists 1; split; [apply in_range2; lia|]; apply in_map_iff; exists s; split; [f_equal; lia|apply in_range2; lia]).
Qed.

Lemma far_out d s t : 1 <= t < s -> ~ In (far_cell d s) (shield_cells d t).
Proof.
  intros H I. destruct (shield_upwind d t _ I) as (_ & A & B). unfold far_cell in A, B. destruct d; cbn [upwind is_diagonal fst snd] in A, B; lia.
Qed.

Lemma num_sum_dip l : (forall x, In x l -> x = Num 0 \/ x = Num 1) ->
  exists q, num_sum l = Some q /\ (0 <= q)%Q /\ (q <= inject_Z (zlen l))%Q /\ ((~ In (Num 0) l -> q == inject_Z (zlen l)) /\ (In (Num 0) l -> q + 1 <= inject_Z (zlen l)))%Q.
Proof.
  induction l as [|x l IH]; intros H.
  - exists 0%Q. split; [reflexivity|]. split; [lra|]. split; [apply Qle_refl|]. split; [reflexivity|intros []].
  - destruct IH as (q & E & Q0 & Q1 & Q2 & Q3); [intros y I; apply H; right; exact I|].
    assert (L : (inject_Z (zlen (x :: l)) == inject_Z (zlen l) + 1)%Q).
    { unfold zlen. cbn [length]. rewrite Nat2Z.inj_succ. unfold Z.succ. rewrite inject_Z_plus. reflexivity. }
    destruct (H x (or_introl eq_refl)) as [->| ->]; cbn [num_sum]; rewrite E; eexists; (split; [reflexivity|]).
    + split; [lra|]. split; [lra|]. split; [intros X; exfalso; apply X; left; reflexivity|]. intros _. lra.
    + split; [lra|]. split; [lra|]. split.
      * intros X. rewrite Q2; [lra|]. intros Y. apply X. right. exact Y.
      * intros [X|X]; [discriminate|]. specialize (Q3 X). lra.
Qed.

Lemma shield_cells_pos d s : 1 <= s -> (0 < inject_Z (zlen (shield_cells d s)))%Q.
Proof. intros Hs. pose proof (far_in d s Hs) as I. destruct (shield_cells d s); [destruct I|]. unfold zlen. cbn [length]. unfold Qlt. cbn. lia. Qed.

Lemma less_cons_lt v : (0 <= v)%Q -> (v < 1)%Q -> (less_conservative v < 1)%Q.
Proof. intros H0 H1. unfold less_conservative. destruct (Qltb v (9#10)); nra. Qed.

Lemma dip_value d s t : 1 <= t <= s ->
  exists q, g_at (combine d (Grid (2 * s + 1) (2 * s + 1) (fun _ _ => Num 0)) (Grid (2 * s + 1) (2 * s + 1) (fun _ _ => 9)) (blur (dip d s) (kern d t))) s s = Num q /\
    (t < s -> (q == 1)%Q) /\ (t = s -> (q < 1)%Q).
Proof.
  intros Ht. pose proof (C30_mean d t (dip d s) s s ltac:(lia)) as M. set (l := map _ (shield_cells d t)) in M.
  assert (S : forall p, In p (shield_cells d t) -> seen (dip d s) (s + fst p) (s + snd p) = if (fst p =? fst (far_cell d s)) && (snd p =? snd (far_cell d s)) then Num 0 else Num 1).
  { intros p Ip. destruct (shield_upwind d t p Ip) as (_ & A & B). unfold seen, inside, dip. cbn [g_rows g_cols g_at fst snd].
    assert (G : (0 <=? s + fst p) && (s + fst p <? 2 * s + 1) && (0 <=? s + snd p) && (s + snd p <? 2 * s + 1) = true).
    { rewrite !andb_true_iff, !Z.leb_le, !Z.ltb_lt. lia. }
    rewrite G. replace (s + fst p =? s + fst (far_cell d s)) with (fst p =? fst (far_cell d s)) by (destruct (Z.eqb_spec (fst p) (fst (far_cell d s))); symmetry; [apply Z.eqb_eq|apply Z.eqb_neq]; lia).
    replace (s + snd p =? s + snd (far_cell d s)) with (snd p =? snd (far_cell d s)) by (destruct (Z.eqb_spec (snd p) (snd (far_cell d s))); symmetry; [apply Z.eqb_eq|apply Z.eqb_neq]; lia).
    reflexivity. }
  destruct (num_sum_dip l) as (q & E & Q0 & Q1 & Q2 & Q3).
  { intros x Ix. unfold l in Ix. apply in_map_iff in Ix. destruct Ix as (p & <- & Ip). rewrite (S p Ip). destruct (_ && _); tauto. }
  assert (Z0 : In (Num 0) l <-> t = s).
  { split.
    - intros I. unfold l in I. apply in_map_iff in I. destruct I as (p & Ep & Ip). rewrite (S p Ip) in Ep. destruct (_ && _) eqn:B; [|discriminate].
      apply andb_true_iff in B. rewrite !Z.eqb_eq in B. destruct B as [B1 B2]. assert (p = far_cell d s) as -> by (destruct p, (far_cell d s); cbn in *; congruence).
      destruct (Z.eq_dec t s); [assumption|]. exfalso. exact (far_out d s t ltac:(lia) Ip).
    - intros ->. unfold l. apply in_map_iff. exists (far_cell d s). pose proof (far_in d s ltac:(lia)) as I. split; [|exact I]. rewrite (S _ I), !Z.eqb_refl. reflexivity. }
  assert (Len : zlen l = zlen (shield_cells d t)) by (unfold l, zlen; rewrite map_length; reflexivity).
  pose proof (shield_cells_pos d t ltac:(lia)) as LP. rewrite <- Len in LP. unfold num_mean in M. rewrite E in M.
  cbn [combine g_at]. destruct (g_at (blur (dip d s) (kern d t)) s s) as [|v]; cbn [same_num] in M; [contradiction|].
  destruct (C33_no_correction d 0 9 v ltac:(lra)) as (w & -> & W). exists w. split; [reflexivity|]. split.
  - intros T. assert (V : (v == 1)%Q) by (rewrite M, Q2 by (rewrite Z0; lia); field; lra).
    rewrite W. unfold less_conservative. rewrite (proj2 (Qltb_ge v (9#10))) by lra. rewrite V. reflexivity.
  - intros T. specialize (Q3 (proj2 Z0 T)). rewrite W. apply less_cons_lt.
    + rewrite M. apply Qle_shift_div_l; lra.
    + rewrite M. apply Qlt_shift_div_r; lra.
Qed.

(** ** Larger pixels, fewer of them *)
Lemma np_around_mono x y : (x <= y)%Q -> np_around x <= np_around y.
Proof.
  intros H. unfold np_around. cbv zeta. pose proof (Qfloor_resp_le x y H) as F.
  destruct (Z.eq_dec (Qfloor x) (Qfloor y)) as [E|E].
  - rewrite E. destruct (Qltb (x - inject_Z (Qfloor y)) (1#2)) eqn:A; [repeat (destruct (Qltb _ _) || destruct (Z.even _)); lia|].
    apply Qltb_ge in A. rewrite (proj2 (Qltb_ge (y - inject_Z (Qfloor y)) (1#2))) by lra.
    destruct (Qltb (1#2) (x - inject_Z (Qfloor y))) eqn:B; [|repeat (destruct (Qltb _ _) || destruct (Z.even _)); lia].
    apply Qltb_lt in B. rewrite (proj2 (Qltb_lt (1#2) (y - inject_Z (Qfloor y)))) by lra. lia.
  - assert (A : Qfloor x + 1 <= Qfloor y) by lia.
    repeat match goal with |- context [if ?b then _ else _] => destruct b end; lia.
Qed.

Lemma div_antitone a g h : (0 <= a)%Q -> (0 < g)%Q -> (g <= h)%Q -> (a / h <= a / g)%Q.
Proof.
  intros Ha Hg H. apply Qle_shift_div_r; [lra|]. assert (E : (a / g * h == a * (h / g))%Q) by (field; lra). rewrite E.
  assert (1 <= h / g)%Q by (apply Qle_shift_div_l; lra). nra.
Qed.

Lemma widths_antitone fl gw1 gw2 d : fl_ok fl -> (0 < gw1)%Q -> (gw1 <= gw2)%Q ->
  fst (widths fl gw2 d) <= fst (widths fl gw1 d) /\ snd (widths fl gw2 d) <= snd (widths fl gw1 d).
Proof.
  intros Hf Hg H. unfold widths. destruct (is_cardinal d); cbn [fst snd].
  - split; apply np_around_mono, (fl_mono fl Hf), div_antitone; lra.
  - cbv zeta. assert (C : (0 < fl (1414#1000))%Q) by (apply (BaseLemmas.fl_pos fl Hf); lra).
    assert (G1 : (0 < fl (gw1 * fl (1414#1000)))%Q) by (apply (BaseLemmas.fl_pos fl Hf); nra).
    assert (G2 : (fl (gw1 * fl (1414#1000)) <= fl (gw2 * fl (1414#1000)))%Q) by (apply (fl_mono fl Hf); nra).
    set (g1 := fl (gw1 * _)%Q) in *. set (g2 := fl (gw2 * _)%Q) in *. cbn [fst snd].
    assert (K : forall a, (0 < a)%Q -> py_int (fl (a / g2)%Q) <= py_int (fl (a / g1)%Q)).
    { intros a Ha. rewrite !py_int_nonneg by (apply (BaseLemmas.fl_nonneg fl Hf), Qlt_le_weak, Qlt_shift_div_l; lra).
      apply Qfloor_resp_le, (fl_mono fl Hf), div_antitone; lra. }
    split; apply K; lra.
Qed.

Lemma kernel_antitone fl gw1 gw2 : fl_ok fl -> (0 < gw1)%Q -> (gw1 <= gw2)%Q -> kernel_size fl gw2 <= kernel_size fl gw1.
Proof.
  intros Hf Hg H. unfold kernel_size. rewrite !py_int_nonneg by (apply (BaseLemmas.fl_nonneg fl Hf), Qlt_le_weak, Qlt_shift_div_l; lra).
  apply Qfloor_resp_le, (fl_mono fl Hf), div_antitone; lra.
Qed.
