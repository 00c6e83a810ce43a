(** * C90: what a change of the land cover or of a table does. *)
From Coq Require Import Qabs.
From Verif Require Import Base BaseLemmas NameModel TerrModel TerrSpec TerrProofs TerrRunProofs ShldModel ShldSpec ShldProofs ShldKernProofs ShldRunProofs ShldProps SensSpec SensProofs.
Open Scope Z_scope.

(** Two runs of the terrain stage on rasters of one size, with any land covers and
    tables.  If the multiplier of the second is at no pixel smaller, then no terrain
    multiplier of the second is smaller, in any direction. *)
Theorem C90_terrain_monotone fl table table' data data' gw l l' d o o' m m' i j : fl_ok fl -> (0 < gw)%Q ->
  g_rows data' = g_rows data -> g_cols data' = g_cols data ->
  (forall r c, 0 <= r < g_rows data -> 0 <= c < g_cols data ->
     class_mult table (g_at data r c) (m r c) /\ class_mult table' (g_at data' r c) (m' r c) /\ no_smaller (m r c) (m' r c)) ->
  terrain fl table data gw = Ok (Some l) -> terrain fl table' data' gw = Ok (Some l') -> In (d, o) l -> In (d, o') l' ->
  0 <= i < g_rows data -> 0 <= j < g_cols data -> no_smaller (g_at o i j) (g_at o' i j).
Proof.
  intros Hf Hg Er Ec H E E' I I' Hi Hj. apply no_smaller_at. apply (terrain_shift 0 fl table table' data data' gw l l' d o o' m m' i j); try assumption; [lra|].
  intros r c Hr Hc. destruct (H r c Hr Hc) as (A & B & C). apply no_smaller_at in C. auto.
Qed.
Print Assumptions C90_terrain_monotone.

(** If the multipliers differ by at most [e] at every pixel, so do the results. *)
Theorem C90_terrain_error fl table table' data data' gw l l' d o o' m m' i j e : fl_ok fl -> (0 < gw)%Q -> (0 <= e)%Q ->
  g_rows data' = g_rows data -> g_cols data' = g_cols data ->
  (forall r c, 0 <= r < g_rows data -> 0 <= c < g_cols data ->
     class_mult table (g_at data r c) (m r c) /\ class_mult table' (g_at data' r c) (m' r c) /\ within e (m r c) (m' r c)) ->
  terrain fl table data gw = Ok (Some l) -> terrain fl table' data' gw = Ok (Some l') -> In (d, o) l -> In (d, o') l' ->
  0 <= i < g_rows data -> 0 <= j < g_cols data -> within e (g_at o i j) (g_at o' i j).
Proof.
  intros Hf Hg He Er Ec H E E' I I' Hi Hj. apply within_at. split.
  - apply (terrain_shift (- e) fl table table' data data' gw l l' d o o' m m' i j); try assumption; [lra|].
    intros r c Hr Hc. destruct (H r c Hr Hc) as (A & B & C). apply within_at in C. tauto.
  - apply (terrain_shift (- e) fl table' table data' data gw l' l d o' o m' m i j); try assumption; try lra; try congruence; try lia.
    intros r c Hr Hc. rewrite Er in Hr. rewrite Ec in Hc. destruct (H r c Hr Hc) as (A & B & C). apply within_at in C. tauto.
Qed.
Print Assumptions C90_terrain_error.

(** Shielding, pixels up to 100 m, no class of the land cover declared missing. *)
Lemma shield_at slope_fn aspect_fn fl cast table t dnd dem px py xm ym gw d o i j : fl_ok fl -> (0 < gw <= 100)%Q ->
  In (d, o) (shield slope_fn aspect_fn fl cast table None t dnd dem px py xm ym gw) ->
  exists b w, (0 <= w <= 1)%Q /\ 
    (b, w) = (let '(sl, asp) := get_slope_aspect slope_fn aspect_fn dnd dem px py xm ym in (g_at asp i j =? dire_aspect d, match g_at sl i j with Num s => slope_weight s | NaN => 0%Q end)) /\
    1 <= kernel_size fl gw /\
    same_num (g_at o i j) (match num_mean (map (fun p => seen (class2ms cast None table t) (i + fst p) (j + snd p)) (shield_cells d (kernel_size fl gw))) with
      | NaN => NaN | Num v => Num (less_conservative (if b : bool then v + w * (1 - v) else v)) end).
Proof.
  intros Hf Hg I. pose proof (C31_tile slope_fn aspect_fn fl cast table None t dnd dem px py xm ym gw Hf (proj1 Hg) (proj2 Hg)) as T.
  destruct (get_slope_aspect slope_fn aspect_fn dnd dem px py xm ym) as [sl asp]. cbv zeta in T. destruct T as [N T]. destruct (T d) as (o' & Io & _ & _ & V).
  assert (o' = o).
  { revert N I Io. generalize (shield slope_fn aspect_fn fl cast table None t dnd dem px py xm ym gw). intros L N I Io.
    induction L as [|[a x] L IH]; [destruct I|]. cbn [map fst] in N. inversion N as [|? ? N1 N2]; subst.
    destruct I as [I|I], Io as [Io|Io]; try congruence.
    - injection I as -> ->. exfalso. apply N1. apply (in_map fst) in Io. exact Io.
    - injection Io as -> ->. exfalso. apply N1. apply (in_map fst) in I. exact I.
    - apply IH; assumption. }
  subst o'. exists (g_at asp i j =? dire_aspect d), (match g_at sl i j with Num s => slope_weight s | NaN => 0%Q end).
  split; [destruct (g_at sl i j); [lra|apply slope_weight_range]|]. split; [reflexivity|]. split; [apply kernel_size_fine; tauto|]. exact (V i j).
Qed.

(** A land cover or table that gives no pixel a smaller initial shielding gives
    none a smaller shielding multiplier. *)
Theorem C90_shielding_monotone slope_fn aspect_fn fl cast table table' t t' dnd dem px py xm ym gw d o o' q q' i j : fl_ok fl -> (0 < gw <= 100)%Q ->
  g_rows t' = g_rows t -> g_cols t' = g_cols t ->
  (forall r c, 0 <= r < g_rows t -> 0 <= c < g_cols t ->
    g_at t r c <> -99 /\ g_at t' r c <> -99 /\ initial_shielding table (g_at t r c) (q r c) /\ initial_shielding table' (g_at t' r c) (q' r c)) ->
  (forall r c, 0 <= r < g_rows t -> 0 <= c < g_cols t -> (0 <= q r c <= q' r c)%Q /\ (q' r c <= 1)%Q) ->
  In (d, o) (shield slope_fn aspect_fn fl cast table None t dnd dem px py xm ym gw) ->
  In (d, o') (shield slope_fn aspect_fn fl cast table' None t' dnd dem px py xm ym gw) ->
  exists a b, g_at o i j = Num a /\ g_at o' i j = Num b /\ (0 <= a <= b)%Q /\ (b <= 1)%Q.
Proof.
  intros Hf Hg Er Ec H Hq I I'. destruct (shield_at _ _ _ _ _ _ _ _ _ _ _ _ _ _ _ i j Hf Hg I) as (b & w & Hw & Eb & Hk & V).
  destruct (shield_at _ _ _ _ _ _ _ _ _ _ _ _ _ _ _ i j Hf Hg I') as (b' & w' & _ & Eb' & _ & V'). rewrite <- Eb in Eb'. injection Eb' as -> ->. clear Eb.
  pose proof (mean_shift cast table table' t t' q q' Er Ec H 0 d (kernel_size fl gw) i j ltac:(lra) Hk) as S.
  destruct (mean_unit cast table table' t t' q q' H d (kernel_size fl gw) i j Hk) as (v & Ev & Bv); [intros r c Hr Hc; destruct (Hq r c Hr Hc); lra|].
  assert (H' : forall r c, 0 <= r < g_rows t' -> 0 <= c < g_cols t' ->
    g_at t' r c <> -99 /\ g_at t r c <> -99 /\ initial_shielding table' (g_at t' r c) (q' r c) /\ initial_shielding table (g_at t r c) (q r c)).
  { intros r c Hr Hc. rewrite Er in Hr. rewrite Ec in Hc. destruct (H r c Hr Hc) as (A & B & C & D). auto. }
  destruct (mean_unit cast table' table t' t q' q H' d (kernel_size fl gw) i j Hk) as (v' & Ev' & Bv'); [intros r c Hr Hc; rewrite Er in Hr; rewrite Ec in Hc; destruct (Hq r c Hr Hc); lra|].
  rewrite Ev in V, S. rewrite Ev' in V', S. cbn [at_least] in S. assert (S' : (0 <= v' - v)%Q) by (apply S; intros r c Hr Hc; destruct (Hq r c Hr Hc); lra).
  destruct (g_at o i j) as [|a]; cbn in V; [contradiction|]. destruct (g_at o' i j) as [|a']; cbn in V'; [contradiction|]. exists a, a'. split; [reflexivity|]. split; [reflexivity|].
  rewrite V, V'. pose proof (corrected_unit w v Hw Bv) as U. pose proof (corrected_unit w v' Hw Bv') as U'. pose proof (corrected_shift 0 w v v' Hw ltac:(lra) ltac:(lra)) as C.
  set (x := if b then (v + w * (1 - v))%Q else v). set (y := if b then (v' + w * (1 - v'))%Q else v'). assert (X : (0 <= x /\ x <= y /\ y <= 1)%Q) by (unfold x, y; destruct b; lra).
  pose proof (less_cons_mono 0 x ltac:(lra) ltac:(lra)) as L0. pose proof (less_cons_mono x y ltac:(lra) ltac:(lra)) as L1. pose proof (less_cons_mono y 1 ltac:(lra) ltac:(lra)) as L2.
  change (less_conservative 0) with ((9#10) * 0)%Q in L0. change (less_conservative 1) with (1 * 1)%Q in L2. lra.
Qed.
Print Assumptions C90_shielding_monotone.

(** Initial shieldings between 0 and 1 that differ by at most [e] give results that differ by at most 2 e. *)
Theorem C90_shielding_error slope_fn aspect_fn fl cast table table' t t' dnd dem px py xm ym gw d o o' q q' i j e : fl_ok fl -> (0 < gw <= 100)%Q -> (0 <= e)%Q ->
  g_rows t' = g_rows t -> g_cols t' = g_cols t ->
  (forall r c, 0 <= r < g_rows t -> 0 <= c < g_cols t ->
    g_at t r c <> -99 /\ g_at t' r c <> -99 /\ initial_shielding table (g_at t r c) (q r c) /\ initial_shielding table' (g_at t' r c) (q' r c)) ->
  (forall r c, 0 <= r < g_rows t -> 0 <= c < g_cols t -> (0 <= q r c <= 1)%Q /\ (0 <= q' r c <= 1)%Q /\ (Qabs (q r c - q' r c) <= e)%Q) ->
  In (d, o) (shield slope_fn aspect_fn fl cast table None t dnd dem px py xm ym gw) ->
  In (d, o') (shield slope_fn aspect_fn fl cast table' None t' dnd dem px py xm ym gw) ->
  exists a b, g_at o i j = Num a /\ g_at o' i j = Num b /\ (Qabs (a - b) <= 2 * e)%Q.
Proof.
  intros Hf Hg He Er Ec H Hq I I'. destruct (shield_at _ _ _ _ _ _ _ _ _ _ _ _ _ _ _ i j Hf Hg I) as (b & w & Hw & Eb & Hk & V).
  destruct (shield_at _ _ _ _ _ _ _ _ _ _ _ _ _ _ _ i j Hf Hg I') as (b' & w' & _ & Eb' & _ & V'). rewrite <- Eb in Eb'. injection Eb' as -> ->. clear Eb.
  assert (H' : forall r c, 0 <= r < g_rows t' -> 0 <= c < g_cols t' ->
    g_at t' r c <> -99 /\ g_at t r c <> -99 /\ initial_shielding table' (g_at t' r c) (q' r c) /\ initial_shielding table (g_at t r c) (q r c)).
  { intros r c Hr Hc. rewrite Er in Hr. rewrite Ec in Hc. destruct (H r c Hr Hc) as (A & B & C & D). auto. }
  pose proof (mean_shift cast table table' t t' q q' Er Ec H (- e) d (kernel_size fl gw) i j ltac:(lra) Hk) as S.
  pose proof (mean_shift cast table' table t' t q' q (eq_sym Er) (eq_sym Ec) H' (- e) d (kernel_size fl gw) i j ltac:(lra) Hk) as S'.
  destruct (mean_unit cast table table' t t' q q' H d (kernel_size fl gw) i j Hk) as (v & Ev & Bv); [intros r c Hr Hc; destruct (Hq r c Hr Hc); lra|].
  destruct (mean_unit cast table' table t' t q' q H' d (kernel_size fl gw) i j Hk) as (v' & Ev' & Bv'); [intros r c Hr Hc; rewrite Er in Hr; rewrite Ec in Hc; destruct (Hq r c Hr Hc); lra|].
  rewrite Ev in V, S, S'. rewrite Ev' in V', S, S'. cbn [at_least] in S, S'.
  assert (S1 : (- e <= v' - v)%Q) by (apply S; intros r c Hr Hc; destruct (Hq r c Hr Hc) as (_ & _ & A); apply Qabs_Qle_condition in A; lra).
  assert (S2 : (- e <= v - v')%Q) by (apply S'; intros r c Hr Hc; rewrite Er in Hr; rewrite Ec in Hc; destruct (Hq r c Hr Hc) as (_ & _ & A); apply Qabs_Qle_condition in A; lra).
  destruct (g_at o i j) as [|a]; cbn in V; [contradiction|]. destruct (g_at o' i j) as [|a']; cbn in V'; [contradiction|]. exists a, a'. split; [reflexivity|]. split; [reflexivity|].
  rewrite V, V'. pose proof (corrected_unit w v Hw Bv) as U. pose proof (corrected_unit w v' Hw Bv') as U'. pose proof (corrected_shift e w v v' Hw S1 He) as C. pose proof (corrected_shift e w v' v Hw S2 He) as C'.
  set (x := if b then (v + w * (1 - v))%Q else v). set (y := if b then (v' + w * (1 - v'))%Q else v').
  assert (X : (0 <= x <= 1 /\ 0 <= y <= 1 /\ - e <= y - x /\ - e <= x - y)%Q) by (unfold x, y; destruct b; lra).
  apply Qabs_Qle_condition. destruct (Qlt_le_dec x y) as [L|L].
  - pose proof (less_cons_mono x y ltac:(lra) ltac:(lra)). pose proof (less_cons_lipschitz x y ltac:(lra) ltac:(lra) ltac:(lra)). lra.
  - pose proof (less_cons_mono y x ltac:(lra) ltac:(lra)). pose proof (less_cons_lipschitz y x ltac:(lra) ltac:(lra) ltac:(lra)). lra.
Qed.
Print Assumptions C90_shielding_error.

(** ** Concrete cases: flat ground, 60 m pixels.  Class 1 with 95 % in one table and 100 % in
    the other. *)
Definition flat_run (p : Q) : list (dir * grid num) :=
  shield (fun _ _ => 0%Q) (fun _ _ => 0%Q) (fun x => x) (fun x => x) [(1, p)] None (Grid 3 3 (fun _ _ => 1)) None (Grid 3 3 (fun _ _ => Num 0)) 1 1
    (Grid 3 3 (fun _ _ => 60%Q)) (Grid 3 3 (fun _ _ => 60%Q)) 60.
(** The factor is needed: a change of 1/20 in the table changes a shielding multiplier by more
    than 1/20. *)
Theorem C90_no_growth_refuted : exists o o' a b, In (N_, o) (flat_run 95) /\ In (N_, o') (flat_run 100) /\
  initial_shielding [(1, 95%Q)] 1 (95#100) /\ initial_shielding [(1, 100%Q)] 1 1 /\ (Qabs ((95#100) - 1) <= 1#20)%Q /\
  g_at o 1 1 = Num a /\ g_at o' 1 1 = Num b /\ (1#20 < Qabs (a - b))%Q.
Proof.
  do 4 eexists. split; [right; right; left; reflexivity|]. split; [right; right; left; reflexivity|].
  split; [left; exists [], [], 95%Q; split; [reflexivity|]; split; [intros []|reflexivity]|]. split; [left; exists [], [], 100%Q; split; [reflexivity|]; split; [intros []|reflexivity]|].
  split; [vm_compute; discriminate|]. split; [vm_compute; reflexivity|]. split; [vm_compute; reflexivity|]. vm_compute. reflexivity.
Qed.
Print Assumptions C90_no_growth_refuted.
Example C90_ex : class_mult [(1, Num (3#4)); (2, Num 1)] 1 (Num (3#4)) /\ class_mult [(1, Num (4#5)); (2, Num 1)] 1 (Num (4#5)) /\
  no_smaller (Num (3#4)) (Num (4#5)) /\ within (1#20) (Num (3#4)) (Num (4#5)) /\
  (exists l, terrain (fun x => x) [(1, Num (3#4)); (2, Num 1)] (Grid 3 3 (fun r _ => 1 + r mod 2)) 250 = Ok (Some l)) /\
  (exists l, terrain (fun x => x) [(1, Num (4#5)); (2, Num 1)] (Grid 3 3 (fun r _ => 1 + r mod 2)) 250 = Ok (Some l)).
Proof.
  split; [split; [exists [], [(2, Num 1)]; split; [reflexivity|]; cbn; intuition discriminate|discriminate]|].
  split; [split; [exists [], [(2, Num 1)]; split; [reflexivity|]; cbn; intuition discriminate|discriminate]|].
  split; [vm_compute; discriminate|]. split; [vm_compute; discriminate|]. split; eexists; reflexivity.
Qed.
