(** * Theorems about the topographic multiplier (C35-C45). *)
From Coq Require Import Permutation Sorted.
From Verif Require Import Base BaseLemmas Rounding NameModel TerrSpec TopoModel TopoSpec TopoLineProofs TopoMhProofs TopoCalcProofs TopoHillProofs TopoPathProofs TopoRunProofs TopoStageProofs.
Open Scope Z_scope.

(** ** C35: ridges. *)
Theorem C35_ridges y : 2 <= zlen y ->
  exists l, findpeaks y = Ok l /\ ascending l /\ forall i, In i l <-> is_ridge y i.
Proof. intros H. destruct (findpeaks_spec y H) as (l & E & S & I). exists l. split; [exact E|]. split; [apply sorted_ascending; exact S|exact I]. Qed.
Print Assumptions C35_ridges.
Theorem C35_flat y : 2 <= zlen y -> (forall i, 0 <= i < zlen y -> (elev_at y i == elev_at y 0)%Q) -> findpeaks y = Ok [].
Proof.
  intros H F. destruct (findpeaks_spec y H) as (l & E & _ & I). rewrite E. destruct l as [|i l]; [reflexivity|]. exfalso.
  assert (R : is_ridge y i) by (apply I; left; reflexivity). unfold is_ridge, first_falls, last_pt in R. destruct R as [(_ & j & Hj & _ & L)|(Hi & L & _)].
  - rewrite (F j), (F (j + 1)) in L by lia. lra.
  - rewrite (F i), (F (i - 1)) in L by lia. lra.
Qed.
Print Assumptions C35_flat.
Example C35_ex : findpeaks [1; 1; 2; 2; 1; 0; 0; 3]%Q = Ok [2; 7].
Proof. reflexivity. Qed.

(** ** C36: valleys. *)
Theorem C36_valleys y : 2 <= zlen y ->
  exists l, findvalleys y = Ok l /\ ascending l /\ forall i, In i l <-> is_valley y i.
Proof. intros H. destruct (findvalleys_spec y H) as (l & E & S & I). exists l. split; [exact E|]. split; [apply sorted_ascending; exact S|exact I]. Qed.
Print Assumptions C36_valleys.
Example C36_ex : findvalleys [1; 1; 2; 2; 1; 0; 0; 3]%Q = Ok [1; 6].
Proof. reflexivity. Qed.

(** ** C37: alternation and pairing. *)
Theorem C37_alternate y r r' : is_ridge y r -> is_ridge y r' -> r < r' -> (forall i, r < i < r' -> ~ is_ridge y i) ->
  exists v, (is_valley y v /\ r < v < r' /\ (elev_at y v < elev_at y r')%Q) /\ forall w, is_valley y w -> r < w < r' -> w = v.
Proof.
  intros H H' L C. assert (P : 0 <= r) by (destruct H as [[-> _]|[X _]]; lia). destruct (ridge_run y r' H' ltac:(lia)) as (v & Rv).
  pose proof (run_climbs y v r' Rv) as Cl.
  assert (B : r < v).
  { destruct H as [[-> (j & Hj & Fl & Dn)]|H].
    - destruct (Z_lt_ge_dec 0 v) as [X|X]; [exact X|]. exfalso. destruct Rv as (A & _ & Up & _). assert (v = 0) as -> by lia.
      destruct (Z_le_gt_dec r' j) as [Y|Y].
      + pose proof (Up 0 ltac:(lia)) as U. rewrite (Fl (0 + 1)) in U by lia. lra.
      + pose proof (Up j ltac:(lia)). lra.
    - assert (I : is_ridge y r) by (right; exact H). destruct (ridge_run y r I ltac:(lia)) as (u & Ru).
      destruct (Z.lt_trichotomy u v) as [X|[X|X]]; [exact (runs_ordered y u r v r' Ru Rv X)| |].
      + subst u. exfalso. destruct Ru as (A & A2 & _ & _ & E), Rv as (B1 & B2 & Up & _). specialize (Up r ltac:(lia)). destruct E as [E|E]; [lia|lra].
      + pose proof (runs_ordered y v r' u r Rv Ru X). destruct Ru as (A & _). lia. }
  exists v. split.
  - split; [apply (run_valley y v r' Rv)|]. split; [destruct Rv as (A & _); lia|exact Cl].
  - intros w Hw Bw. assert (Lw : w < last_pt y) by (destruct Rv as (_ & X & _); lia). destruct (valley_run y w Hw Lw) as (s & Rw).
    destruct (Z.lt_trichotomy w v) as [X|[X|X]]; [|exact X|].
    + exfalso. pose proof (runs_ordered y w s v r' Rw Rv X). apply (C s); [destruct Rw as (A & _), Rv as (A' & _); lia|]. apply (run_ridge y w s Rw).
    + exfalso. pose proof (runs_ordered y v r' w s Rv Rw X). lia.
Qed.
Print Assumptions C37_alternate.
(** The lists the line computation walks through: apart from a leading ridge at
    0 and a trailing valley at the last point, the i-th ridge and the i-th
    valley are the two ends of the same strictly rising stretch. *)
Theorem C37_pairs y : 2 <= zlen y -> exists V R va ra,
  findpeaks y = Ok (ra ++ R) /\ findvalleys y = Ok (V ++ va) /\ Forall2 (rising_run y) V R /\
  ((ra = [0] /\ first_falls y) \/ (ra = [] /\ ~ first_falls y)) /\
  ((va = [last_pt y] /\ last_falls y) \/ (va = [] /\ ~ last_falls y)).
Proof. exact (pairing y). Qed.
Print Assumptions C37_pairs.
(** No index error, no division by zero, whatever the line (also shorter than 2). *)
Theorem C37_safe fl M line ds : fl_line fl M -> 1 <= M -> (0 < ds)%Q -> zlen line <= M ->
  exists m, multiplier_calc fl line ds = Ok m /\ zlen m = zlen line.
Proof. intros H H1 Hd HL. destruct (multiplier_calc_spec fl M H H1 line ds Hd HL) as (m & E & L & _). exists m. auto. Qed.
Print Assumptions C37_safe.
Example C37_ex : is_ridge [1; 0; 3; 2; 4]%Q 2 /\ is_ridge [1; 0; 3; 2; 4]%Q 4 /\ is_valley [1; 0; 3; 2; 4]%Q 3 /\ rising_run [1; 0; 3; 2; 4]%Q 3 4.
Proof.
  assert (R : rising_run [1; 0; 3; 2; 4]%Q 3 4).
  { unfold rising_run. replace (last_pt [1; 0; 3; 2; 4]%Q) with 4 by reflexivity. split; [lia|]. split; [lia|].
    split; [intros k Hk; assert (k = 3) as -> by lia; reflexivity|]. split; [right; discriminate|left; reflexivity]. }
  split; [|split; [|split; [|exact R]]].
  - right. replace (last_pt [1; 0; 3; 2; 4]%Q) with 4 by reflexivity. split; [lia|]. split; [reflexivity|right; discriminate].
  - apply (run_ridge _ _ _ R).
  - apply (run_valley _ _ _ R).
Qed.

(** ** C38: bounds along a line. *)
Theorem C38_bounds fl M line ds : fl_line fl M -> 1 <= M -> (0 < ds)%Q -> zlen line <= M ->
  exists m, multiplier_calc fl line ds = Ok m /\ zlen m = zlen line /\
    forall i, 0 <= i < zlen line -> (1 <= nth (Z.to_nat i) m 0 <= fl (171#100))%Q.
Proof. intros H H1 Hd HL. destruct (multiplier_calc_spec fl M H H1 line ds Hd HL) as (m & E & L & _ & B). exists m. split; [exact E|]. split; [exact L|]. intros i Hi. apply B. exact Hi. Qed.
Print Assumptions C38_bounds.
(** Exact arithmetic, and IEEE double precision. *)
Theorem C38_exact line ds : (0 < ds)%Q ->
  exists m, multiplier_calc (fun x => x) line ds = Ok m /\ zlen m = zlen line /\
    forall i, 0 <= i < zlen line -> (1 <= nth (Z.to_nat i) m 0 <= 171#100)%Q.
Proof. intros Hd. exact (C38_bounds (fun x => x) (Z.max 1 (zlen line)) line ds (fl_line_id _) ltac:(lia) Hd ltac:(lia)). Qed.
Print Assumptions C38_exact.
Lemma line_53 : fl_line rnd53 (2 ^ 53).
Proof. apply fl_line_of_ok; [exact rnd53_fl_ok|]. vm_compute. discriminate. Qed.
Theorem C38_double line ds : (0 < ds)%Q -> zlen line <= 2 ^ 53 ->
  exists m, multiplier_calc rnd53 line ds = Ok m /\ zlen m = zlen line /\
    forall i, 0 <= i < zlen line -> (1 <= nth (Z.to_nat i) m 0 <= rnd53 (171#100))%Q.
Proof. intros Hd HL. exact (C38_bounds rnd53 (2 ^ 53) line ds line_53 ltac:(lia) Hd HL). Qed.
Print Assumptions C38_double.
Theorem C38_no_rise fl M line ds : fl_line fl M -> 1 <= M -> (0 < ds)%Q -> zlen line <= M ->
  (forall k, 0 <= k < zlen line - 1 -> (elev_at line (k + 1) <= elev_at line k)%Q) ->
  exists m, multiplier_calc fl line ds = Ok m /\ zlen m = zlen line /\ forall i, 0 <= i < zlen line -> (nth (Z.to_nat i) m 0 == 1)%Q.
Proof.
  intros H H1 Hd HL D. apply (no_rise fl M H H1 line ds Hd HL). intros k Hk. unfold zlen in Hk.
  assert (F : forall i, 0 <= i < zlen line -> elev_at (floors line) i = inject_Z (Qfloor (elev_at line i))).
  { intros i Hi. unfold elev_at, floors. rewrite (nth_indep _ 0%Q (inject_Z (Qfloor 0))) by (rewrite map_length; unfold zlen in Hi; lia). apply (map_nth (fun q => inject_Z (Qfloor q))). }
  rewrite !F by (unfold zlen; lia). rewrite <- Zle_Qle. apply Qfloor_resp_le. apply D. unfold zlen. lia.
Qed.
Print Assumptions C38_no_rise.
Example C38_ex : exists m, multiplier_calc (fun x => x) [0; 50; 100; 100; 0]%Q 30 = Ok m /\ (1 < nth 2 m 0)%Q /\ (1 < nth 3 m 0)%Q.
Proof. eexists. split; [vm_compute; reflexivity|]. split; reflexivity. Qed.

(** ** C39: the downwind stretch. *)
Theorem C39_bounds fl M y v r ds : fl_line fl M -> 1 <= M -> 0 <= v < r -> r <= last_pt y -> (0 < ds)%Q -> (elev_at y v < elev_at y r)%Q ->
  exists e, escarpment_factor fl y r v ds = Ok e /\ ((1#2) <= e <= 3)%Q.
Proof. intros H H1. exact (escarpment_ok fl M H H1 y v r ds). Qed.
Print Assumptions C39_bounds.
Theorem C39_exact y v r ds : 0 <= v < r -> r <= last_pt y -> (0 < ds)%Q -> (elev_at y v < elev_at y r)%Q ->
  exists e, escarpment_factor (fun x => x) y r v ds = Ok e /\ (e == stretch y v r)%Q /\
    (r = last_pt y -> (e == 1)%Q) /\
    (r + (r - v) <= last_pt y -> (elev_at y (r + (r - v)) == elev_at y v)%Q -> (e == 1)%Q) /\
    (r < last_pt y -> (forall k, r < k <= last_pt y -> (elev_at y k == elev_at y r)%Q) -> (e == 25#10)%Q).
Proof.
  intros Hv Hr Hd Hh. destruct (escarpment_exact y v r ds Hv Hr Hd Hh) as (e & E & Es). exists e. split; [exact E|]. split; [exact Es|].
  assert (P : (0 < inject_Z (r - v))%Q) by (apply (inj_pos (r - v)); lia).
  split; [|split].
  - intros ->. rewrite Es. unfold stretch. rewrite (Z.min_l (last_pt y)) by lia. rewrite Z.eqb_refl. reflexivity.
  - intros H1 H2. rewrite Es. unfold stretch. rewrite (Z.min_r (last_pt y)) by lia. rewrite (proj2 (Z.eqb_neq _ _)) by lia.
    replace (r + (r - v) - r) with (r - v) by lia.
    assert (K : ((25#10) - (15#10) * ((elev_at y r - elev_at y (r + (r - v))) / inject_Z (r - v)) / ((elev_at y r - elev_at y v) / inject_Z (r - v)) == 1)%Q).
    { rewrite H2. field. split; lra. }
    unfold clamp. rewrite K. vm_compute. reflexivity.
  - intros H1 H2. rewrite Es. unfold stretch. set (b := Z.min (last_pt y) (r + (r - v))). assert (Hb : r < b <= last_pt y) by lia.
    rewrite (proj2 (Z.eqb_neq b r)) by lia. assert (Pb : (0 < inject_Z (b - r))%Q) by (apply (inj_pos (b - r)); lia).
    assert (K : ((25#10) - (15#10) * ((elev_at y r - elev_at y b) / inject_Z (b - r)) / ((elev_at y r - elev_at y v) / inject_Z (r - v)) == 25#10)%Q).
    { rewrite (H2 b Hb). field. repeat split; lra. }
    unfold clamp. rewrite K. vm_compute. reflexivity.
Qed.
Print Assumptions C39_exact.
Example C39_ex : exists e, escarpment_factor (fun x => x) [0; 50; 100; 100; 100]%Q 2 0 25%Q = Ok e /\ (e == 25#10)%Q.
Proof. eexists. split; [vm_compute; reflexivity|reflexivity]. Qed.

(** ** C40: where a hill acts. *)
(** Contribution of one hill in exact arithmetic.  The last point of the line is
    special: when the hill does not reach it downwind but reaches one point
    beyond the start of the line upwind, index -1 wraps round and the last
    point gets the value computed for that point. *)
Theorem C40_hill y v r ds : 0 <= v < r -> r <= last_pt y -> (0 < ds)%Q -> (elev_at y v < elev_at y r)%Q ->
  exists m, mh_calc (fun x => x) y r v ds = Ok m /\ zlen m = zlen y /\
    (negligible y v r ds -> forall k, 0 <= k <= last_pt y -> (nth (Z.to_nat k) m 0 == 1)%Q) /\
    (~ negligible y v r ds ->
       (forall k, 0 <= k < last_pt y -> (nth (Z.to_nat k) m 0 == hill_at y v r ds k)%Q) /\
       ((- (stretch y v r * hill_reach y v r ds) < inject_Z (r - last_pt y) * ds)%Q ->
          (nth (Z.to_nat (last_pt y)) m 0 == hill_at y v r ds (last_pt y))%Q) /\
       ((inject_Z (r - last_pt y) * ds <= - (stretch y v r * hill_reach y v r ds))%Q ->
          (nth (Z.to_nat (last_pt y)) m 0 == if Qltb (inject_Z (r + 1) * ds) (hill_reach y v r ds) then hill_at y v r ds (-1) else 1)%Q)).
Proof. exact (mh_exact y v r ds). Qed.
Print Assumptions C40_hill.

Lemma stretch_lo y v r : ((1#2) <= stretch y v r)%Q.
Proof. unfold stretch. destruct (_ =? _); [lra|]. unfold clamp. apply Q.le_max_l. Qed.
(** Outside its zone a hill contributes exactly 1. *)
Theorem C40_outside y v r ds k : v < r -> (0 < ds)%Q -> (elev_at y v < elev_at y r)%Q ->
  (hill_reach y v r ds <= inject_Z (r - k) * ds)%Q \/ (inject_Z (r - k) * ds <= - (stretch y v r * hill_reach y v r ds))%Q ->
  (hill_at y v r ds k == 1)%Q.
Proof.
  intros Hv Hd Hh Z. unfold hill_at, hill_reach in *. set (h := (elev_at y r - elev_at y v)%Q) in *.
  set (L1 := Qmax ((36#100) * (inject_Z (r - v) * ds / 2)) ((4#10) * h)) in *. set (x := (inject_Z (r - k) * ds)%Q) in *.
  assert (H0 : (0 < h)%Q) by (unfold h; lra). assert (L : ((4#10) * h <= L1)%Q) by apply Q.le_max_r.
  pose proof (stretch_lo y v r) as S. set (e := stretch y v r) in *. assert (E : ((1#2) * (4 * L1) <= e * (4 * L1))%Q) by (apply Qmult_le_compat_r; lra).
  unfold hill. destruct Z as [Z|Z].
  - rewrite (proj2 (Qltb_ge x (4 * L1))) by lra. rewrite (proj2 (Qltb_ge x 0)) by lra. rewrite !andb_false_r. cbn [andb]. reflexivity.
  - rewrite (proj2 (Qleb_gt 0 x)) by lra. rewrite (proj2 (Qltb_ge (- (e * (4 * L1))) x)) by lra.
    assert (Q4 : (- h / 4 == - ((1#4) * h))%Q) by field. rewrite (Qltb_comp (- h / 4) (- ((1#4) * h)) x x) by (try exact Q4; reflexivity).
    rewrite (proj2 (Qltb_ge (- ((1#4) * h)) x)) by lra. rewrite !andb_false_r. cbn [andb]. reflexivity.
Qed.
Print Assumptions C40_outside.
(** The line multiplier away from the last point: the largest of 1 and the
    contributions of the non-negligible rises. *)
Theorem C40_line line ds : (0 < ds)%Q -> exists m, multiplier_calc (fun x => x) line ds = Ok m /\ zlen m = zlen line /\
  forall k, 0 <= k < last_pt line ->
    (1 <= nth (Z.to_nat k) m 0)%Q /\
    (forall v r, rising_run (floors line) v r -> ~ negligible (floors line) v r ds -> (hill_at (floors line) v r ds k <= nth (Z.to_nat k) m 0)%Q) /\
    ((nth (Z.to_nat k) m 0 == 1)%Q \/
     exists v r, rising_run (floors line) v r /\ ~ negligible (floors line) v r ds /\ (nth (Z.to_nat k) m 0 == hill_at (floors line) v r ds k)%Q).
Proof.
  intros Hd. destruct (multiplier_calc_spec (fun x => x) (Z.max 1 (zlen line)) (fl_line_id _) ltac:(lia) line ds Hd ltac:(lia)) as (m & Em & Lm & Tot & P).
  exists m. split; [exact Em|]. split; [exact Lm|]. intros k Hk. unfold last_pt in Hk.
  assert (LP : last_pt (floors line) = zlen line - 1) by (unfold last_pt; rewrite floors_len; reflexivity).
  destruct (P k ltac:(lia)) as (B & U & C). split; [apply B|]. split.
  - intros v r Hr Hn. destruct (Tot v r Hr) as (x & Ex). pose proof (U v r x Hr Ex) as Y. pose proof (run_climbs _ _ _ Hr) as Cl. destruct Hr as (A1 & A2 & _).
    destruct (mh_exact (floors line) v r ds A1 A2 Hd Cl) as (x' & Ex' & _ & _ & V). assert (x' = x) as -> by congruence.
    destruct (V Hn) as (V1 & _). rewrite <- (V1 k) by lia. exact Y.
  - destruct C as [C|(v & r & x & Hr & Ex & C)]; [left; exact C|]. pose proof (run_climbs _ _ _ Hr) as Cl. pose proof Hr as (A1 & A2 & _).
    destruct (mh_exact (floors line) v r ds A1 A2 Hd Cl) as (x' & Ex' & _ & Ng & V). assert (x' = x) as -> by congruence.
    assert (Dec : negligible (floors line) v r ds \/ ~ negligible (floors line) v r ds).
    { rewrite <- (negligible_dec (floors line) v r ds) by (try exact Hd; lia). destruct (_ || _ || _); [left; reflexivity|right; discriminate]. }
    destruct Dec as [N|N].
    + left. rewrite <- (Ng N k) by lia. exact C.
    + right. exists v, r. split; [exact Hr|]. split; [exact N|]. destruct (V N) as (V1 & _). rewrite <- (V1 k) by lia. exact C.
Qed.
Print Assumptions C40_line.
(** Refutation of locality: a 20-point line with one hill at its start; the last
    point is 425 m downwind of the crest, the hill's zone ends 160 m downwind
    of it, and yet the last point is raised to 73/56. *)
Definition c40_line : list Q := [0; 50; 100; 50; 0; 0; 0; 0; 0; 0; 0; 0; 0; 0; 0; 0; 0; 0; 0; 0]%Q.
Theorem C40_locality_refuted : exists m, multiplier_calc (fun x => x) c40_line 25 = Ok m /\
  (forall v r, rising_run c40_line v r -> v = 0 /\ r = 2) /\
  (stretch c40_line 0 2 * hill_reach c40_line 0 2 25 < inject_Z (last_pt c40_line - 2) * 25)%Q /\
  (nth 18 m 0 == 1)%Q /\ (nth 19 m 0 == 73#56)%Q.
Proof.
  eexists. split; [vm_compute; reflexivity|]. split; [|split; [vm_compute; reflexivity|split; vm_compute; reflexivity]].
  intros v r (A & B & C & D & E). unfold last_pt, zlen, c40_line, elev_at in *. cbn [length] in *.
  assert (U : forall k, v <= k < r -> k < 2).
  { intros k Hk. specialize (C k Hk). destruct (Z_lt_ge_dec k 2) as [X|X]; [exact X|]. exfalso.
    assert (K : In (Z.to_nat k) (seq 2 17)) by (apply in_seq; lia). replace (Z.to_nat (k + 1)) with (S (Z.to_nat k)) in C by lia. revert C K. generalize (Z.to_nat k). intros n C K.
    cbn [seq In] in K. repeat (destruct K as [<-|K]; [cbn in C; lra|]). destruct K. }
  assert (v < 2) by (apply U; lia). assert (r - 1 < 2) by (apply U; lia).
  assert (V : v = 0 \/ v = 1) by lia. destruct V as [-> | ->].
  - split; [reflexivity|]. assert (R : r = 1 \/ r = 2) by lia. destruct R as [-> | ->]; [|reflexivity]. exfalso. destruct E as [E|E]; [discriminate|]. vm_compute in E. apply E. reflexivity.
  - exfalso. destruct D as [D|D]; [discriminate|]. vm_compute in D. apply D. reflexivity.
Qed.
Print Assumptions C40_locality_refuted.
Example C40_ex : ~ negligible c40_line 0 2 25 /\ rising_run c40_line 0 2.
Proof.
  split.
  - unfold negligible. intros [H|[H|H]]; [vm_compute in H; discriminate|lia|vm_compute in H; discriminate].
  - unfold rising_run. replace (last_pt c40_line) with 19 by reflexivity. split; [lia|]. split; [lia|]. split; [|split; [left; reflexivity|right; discriminate]].
    intros k Hk. assert (K : k = 0 \/ k = 1) by lia. destruct K as [-> | ->]; reflexivity.
Qed.

(** ** C41: traversal lines. *)
(** Cells are numbered column by column: cell (r, c) is [c * rows + r]. *)
Theorem C41_partition nr nc d : 1 <= nr -> 1 <= nc ->
  Permutation (flat_map (fun s => make_path nr nc s d) (starts nr nc d)) (zrange (nr * nc)).
Proof. intros H1 H2. exact (partition nr nc H1 H2 d). Qed.
Print Assumptions C41_partition.
(** The lines are exactly the wind lines: they start on the upwind edge, step
    one cell downwind at a time and end where the raster ends. *)
Theorem C41_lines nr nc d : 1 <= nr -> 1 <= nc ->
  (forall s, In s (starts nr nc d) -> exists r0 c0 n, s = c0 * nr + r0 /\ wind_line nr nc d r0 c0 n) /\
  (forall r0 c0 n, wind_line nr nc d r0 c0 n -> In (c0 * nr + r0) (starts nr nc d) /\
     make_path nr nc (c0 * nr + r0) d = map (fun t => snd (down_cell d t r0 c0) * nr + fst (down_cell d t r0 c0)) (zrange n)).
Proof. intros H1 H2. split; [exact (start_wind nr nc d H1 H2)|exact (wind_path nr nc d H1 H2)]. Qed.
Print Assumptions C41_lines.
Theorem C41_each_cell_once nr nc d r c : 1 <= nr -> 1 <= nc -> inside nr nc (r, c) = true ->
  exists r0 c0 n t, (wind_line nr nc d r0 c0 n /\ 0 <= t < n /\ down_cell d t r0 c0 = (r, c)) /\
  forall r0' c0' n' t', wind_line nr nc d r0' c0' n' -> 0 <= t' < n' -> down_cell d t' r0' c0' = (r, c) ->
    r0' = r0 /\ c0' = c0 /\ n' = n /\ t' = t.
Proof.
  intros H1 H2 I. destruct (cell_on_line nr nc d H1 H2 r c I) as (r0 & c0 & n & t & W & Ht & E). exists r0, c0, n, t. split; [auto|].
  intros r0' c0' n' t' W' Ht' E'. apply (line_unique nr nc d H1 H2 _ _ _ _ _ _ _ _ W' W Ht' Ht). congruence.
Qed.
Print Assumptions C41_each_cell_once.
Example C41_ex : starts 2 3 SW = [0; 1; 3; 5] /\ map (fun s => make_path 2 3 s SW) (starts 2 3 SW) = [[0]; [1; 2]; [3; 4]; [5]].
Proof. split; reflexivity. Qed.

(** ** C42: removing conservatism. *)
Theorem C42_values x :
  ((x <= 1)%Q -> (remove_conservatism x == x)%Q) /\
  ((1 <= x <= 14#10)%Q -> (remove_conservatism x == x * ((125#100) - (25#100) * x))%Q) /\
  ((14#10 <= x)%Q -> (remove_conservatism x == (9#10) * x)%Q).
Proof.
  split; [intros H; rewrite cons_id by exact H; reflexivity|]. split; [apply cons_shallow|]. intros H. rewrite cons_steep by exact H. ring.
Qed.
Print Assumptions C42_values.
Theorem C42_monotone x y : (x <= y)%Q -> (remove_conservatism x <= remove_conservatism y)%Q.
Proof. exact (cons_mono x y). Qed.
Print Assumptions C42_monotone.
(** Never steeper than the identity, hence continuous everywhere, and never an
    increase. *)
Theorem C42_lipschitz x y : (x <= y)%Q -> (remove_conservatism y - remove_conservatism x <= y - x)%Q.
Proof.
  intros H. destruct (C42_values x) as (X1 & X2 & X3), (C42_values y) as (Y1 & Y2 & Y3).
  assert (S : forall a b, (1 <= a)%Q -> (a <= b)%Q -> (b * ((125#100) - (25#100) * b) - a * ((125#100) - (25#100) * a) <= b - a)%Q).
  { intros a b H1 H2. assert (P : (0 <= (b - a) * ((25#100) * (a + b) - (25#100)))%Q) by (apply Qmult_le_0_compat; lra). lra. }
  destruct (Qlt_le_dec x 1) as [A|A]; [rewrite X1 by lra|destruct (Qlt_le_dec x (14#10)) as [B|B]; [rewrite X2 by lra|rewrite X3 by lra]];
  (destruct (Qlt_le_dec y 1) as [A'|A']; [rewrite Y1 by lra|destruct (Qlt_le_dec y (14#10)) as [B'|B']; [rewrite Y2 by lra|rewrite Y3 by lra]]); try lra.
  - pose proof (S 1%Q y ltac:(lra) A'). lra.
  - exact (S x y A H).
  - pose proof (S x (14#10) A ltac:(lra)). lra.
Qed.
Print Assumptions C42_lipschitz.
Theorem C42_range x : (1 <= x <= 171#100)%Q -> (1 <= remove_conservatism x <= 1539#1000)%Q /\ (remove_conservatism x <= x)%Q.
Proof.
  intros H. split; [|apply cons_reduces; lra]. destruct (cons_bounds (fun q => q) x ltac:(discriminate) H) as [A B]. split; [exact A|]. eapply Qle_trans; [exact B|]. vm_compute. discriminate.
Qed.
Print Assumptions C42_range.
Example C42_ex : (remove_conservatism (12#10) == 114#100)%Q /\ (remove_conservatism (171#100) == 1539#1000)%Q.
Proof. split; reflexivity. Qed.

(** ** C43: the Tasmanian factor. *)
(** One direction: the line multipliers [raw] do not depend on the origin; a
    cell's value is the 3x3 average of the corrected values times the factor,
    which is 1 except above 500 m in the box. *)
Theorem C43_factor fl M sqrt2 cellsize elev d : fl_line fl M -> (0 < sqrt2)%Q -> (0 < cellsize)%Q ->
  1 <= g_rows elev <= M -> 1 <= g_cols elev <= M ->
  exists raw, forall x_left y_upper, exists o, topo_dir fl sqrt2 cellsize x_left y_upper elev d = Ok o /\
    forall r c h, g_at elev r c = Num h -> exists q, g_at o r c = Num q /\
      (q == total (map (fun p => remove_conservatism (g_at raw (fst p) (snd p)) *
                                 tas_factor (Qltb 143 x_left && Qltb 40 y_upper) (g_at elev (fst p) (snd p)))
                       (around (g_rows elev) (g_cols elev) r c)) / 9)%Q.
Proof.
  intros Hfl Hs Hc Hnr Hnc. destruct (stage_dir fl M sqrt2 cellsize 0 0 elev d Hfl Hs Hc Hnr Hnc) as (raw & o & E & _ & _ & L & _). exists raw. intros x_left y_upper.
  destruct (stage_dir fl M sqrt2 cellsize x_left y_upper elev d Hfl Hs Hc Hnr Hnc) as (raw' & o' & E' & _ & _ & L' & _ & _ & V'). exists o'. split; [exact E'|].
  intros r c h Eh. destruct (V' r c h Eh) as (q & Eq & Q). exists q. split; [exact Eq|]. rewrite Q. apply Qdiv_comp; [|reflexivity]. apply total_ext. intros p Hp.
  unfold box_field, in_tasmania. apply in_around in Hp. assert (I : inside (g_rows elev) (g_cols elev) (fst p, snd p) = true) by (apply inside_ins; exact Hp).
  destruct (cell_on_line (g_rows elev) (g_cols elev) d ltac:(lia) ltac:(lia) _ _ I) as (r0 & c0 & n & t & W & Ht & Ec).
  destruct (L _ _ _ W) as (m & Em & _ & At). destruct (L' _ _ _ W) as (m' & Em' & _ & At'). specialize (At t Ht). specialize (At' t Ht).
  rewrite Ec in At, At'. cbn [fst snd] in At, At'. assert (m' = m) as -> by congruence. rewrite At, At'. reflexivity.
Qed.
Print Assumptions C43_factor.
Theorem C43_cases box h :
  (box = true -> (500 < h)%Q -> (tas_factor box (Num h) == 1 + (15#100000) * h)%Q) /\
  (box = false \/ (h <= 500)%Q -> (tas_factor box (Num h) == 1)%Q) /\ (tas_factor box NaN == 1)%Q.
Proof.
  split; [|split; [|reflexivity]].
  - intros -> H. cbn. rewrite (proj2 (Qltb_lt 500 h)) by exact H. reflexivity.
  - intros [-> | H]; cbn; [reflexivity|]. rewrite (proj2 (Qltb_ge 500 h)) by exact H. rewrite andb_false_r. reflexivity.
Qed.
Print Assumptions C43_cases.
Example C43_ex : match topo_dir (fun x => x) (14#10) 25 144 41 (Grid 3 3 (fun _ _ => Num 1000)) N_ with
  | Ok o => match g_at o 1 1 with Num q => Qeq_bool q (115#100) | NaN => false end | Err _ => false end = true.
Proof. vm_compute. reflexivity. Qed.

(** ** C44: smoothing. *)
Theorem C44_interior fl M sqrt2 cellsize x_left y_upper elev d : fl_line fl M -> (0 < sqrt2)%Q -> (0 < cellsize)%Q ->
  1 <= g_rows elev <= M -> 1 <= g_cols elev <= M -> (x_left <= 143)%Q \/ (y_upper <= 40)%Q ->
  exists o, topo_dir fl sqrt2 cellsize x_left y_upper elev d = Ok o /\
    forall r c h, 0 < r < g_rows elev - 1 -> 0 < c < g_cols elev - 1 -> g_at elev r c = Num h ->
      exists q, g_at o r c = Num q /\ (1 <= q <= (9#10) * fl (171#100))%Q.
Proof.
  intros Hfl Hs Hc Hnr Hnc T.
  assert (F : in_tasmania x_left y_upper = false) by (unfold in_tasmania; destruct T as [T|T]; [rewrite (proj2 (Qltb_ge 143 x_left)) by exact T; reflexivity|rewrite (proj2 (Qltb_ge 40 y_upper)) by exact T; apply andb_false_r]).
  destruct (stage_bounds fl M sqrt2 cellsize x_left y_upper elev d Hfl Hs Hc Hnr Hnc F) as (o & E & V). exists o. split; [exact E|].
  intros r c h Hr Hc' Eh. destruct (V r c h Eh) as (q & Eq & B1 & B2). exists q. split; [exact Eq|]. rewrite around_interior in B1, B2 by assumption.
  change (inject_Z 9 / 9)%Q with (9 / 9)%Q in *. assert (N : (9 / 9 == 1)%Q) by reflexivity. rewrite N in B1, B2. lra.
Qed.
Print Assumptions C44_interior.
(** Everywhere: at least the share of the nine cells that lie in the raster. *)
Theorem C44_share fl M sqrt2 cellsize x_left y_upper elev d : fl_line fl M -> (0 < sqrt2)%Q -> (0 < cellsize)%Q ->
  1 <= g_rows elev <= M -> 1 <= g_cols elev <= M -> (x_left <= 143)%Q \/ (y_upper <= 40)%Q ->
  exists o, topo_dir fl sqrt2 cellsize x_left y_upper elev d = Ok o /\
    forall r c h, g_at elev r c = Num h -> exists q, g_at o r c = Num q /\
      (inject_Z (zlen (around (g_rows elev) (g_cols elev) r c)) / 9 <= q)%Q /\
      (q <= inject_Z (zlen (around (g_rows elev) (g_cols elev) r c)) / 9 * ((9#10) * fl (171#100)))%Q.
Proof.
  intros Hfl Hs Hc Hnr Hnc T.
  assert (F : in_tasmania x_left y_upper = false) by (unfold in_tasmania; destruct T as [T|T]; [rewrite (proj2 (Qltb_ge 143 x_left)) by exact T; reflexivity|rewrite (proj2 (Qltb_ge 40 y_upper)) by exact T; apply andb_false_r]).
  exact (stage_bounds fl M sqrt2 cellsize x_left y_upper elev d Hfl Hs Hc Hnr Hnc F).
Qed.
Print Assumptions C44_share.
Theorem C44_share_least rows cols r c : 2 <= rows -> 2 <= cols -> 0 <= r < rows -> 0 <= c < cols ->
  4 <= zlen (around rows cols r c) <= 9 /\ (zlen (around rows cols r c) = 9 <-> 0 < r < rows - 1 /\ 0 < c < cols - 1).
Proof.
  intros H1 H2 Hr Hc. split; [apply around_least; assumption|]. split; [|intros [A B]; apply around_interior; assumption].
  unfold around. cbn [filter fst snd].
  rewrite (proj2 (Z.leb_le 0 r)), (proj2 (Z.ltb_lt r rows)), (proj2 (Z.leb_le 0 c)), (proj2 (Z.ltb_lt c cols)) by lia.
  rewrite (proj2 (Z.ltb_lt (r - 1) rows)), (proj2 (Z.ltb_lt (c - 1) cols)), (proj2 (Z.leb_le 0 (r + 1))), (proj2 (Z.leb_le 0 (c + 1))) by lia.
  destruct (Z.leb_spec 0 (r - 1)), (Z.ltb_spec (r + 1) rows), (Z.leb_spec 0 (c - 1)), (Z.ltb_spec (c + 1) cols); cbn; lia.
Qed.
Print Assumptions C44_share_least.
(** Refutation at the border, for flat land of every size: the value is exactly
    that share, below 1 on the whole border. *)
Theorem C44_border_refuted fl M sqrt2 cellsize rows cols h d : fl_line fl M -> (0 < sqrt2)%Q -> (0 < cellsize)%Q ->
  1 <= rows <= M -> 1 <= cols <= M -> exists o,
  topo_dir fl sqrt2 cellsize 120 30 (Grid rows cols (fun _ _ => Num h)) d = Ok o /\
  forall r c, exists q, g_at o r c = Num q /\ (q == inject_Z (zlen (around rows cols r c)) / 9)%Q.
Proof.
  intros Hfl Hs Hc Hnr Hnc. set (elev := Grid rows cols (fun _ _ => Num h)).
  destruct (stage_dir fl M sqrt2 cellsize 120 30 elev d Hfl Hs Hc Hnr Hnc) as (raw & o & E & _ & _ & L & B & _ & V). exists o. split; [exact E|].
  intros r c. destruct (V r c h eq_refl) as (q & Eq & Q). exists q. split; [exact Eq|]. rewrite Q. apply Qdiv_comp; [|reflexivity].
  assert (Hds : (0 < spacing fl sqrt2 cellsize d)%Q).
  { assert (K : (0 < fl (cellsize * sqrt2))%Q) by (apply (f_pos fl M Hfl); apply Qmult_lt_0_compat; assumption). unfold spacing. destruct d; assumption. }
  assert (R : forall p, In p (around rows cols r c) -> (box_field 120 30 elev raw (fst p) (snd p) == 1)%Q).
  { intros p Hp. apply in_around in Hp. assert (I : inside (g_rows elev) (g_cols elev) (fst p, snd p) = true) by (apply inside_ins; exact Hp).
    destruct (cell_on_line rows cols d ltac:(lia) ltac:(lia) _ _ I) as (r0 & c0 & n & t & W & Ht & Ec). destruct (L _ _ _ W) as (m & Em & Lm & At). specialize (At t Ht).
    rewrite Ec in At. cbn [fst snd] in At.
    assert (HM : n <= M).
    { destruct (start_path M elev d Hnr Hnc (idx rows r0 c0)) as (_ & _ & X); [apply (wind_path rows cols d ltac:(lia) ltac:(lia) _ _ _ W)|].
      destruct (wind_path rows cols d ltac:(lia) ltac:(lia) _ _ _ W) as [_ P]. change (g_rows elev) with rows in X. change (g_cols elev) with cols in X. rewrite P in X. unfold zlen in X. rewrite map_length, zrange_length in X. lia. }
    destruct (C38_no_rise fl M (line_profile elev d r0 c0 n) (spacing fl sqrt2 cellsize d) Hfl ltac:(lia) Hds) as (m' & Em' & _ & One).
    - rewrite profile_len by lia. exact HM.
    - rewrite profile_len by lia. intros k Hk. unfold elev_at, line_profile. cbn [elev g_at or_sea].
      assert (Hn : forall i, 0 <= i < n -> nth (Z.to_nat i) (map (fun _ : Z => h) (zrange n)) 0%Q = h).
      { intros i Hi. rewrite (nth_indep _ 0%Q h) by (rewrite map_length, zrange_length; lia). apply (map_nth (fun _ : Z => h) (zrange n) 0). }
      rewrite !Hn by lia. lra.
    - assert (m' = m) as -> by congruence. specialize (One t ltac:(rewrite profile_len; lia)). rewrite <- At in One.
      unfold box_field. cbn [tas_factor in_tasmania andb elev g_at]. rewrite (cons_id (g_at raw (fst p) (snd p))) by lra. rewrite One. reflexivity. }
  rewrite (total_ext _ (fun _ => 1%Q)) by exact R. change (g_rows elev) with rows. change (g_cols elev) with cols.
  generalize (around rows cols r c). induction l as [|p l IH]; [reflexivity|]. cbn [map total fold_right]. unfold total in IH. rewrite IH.
  replace (zlen (p :: l)) with (1 + zlen l) by (unfold zlen; cbn [length]; lia). rewrite inject_Z_plus. reflexivity.
Qed.
Print Assumptions C44_border_refuted.
Example C44_ex : zlen (around 100 100 0 0) = 4 /\ zlen (around 100 100 0 5) = 6 /\ zlen (around 1 1 0 0) = 1.
Proof. repeat split; reflexivity. Qed.

(** ** C45: totality of the stage. *)
Theorem C45_total fl M sqrt2 cellsize x_left y_upper nodata dem : fl_line fl M -> (0 < sqrt2)%Q -> (0 < cellsize)%Q ->
  1 <= g_rows dem <= M -> 1 <= g_cols dem <= M ->
  exists outs, topomult fl sqrt2 cellsize x_left y_upper nodata dem = Ok outs /\ map fst outs = [N_; S_; E_; W_; NE; NW; SE; SW] /\
    forall d o, In (d, o) outs -> g_rows o = g_rows dem /\ g_cols o = g_cols dem /\
      forall r c, (g_at o r c = NaN <-> dem_missing nodata (g_at dem r c)).
Proof.
  intros Hfl Hs Hc Hnr Hnc. destruct (stage_all fl M sqrt2 cellsize x_left y_upper nodata dem Hfl Hs Hc Hnr Hnc) as (outs & E & K & A). exists outs. split; [exact E|]. split; [exact K|].
  intros d o H. destruct (A d o H) as (_ & B). exact B.
Qed.
Print Assumptions C45_total.
(** And each output is made of the line multipliers of its own direction. *)
Theorem C45_values fl M sqrt2 cellsize x_left y_upper nodata dem : fl_line fl M -> (0 < sqrt2)%Q -> (0 < cellsize)%Q ->
  1 <= g_rows dem <= M -> 1 <= g_cols dem <= M ->
  exists outs, topomult fl sqrt2 cellsize x_left y_upper nodata dem = Ok outs /\
  forall d o, In (d, o) outs -> exists elev raw,
    (forall r c, g_at elev r c = NaN <-> dem_missing nodata (g_at dem r c)) /\ (forall r c h, g_at elev r c = Num h -> g_at dem r c = Num h) /\
    g_rows elev = g_rows dem /\ g_cols elev = g_cols dem /\
    (forall r0 c0 n, wind_line (g_rows dem) (g_cols dem) d r0 c0 n -> exists m,
        multiplier_calc fl (line_profile elev d r0 c0 n)
          (match d with NE | NW | SE | SW => fl (cellsize * sqrt2)%Q | _ => cellsize end) = Ok m /\
        forall t, 0 <= t < n -> g_at raw (fst (down_cell d t r0 c0)) (snd (down_cell d t r0 c0)) = nth (Z.to_nat t) m 0%Q) /\
    (forall r c h, g_at elev r c = Num h -> exists q, g_at o r c = Num q /\
        (q == total (map (fun p => remove_conservatism (g_at raw (fst p) (snd p)) *
                                   tas_factor (Qltb 143 x_left && Qltb 40 y_upper) (g_at elev (fst p) (snd p)))
                         (around (g_rows dem) (g_cols dem) r c)) / 9)%Q).
Proof.
  intros Hfl Hs Hc Hnr Hnc. destruct (stage_all fl M sqrt2 cellsize x_left y_upper nodata dem Hfl Hs Hc Hnr Hnc) as (outs & E & _ & A). exists outs. split; [exact E|].
  intros d o H. destruct (A d o H) as (Ed & _). destruct (stage_dir fl M sqrt2 cellsize x_left y_upper (mask_elevation nodata dem) d Hfl Hs Hc Hnr Hnc) as (raw & o' & E' & _ & _ & L & _ & _ & V).
  assert (o' = o) as -> by congruence. exists (mask_elevation nodata dem), raw. split; [|split; [|split; [reflexivity|split; [reflexivity|split; [|exact V]]]]].
  - intros r c. apply mask_missing.
  - intros r c h. cbn [mask_elevation gmap g_at]. destruct (g_at dem r c) as [|q]; [discriminate|]. destruct nodata as [n|]; [|congruence]. destruct (Qeq_bool q n); congruence.
  - intros r0 c0 n W. destruct (L r0 c0 n W) as (m & Em & _ & At). exists m. split; [exact Em|exact At].
Qed.
Print Assumptions C45_values.
Example C45_ex : match topomult (fun x => x) (14#10) 25 120 30 (Some 0%Q) (Grid 4 5 (fun r c => if (r =? 0) && (c =? 0) then Num 0 else Num (inject_Z (10 * r * c)))) with
  | Ok outs => (length outs =? 8)%nat | Err _ => false end = true.
Proof. vm_compute. reflexivity. Qed.
