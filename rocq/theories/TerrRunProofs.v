From Verif Require Import Base BaseLemmas NameModel ClipProofs TerrModel TerrSpec TerrProofs.
Open Scope Z_scope.

(** ** Window widths *)
Lemma np_around_0 x : (0 <= x)%Q -> (np_around x = 0 <-> (x <= 1#2)%Q).
Proof.
  intros H. pose proof (np_around_half x) as N. apply Qabs_le_iff in N. split; intros K.
  - rewrite K in N. change (inject_Z 0) with 0%Q in N. lra.
  - assert (F : Qfloor x = 0) by (apply Qfloor_unique; change (inject_Z 0) with 0%Q; lra).
    unfold np_around. rewrite F. change (inject_Z 0) with 0%Q. destruct (Qltb (x - 0) (1#2)) eqn:E1; [reflexivity|].
    destruct (Qltb (1#2) (x - 0)) eqn:E2; [apply Qltb_lt in E2; lra|]. reflexivity.
Qed.
Lemma np_around_nonneg x : (0 <= x)%Q -> 0 <= np_around x.
Proof.
  intros H. pose proof (np_around_half x) as N. apply Qabs_le_iff in N.
  cut (-1 < np_around x); [lia|]. apply inject_Z_lt_inv. change (inject_Z (-1)) with (-1)%Q. lra.
Qed.
Lemma py_int_0 x : (0 <= x)%Q -> (py_int x = 0 <-> (x < 1)%Q).
Proof.
  intros H. rewrite py_int_nonneg by exact H. pose proof (Qfloor_spec x) as [A B]. split; intros K.
  - rewrite K in B. change (inject_Z 0) with 0%Q in B. lra.
  - apply Qfloor_unique; change (inject_Z 0) with 0%Q; lra.
Qed.

Section Widths.
Variables (fl : Q -> Q) (gw : Q).
Hypothesis Hfl : fl_ok fl.
Hypothesis Hgw : (0 < gw)%Q.

Lemma fl_pos x : (0 <= x)%Q -> (x * (1 - u53) <= fl x /\ fl x <= x * (1 + u53))%Q.
Proof.
  intros H. pose proof (fl_rel fl Hfl x) as R. rewrite (Qabs_pos x H) in R. apply Qabs_le_iff in R. rewrite u53_val in *. lra.
Qed.
Lemma div_bounds (a g : Q) : (0 < a)%Q -> (0 < g)%Q -> (0 < a / g)%Q.
Proof. intros. apply Qlt_shift_div_l; lra. Qed.
Lemma div_le a g k : (0 < g)%Q -> ((a / g <= k)%Q <-> (a <= k * g)%Q).
Proof.
  intros Hg. split; intros H.
  - setoid_replace a with ((a / g) * g)%Q by (field; lra). apply Qmult_le_compat_r; lra.
  - apply Qle_shift_div_r; assumption.
Qed.
Lemma div_ge a g k : (0 < g)%Q -> ((k <= a / g)%Q <-> (k * g <= a)%Q).
Proof.
  intros Hg. split; intros H.
  - setoid_replace a with ((a / g) * g)%Q by (field; lra). apply Qmult_le_compat_r; lra.
  - apply Qle_shift_div_l; assumption.
Qed.

Definition dg : Q := fl (gw * fl (1414 # 1000))%Q.
Lemma dg_bounds : (gw * (1414 # 1000) * (1 - 3 * u53) <= dg /\ dg <= gw * (1414 # 1000) * (1 + 3 * u53))%Q.
Proof.
  unfold dg. destruct (fl_pos (1414 # 1000) ltac:(lra)) as [A B]. rewrite u53_val in *.
  set (k := fl (1414 # 1000)) in *.
  assert (Hk : (0 <= gw * k)%Q) by (apply Qmult_le_0_compat; lra).
  destruct (fl_pos (gw * k) Hk) as [C D]. rewrite u53_val in *.
  assert (E : (gw * ((1414 # 1000) * (1 - (1 # 9007199254740992))) <= gw * k)%Q) by (rewrite !(Qmult_comm gw); apply Qmult_le_compat_r; lra).
  assert (F : (gw * k <= gw * ((1414 # 1000) * (1 + (1 # 9007199254740992))))%Q) by (rewrite !(Qmult_comm gw); apply Qmult_le_compat_r; lra).
  split; lra.
Qed.
Lemma dg_pos : (0 < dg)%Q.
Proof. destruct dg_bounds as [A _]. rewrite u53_val in A. lra. Qed.

Lemma widths_nonneg d : 0 <= fst (widths fl gw d) /\ 0 <= snd (widths fl gw d).
Proof.
  assert (N : forall a g, (0 < a)%Q -> (0 < g)%Q -> (0 <= fl (a / g))%Q).
  { intros a g Ha Hg. pose proof (div_bounds a g Ha Hg). destruct (fl_pos (a / g)%Q ltac:(lra)) as [A _]. rewrite u53_val in A. lra. }
  unfold widths. cbv zeta. fold dg. destruct (is_cardinal d); cbn [fst snd].
  - split; apply np_around_nonneg; apply N; lra.
  - pose proof dg_pos. split; (rewrite py_int_nonneg by (apply N; lra); apply Qfloor_nonneg; apply N; lra).
Qed.

Lemma avg_positive d : (gw <= 353)%Q -> 1 <= fst (widths fl gw d).
Proof.
  intros H. pose proof (proj1 (widths_nonneg d)) as N. cut (fst (widths fl gw d) <> 0); [lia|]. intros K.
  unfold widths in K. cbv zeta in K. fold dg in K. destruct (is_cardinal d); cbn [fst] in K.
  - assert (G : (1 <= 500 / gw)%Q) by (apply div_ge; lra).
    destruct (fl_pos (500 / gw)%Q ltac:(lra)) as [A _]. rewrite u53_val in A. apply np_around_0 in K; lra.
  - destruct dg_bounds as [_ D]. rewrite u53_val in D. pose proof dg_pos.
    assert (G : (1 + (1 # 1000) <= 500 / dg)%Q) by (apply div_ge; lra).
    destruct (fl_pos (500 / dg)%Q ltac:(lra)) as [A _]. rewrite u53_val in A. apply py_int_0 in K; lra.
Qed.
Lemma avg_zero_cardinal d : is_cardinal d = true -> (1001 <= gw)%Q -> fst (widths fl gw d) = 0.
Proof.
  intros Hd H. unfold widths. rewrite Hd. cbn [fst]. pose proof (div_bounds 500 gw ltac:(lra) Hgw).
  assert (G : (500 / gw <= 4999 # 10000)%Q) by (apply div_le; lra).
  destruct (fl_pos (500 / gw)%Q ltac:(lra)) as [A B]. rewrite u53_val in A, B. apply np_around_0; lra.
Qed.
Lemma avg_zero_diagonal d : is_cardinal d = false -> (354 <= gw)%Q -> fst (widths fl gw d) = 0.
Proof.
  intros Hd H. unfold widths. rewrite Hd. cbv zeta. fold dg. cbn [fst]. pose proof dg_pos as P.
  destruct dg_bounds as [D _]. rewrite u53_val in D. pose proof (div_bounds 500 dg ltac:(lra) P).
  assert (G : (500 / dg <= 9999 # 10000)%Q) by (apply div_le; lra).
  destruct (fl_pos (500 / dg)%Q ltac:(lra)) as [A B]. rewrite u53_val in A, B. apply py_int_0; lra.
Qed.
Lemma around_metres a : (0 < a)%Q -> (Qabs (inject_Z (np_around (fl (a / gw))) * gw - a) <= gw / 2 + a * u53)%Q.
Proof.
  intros Ha. pose proof (div_bounds a gw Ha Hgw) as P. destruct (fl_pos (a / gw) ltac:(lra)) as [A B].
  set (y := fl (a / gw)%Q) in *. pose proof (np_around_half y) as N. apply Qabs_le_iff in N. set (n := inject_Z (np_around y)) in *.
  assert (E : (a / gw * gw == a)%Q) by (field; lra).
  assert (A' : (a / gw * (1 - u53) * gw <= y * gw)%Q) by (apply Qmult_le_compat_r; lra).
  assert (B' : (y * gw <= a / gw * (1 + u53) * gw)%Q) by (apply Qmult_le_compat_r; lra).
  assert (A2 : (a / gw * (1 - u53) * gw == a * (1 - u53))%Q) by (rewrite <- E at 2; ring).
  assert (B2 : (a / gw * (1 + u53) * gw == a * (1 + u53))%Q) by (rewrite <- E at 2; ring).
  assert (C : (-(1 # 2) * gw <= (n - y) * gw)%Q) by (apply Qmult_le_compat_r; lra).
  assert (D : ((n - y) * gw <= (1 # 2) * gw)%Q) by (apply Qmult_le_compat_r; lra).
  apply Qabs_le_iff. rewrite u53_val in *. setoid_replace (gw / 2)%Q with ((1 # 2) * gw)%Q by field. split; lra.
Qed.
Lemma diag_metres a : (0 < a)%Q -> let n := inject_Z (py_int (fl (a / dg))) in
  (n * (gw * (1414 # 1000)) <= a * (1 + 8 * u53) /\ a * (1 - 8 * u53) < (n + 1) * (gw * (1414 # 1000)))%Q.
Proof.
  intros Ha n. pose proof dg_pos as Pd. destruct dg_bounds as [L U]. set (g := (gw * (1414 # 1000))%Q) in *.
  assert (Pg : (0 < g)%Q) by (unfold g; lra). pose proof (div_bounds a dg Ha Pd) as P. destruct (fl_pos (a / dg) ltac:(lra)) as [A B].
  set (y := fl (a / dg)%Q) in *. assert (Y : (0 <= y)%Q) by (rewrite u53_val in A; lra).
  subst n. rewrite py_int_nonneg by exact Y. pose proof (Qfloor_spec y) as [F1 F2]. set (n := inject_Z (Qfloor y)) in *.
  assert (E : (a / dg * dg == a)%Q) by (field; lra).
  assert (A' : (a / dg * (1 - u53) * dg <= y * dg)%Q) by (apply Qmult_le_compat_r; lra).
  assert (B' : (y * dg <= a / dg * (1 + u53) * dg)%Q) by (apply Qmult_le_compat_r; lra).
  assert (A2 : (a / dg * (1 - u53) * dg == a * (1 - u53))%Q) by (rewrite <- E at 2; ring).
  assert (B2 : (a / dg * (1 + u53) * dg == a * (1 + u53))%Q) by (rewrite <- E at 2; ring).
  assert (Lg : (y * (g * (1 - 3 * u53)) <= y * dg)%Q) by (rewrite !(Qmult_comm y); apply Qmult_le_compat_r; lra).
  assert (Ug : (y * dg <= y * (g * (1 + 3 * u53)))%Q) by (rewrite !(Qmult_comm y); apply Qmult_le_compat_r; lra).
  assert (C : (n * g <= y * g)%Q) by (apply Qmult_le_compat_r; lra).
  assert (D : (y * g < (n + 1) * g)%Q) by (apply Qmult_lt_compat_r; lra).
  set (yg := (y * g)%Q) in *.
  assert (Lg' : (yg * (1 - 3 * u53) <= y * dg)%Q) by (setoid_replace (yg * (1 - 3 * u53))%Q with (y * (g * (1 - 3 * u53)))%Q by (unfold yg; ring); exact Lg).
  assert (Ug' : (y * dg <= yg * (1 + 3 * u53))%Q) by (setoid_replace (yg * (1 + 3 * u53))%Q with (y * (g * (1 + 3 * u53)))%Q by (unfold yg; ring); exact Ug).
  rewrite u53_val in *. split; lra.
Qed.
Lemma widths_metres d :
  let avg := inject_Z (fst (widths fl gw d)) in let lag := inject_Z (snd (widths fl gw d)) in let diag := (gw * (1414 # 1000))%Q in
  if is_cardinal d then
    (Qabs (avg * gw - 500) <= gw / 2 + 500 * u53 /\ Qabs (lag * gw - 200) <= gw / 2 + 200 * u53)%Q
  else
    (avg * diag <= 500 * (1 + 8 * u53) /\ 500 * (1 - 8 * u53) < (avg + 1) * diag /\
     lag * diag <= 200 * (1 + 8 * u53) /\ 200 * (1 - 8 * u53) < (lag + 1) * diag)%Q.
Proof.
  cbv zeta. unfold widths. cbv zeta. fold dg. destruct (is_cardinal d); cbn [fst snd].
  - split; apply around_metres; lra.
  - destruct (diag_metres 500 ltac:(lra)), (diag_metres 200 ltac:(lra)). auto.
Qed.
End Widths.

(** With exact arithmetic the thresholds are sharp. *)
Lemma avg_zero_exact gw d : (0 < gw)%Q ->
  (fst (widths (fun x => x) gw d) = 0 <-> if is_cardinal d then (1000 <= gw)%Q else (500 / (1414 # 1000) < gw)%Q).
Proof.
  intros H. unfold widths. destruct (is_cardinal d); cbn [fst].
  - pose proof (div_bounds 500 gw ltac:(lra) H) as P. rewrite np_around_0 by lra. rewrite div_le by exact H. split; lra.
  - assert (G : (0 < gw * (1414 # 1000))%Q) by lra. pose proof (div_bounds 500 _ ltac:(lra) G) as P. rewrite py_int_0 by lra.
    setoid_replace (500 / (1414 # 1000))%Q with (500000 # 1414)%Q by reflexivity.
    split; intros K.
    + apply Qnot_le_lt. intros C. apply (Qlt_not_le _ _ K). apply div_ge; lra.
    + apply Qnot_le_lt. intros C. apply div_ge in C; lra.
Qed.

(** ** Whole tile *)
Lemma terrain_skip_or_run fl table data gw r : terrain fl table data gw = Ok r ->
  r = None \/ exists l, r = Some l /\ map fst l = dire /\
    forall d o, In (d, o) l -> terrain_dir d (zero_to_nan (class2mz table data)) (fst (widths fl gw d)) (snd (widths fl gw d)) = Ok o.
Proof.
  unfold terrain. cbv zeta. destruct (np_max _) as [mx|]; cbn [bind]; [|discriminate]. destruct (is_zero mx); [intros H; injection H as <-; auto|].
  set (f := fun d => let '(avg, lag) := widths fl gw d in let* o := terrain_dir d (zero_to_nan (class2mz table data)) avg lag in Ok (d, o)).
  assert (K : forall ds l, mapM f ds = Ok l -> map fst l = ds /\ forall d o, In (d, o) l ->
     terrain_dir d (zero_to_nan (class2mz table data)) (fst (widths fl gw d)) (snd (widths fl gw d)) = Ok o).
  { induction ds as [|d ds IH]; intros l; cbn [mapM].
    - intros H. injection H as <-. split; [reflexivity|intros ? ? []].
    - unfold f at 1. destruct (widths fl gw d) as [avg lag] eqn:Ew. destruct (terrain_dir d _ avg lag) as [o|] eqn:Eo; cbn [bind]; [|discriminate].
      destruct (mapM f ds) as [l'|] eqn:El; cbn [bind]; [|discriminate]. intros H. injection H as <-. destruct (IH l' eq_refl) as [I1 I2].
      split; [cbn; rewrite I1; reflexivity|]. intros d' o' [X|X]; [|apply I2; exact X]. injection X as <- <-. rewrite Ew. exact Eo. }
  destruct (mapM f dire) as [l|] eqn:E; cbn [bind]; [|discriminate]. intros H. injection H as <-. right. exists l. split; [reflexivity|].
  apply K. exact E.
Qed.

Lemma terrain_none_iff fl table data gw : positive_table table -> 1 <= g_rows data -> 1 <= g_cols data ->
  (terrain fl table data gw = Ok None <-> forall r c, 0 <= r < g_rows data -> 0 <= c < g_cols data -> ~ listed table (g_at data r c)).
Proof.
  intros P Hr Hc. destruct (skip_iff table data P Hr Hc) as (m & E & K). rewrite <- K. unfold terrain. rewrite E. cbn [bind].
  destruct (is_zero (Num m)); [split; reflexivity|]. cbv zeta. split; [|discriminate].
  match goal with |- bind ?x _ = _ -> _ => destruct x; cbn [bind]; discriminate end.
Qed.

Lemma np_max_ok (g : grid num) : 1 <= g_rows g -> 1 <= g_cols g -> exists m, np_max g = Ok m.
Proof.
  intros Hr Hc. unfold np_max. destruct (grid_cells g) as [|x xs] eqn:E; [|eauto]. exfalso.
  assert (X : In (g_at g 0 0) (grid_cells g)) by (apply in_cells; exists 0, 0; repeat split; lia). rewrite E in X. destruct X.
Qed.

(** Success and failure of a tile. *)
Definition direction_fails fl gw (rows cols : Z) (d : dir) : Prop :=
  snd (widths fl gw d) <= rows /\ (fst (widths fl gw d) = 0 \/ snd (widths fl gw d) = rows) /\
  snd (widths fl gw d) + 1 < extent_along d rows cols.
Lemma terrain_dir_cases fl gw d init : fl_ok fl -> (0 < gw)%Q -> 1 <= g_rows init -> 1 <= g_cols init ->
  let r := terrain_dir d init (fst (widths fl gw d)) (snd (widths fl gw d)) in
  (direction_fails fl gw (g_rows init) (g_cols init) d /\ r = Err ZeroDivisionError) \/
  (~ direction_fails fl gw (g_rows init) (g_cols init) d /\ exists o, r = Ok o /\ g_rows o = g_rows init /\ g_cols o = g_cols init).
Proof.
  intros Hf Hg Hr Hc. cbv zeta. destruct (widths_nonneg fl gw Hf Hg d) as [A B]. unfold direction_fails.
  set (avg := fst (widths fl gw d)) in *. set (lag := snd (widths fl gw d)) in *.
  destruct (Z_lt_ge_dec (g_rows init) lag) as [S|S].
  - right. split; [lia|]. rewrite terrain_dir_small by exact S. eexists. split; [reflexivity|]. split; reflexivity.
  - destruct (Z_lt_ge_dec (lag + 1) (extent_along d (g_rows init) (g_cols init))) as [X|X].
    + destruct (Z.eq_dec (Z.min avg (g_rows init - lag)) 0) as [Z0|Z0].
      * left. split; [lia|]. apply terrain_dir_err; lia.
      * right. split; [lia|]. destruct (terrain_dir_ok d init avg lag) as (o & E & H1 & H2 & _); try lia. eauto.
    + right. split; [lia|]. destruct (terrain_dir_ok d init avg lag) as (o & E & H1 & H2 & _); try lia. eauto.
Qed.

Lemma terrain_total fl table data gw : fl_ok fl -> (0 < gw)%Q -> 1 <= g_rows data -> 1 <= g_cols data ->
  (forall d, ~ direction_fails fl gw (g_rows data) (g_cols data) d) -> exists r, terrain fl table data gw = Ok r.
Proof.
  intros Hf Hg Hr Hc H. unfold terrain. destruct (np_max_ok (class2mz table data) Hr Hc) as (m & ->). cbn [bind]. destruct (is_zero m); [eauto|].
  cbv zeta.
  destruct (mapM_ok (fun d => let '(avg, lag) := widths fl gw d in
      let* o := terrain_dir d (zero_to_nan (class2mz table data)) avg lag in Ok (d, o)) dire) as (l & ->); [|cbn [bind]; eauto].
  intros d _. destruct (terrain_dir_cases fl gw d (zero_to_nan (class2mz table data)) Hf Hg Hr Hc) as [[C _]|[_ (o & E & _)]].
  - exfalso. exact (H d C).
  - destruct (widths fl gw d) as [avg lag]. cbn [fst snd] in E. rewrite E. cbn [bind]. eauto.
Qed.
Lemma terrain_fails fl table data gw d : fl_ok fl -> (0 < gw)%Q -> 1 <= g_rows data -> 1 <= g_cols data ->
  direction_fails fl gw (g_rows data) (g_cols data) d -> terrain fl table data gw = Ok None \/ terrain fl table data gw = Err ZeroDivisionError.
Proof.
  intros Hf Hg Hr Hc H. unfold terrain. destruct (np_max_ok (class2mz table data) Hr Hc) as (m & ->). cbn [bind]. destruct (is_zero m); [auto|].
  cbv zeta. right.
  rewrite (mapM_err _ ZeroDivisionError dire d); [reflexivity| | |].
  - intros y e' _. destruct (terrain_dir_cases fl gw y (zero_to_nan (class2mz table data)) Hf Hg Hr Hc) as [[_ E]|[_ (o & E & _)]];
      destruct (widths fl gw y) as [avg lag]; cbn [fst snd] in E; rewrite E; cbn [bind]; [|discriminate]. intros X. injection X as <-. reflexivity.
  - destruct d; cbn; tauto.
  - destruct (terrain_dir_cases fl gw d (zero_to_nan (class2mz table data)) Hf Hg Hr Hc) as [[_ E]|[C _]]; [|exfalso; exact (C H)].
    destruct (widths fl gw d) as [avg lag]. cbn [fst snd] in E. rewrite E. reflexivity.
Qed.

Definition dir_dec (a b : dir) : {a = b} + {a <> b}.
Proof. decide equality. Defined.
(** For examples: look at one direction's output. *)
Definition check (r : res (option (list (dir * grid num)))) (d : dir) (P : grid num -> bool) : bool :=
  match r with
  | Ok (Some l) => existsb (fun x => (if dir_dec (fst x) d then true else false) && P (snd x)) l
  | _ => false
  end.
Lemma check_ok r d P : check r d P = true -> exists l o, r = Ok (Some l) /\ In (d, o) l /\ P o = true.
Proof.
  unfold check. destruct r as [[l|]|]; try discriminate. intros H. apply existsb_exists in H. destruct H as ([d' o] & I & H).
  apply andb_true_iff in H. destruct H as [H1 H2]. cbn [fst snd] in *. destruct (dir_dec d' d) as [->|]; [eauto|discriminate].
Qed.
Definition num_is (x : num) (q : Q) : bool := match x with Num a => Qeq_bool a q | NaN => false end.
Lemma num_is_ok x q : num_is x q = true -> same_num x (Num q).
Proof. destruct x; cbn; [discriminate|apply Qeq_bool_eq]. Qed.
Definition is_nan (x : num) : bool := match x with NaN => true | _ => false end.
