(** * Theorems about the terrain multiplier (C20-C27). *)
From Coq Require Reals.
From Verif Require Import Base BaseLemmas NameModel TerrModel TerrSpec TerrProofs TerrRunProofs.
From Verif Require MzModel MzProofs.
Open Scope Z_scope.

(** ** C20: the offset tables. *)

(** The m-th neighbour looked up is the pixel lag+1+m steps upwind. *)
Theorem C20_upwind_ray d i j m lag : (point_r d i m lag, point_c d j m lag) = up_pixel d (lag + 1 + m) i j.
Proof. exact (point_up d i j m lag). Qed.
Print Assumptions C20_upwind_ray.

(** The number of neighbours announced is exactly the number of pixels that
    exist beyond the lag: step k exists iff k <= lag + that number. *)
Theorem C20_in_bounds d rows cols lag i j k : 0 <= i < rows -> 0 <= j < cols -> 0 <= lag -> lag < k ->
  (0 <= fst (up_pixel d k i j) < rows /\ 0 <= snd (up_pixel d k i j) < cols <-> k <= lag + all_neighb d i j rows cols lag).
Proof. intros. rewrite <- inside_iff. apply neighb_inside; assumption. Qed.
Print Assumptions C20_in_bounds.

(** Every array access made while averaging is a plain in-range access. *)
Theorem C20_lookups_in_range d rows cols lag i j m : 0 <= i < rows -> 0 <= j < cols -> 0 <= lag ->
  0 <= m < all_neighb d i j rows cols lag -> 0 <= point_r d i m lag < rows /\ 0 <= point_c d j m lag < cols.
Proof.
  intros Hi Hj Hl Hm. pose proof (C20_in_bounds d rows cols lag i j (lag + 1 + m) Hi Hj Hl ltac:(lia)) as K.
  rewrite <- C20_upwind_ray in K. cbn [fst snd] in K. apply K. lia.
Qed.
Print Assumptions C20_lookups_in_range.

Example C20_ex : all_neighb NE 3 1 6 6 1 = 2 /\ map (fun m => (point_r NE 3 m 1, point_c NE 1 m 1)) (zrange 2) = [(1, 3); (0, 4)].
Proof. split; reflexivity. Qed.

(** ** C21: averaging is the mean over the upwind fetch. *)
Theorem C21_mean d data avg lag : 0 <= lag -> 1 <= avg ->
  exists o, convo d data avg lag = Ok o /\ g_rows o = g_rows data /\ g_cols o = g_cols data /\
    forall i j, 0 <= i < g_rows data -> 0 <= j < g_cols data ->
      (g_at o i j == mean_or (g_at data i j) (values data (fetch d (g_rows data) (g_cols data) lag avg i j)))%Q.
Proof. exact (convo_ok d data avg lag). Qed.
Print Assumptions C21_mean.

(** For the whole stage: on every pixel that has a value the result is the mean
    over the full fetch (lag+1 .. lag+avg), for all directions but west and
    east whatever the raster, and for those too when the raster has at least
    lag+avg rows. *)
Theorem C21_stage_full_fetch d init avg lag i j : 0 <= lag < g_rows init -> 1 <= avg -> 
  0 <= i < g_rows init -> 0 <= j < g_cols init ->
  (match d with W_ | E_ => avg + lag <= g_rows init | _ => True end) ->
  exists o, terrain_dir d init avg lag = Ok o /\
    same_num (g_at o i j) (match g_at init i j with NaN => NaN | Num q => 
       Num (mean_or q (values (fill init) (fetch d (g_rows init) (g_cols init) lag avg i j))) end).
Proof.
  intros Hl Ha Hi Hj Hd. destruct (terrain_dir_ok d init avg lag) as (o & E & _ & _ & V); try lia.
  exists o. split; [exact E|]. eapply same_num_trans; [apply V; assumption|]. unfold cell_mean. cbn [fill gmap g_rows g_cols g_at].
  rewrite fetch_clamp by (try assumption; lia). destruct (g_at init i j); cbn; [exact I|reflexivity].
Qed.
Print Assumptions C21_stage_full_fetch.

(** The whole tile: every one of the eight directions is written exactly once, and
    the value of a pixel is the mean, over its upwind fetch, of the multipliers
    the table gives to the pixels' classes (1 where it gives none); a pixel
    whose own class has no multiplier is missing. *)
Theorem C21_tile fl table data gw l : fl_ok fl -> (0 < gw)%Q -> terrain fl table data gw = Ok (Some l) ->
  NoDup (map fst l) /\
  forall d, exists o, In (d, o) l /\
    let avg := fst (widths fl gw d) in let lag := snd (widths fl gw d) in
    (0 <= lag < g_rows data -> 1 <= avg -> (match d with W_ | E_ => avg + lag <= g_rows data | _ => True end) ->
     g_rows o = g_rows data /\ g_cols o = g_cols data /\
     forall mult i j, (forall r c, class_mult table (g_at data r c) (mult r c)) -> 0 <= i < g_rows data -> 0 <= j < g_cols data ->
       same_num (g_at o i j) (match mult i j with NaN => NaN | Num q =>
         Num (mean_or q (map (fun p => match mult (fst p) (snd p) with Num v => v | NaN => 1%Q end)
                             (fetch d (g_rows data) (g_cols data) lag avg i j))) end)).
Proof.
  intros Hf Hg E. destruct (terrain_skip_or_run _ _ _ _ _ E) as [|(l' & El & Ed & K)]; [discriminate|]. injection El as <-. split.
  - rewrite Ed. unfold dire. repeat constructor; cbn; intuition discriminate.
  - intros d. assert (I : In d (map fst l)) by (rewrite Ed; destruct d; cbn; tauto).
    apply in_map_iff in I. destruct I as ((d' & o) & X & I). cbn in X. subst d'. exists o. split; [exact I|]. cbv zeta. intros Hl Ha Hd.
    specialize (K d o I). set (init := zero_to_nan (class2mz table data)) in *.
    set (avg := fst (widths fl gw d)) in *. set (lag := snd (widths fl gw d)) in *.
    destruct (Z_le_gt_dec (g_cols data) 0) as [Z0|Z0].
    { unfold terrain_dir in K. rewrite (proj2 (Z.ltb_ge _ _)) in K by (cbn; lia). cbv zeta in K.
      assert (1 <= Z.min avg (g_rows init - lag)) as Hm by (cbn; lia).
      rewrite clamp_min in K. destruct (convo_ok d (fill init) (Z.min avg (g_rows init - lag)) lag ltac:(lia) Hm) as (o' & E' & R & C & _).
      rewrite E' in K. cbn [bind] in K. injection K as <-. cbn [g_rows g_cols]. rewrite R, C. split; [reflexivity|]. split; [reflexivity|]. intros; lia. }
    destruct (terrain_dir_ok d init avg lag) as (o' & E' & R & C & V); try (cbn; lia).
    rewrite K in E'. injection E' as <-. split; [exact R|]. split; [exact C|]. intros mult i j Hm Hi Hj.
    assert (M : forall r c, g_at init r c = mult r c).
    { intros r c. specialize (Hm r c). unfold class_mult in Hm. destruct (mult r c) as [|q].
      - apply init_missing. exact Hm.
      - apply init_value; tauto. }
    eapply same_num_trans; [apply V; assumption|]. unfold cell_mean. cbn [fill gmap g_rows g_cols g_at].
    change (g_rows init) with (g_rows data). change (g_cols init) with (g_cols data).
    rewrite fetch_clamp by (try assumption; lia). rewrite !M. unfold values. cbn [gmap g_at].
    assert (F : forall ps : list (Z * Z), map (fun p => match g_at init (fst p) (snd p) with NaN => 1%Q | Num q => q end) ps =
       map (fun p => match mult (fst p) (snd p) with NaN => 1%Q | Num q => q end) ps).
    { intros ps. apply map_ext. intros p. rewrite M. reflexivity. }
    unfold fill, gmap. cbn [g_at]. rewrite F. destruct (mult i j); cbn; [exact Logic.I|reflexivity].
Qed.
Print Assumptions C21_tile.

(** The fetch in metres: it starts 200 m upwind and is 500 m long, each to the
    nearest pixel in the cardinal directions and rounded down to a whole number
    of diagonal steps (1.414 pixels) in the others, up to float rounding. *)
Theorem C21_metres fl gw d : fl_ok fl -> (0 < gw)%Q ->
  let avg := inject_Z (fst (widths fl gw d)) in let lag := inject_Z (snd (widths fl gw d)) in let diag := (gw * (1414 # 1000))%Q in
  if is_cardinal d then
    (Qabs (avg * gw - 500) <= gw / 2 + 500 * u53 /\ Qabs (lag * gw - 200) <= gw / 2 + 200 * u53)%Q
  else
    (avg * diag <= 500 * (1 + 8 * u53) /\ 500 * (1 - 8 * u53) < (avg + 1) * diag /\
     lag * diag <= 200 * (1 + 8 * u53) /\ 200 * (1 - 8 * u53) < (lag + 1) * diag)%Q.
Proof. intros Hf Hg. apply widths_metres; assumption. Qed.
Print Assumptions C21_metres.

(** Not so for west and east on rasters with fewer rows than lag+avg: the
    fetch is cut to the number of ROWS although it runs along columns. *)
Theorem C21_few_rows_refuted : exists init avg lag o,
  0 <= lag < g_rows init /\ 1 <= avg /\ terrain_dir W_ init avg lag = Ok o /\
  ~ same_num (g_at o 0 3) (Num (mean_or 0 (values (fill init) (fetch W_ (g_rows init) (g_cols init) lag avg 0 3)))).
Proof.
  exists (Grid 1 4 (fun _ c => Num (inject_Z (c + 1)))), 3, 0. eexists. split; [cbn; lia|]. split; [lia|]. split; [reflexivity|].
  intros H. vm_compute in H. discriminate H.
Qed.
Print Assumptions C21_few_rows_refuted.

Example C21_ex : exists o, convo W_ (Grid 1 5 (fun _ c => inject_Z (c * c))) 2 1 = Ok o /\
  (g_at o 0 4 == (1 + 4) / 2)%Q /\ (g_at o 0 2 == 0)%Q /\ (g_at o 0 1 == 1)%Q.
Proof. eexists. split; [reflexivity|]. repeat split; reflexivity. Qed.

(** ** C22: bounds and constants. *)
Theorem C22_bounds d data avg lag lo hi o i j : 0 <= lag -> 1 <= avg ->
  (forall r c, 0 <= r < g_rows data -> 0 <= c < g_cols data -> (lo <= g_at data r c <= hi)%Q) ->
  convo d data avg lag = Ok o -> 0 <= i < g_rows data -> 0 <= j < g_cols data -> (lo <= g_at o i j <= hi)%Q.
Proof.
  intros Hl Ha H E Hi Hj. destruct (convo_ok d data avg lag Hl Ha) as (o' & E' & _ & _ & V). rewrite E in E'. injection E' as <-.
  rewrite (V i j Hi Hj). apply cell_mean_bounds; assumption.
Qed.
Print Assumptions C22_bounds.

(** The stage, including its no-data filling with 1: values that come out lie
    in any interval that contains the initial multipliers and 1. *)
Theorem C22_stage_bounds fl table data gw l d o i j q lo hi : fl_ok fl -> (0 < gw)%Q ->
  terrain fl table data gw = Ok (Some l) -> In (d, o) l -> 0 <= i < g_rows data -> 0 <= j < g_cols data ->
  (lo <= 1 <= hi)%Q -> (forall cat v, In (cat, Num v) table -> (lo <= v <= hi)%Q) ->
  g_at o i j = Num q -> (lo <= q <= hi)%Q.
Proof.
  intros Hf Hg E Ho Hi Hj H1 Ht Eq. destruct (terrain_skip_or_run _ _ _ _ _ E) as [|(l' & El & _ & K)]; [discriminate|].
  injection El as <-. specialize (K d o Ho). set (init := zero_to_nan (class2mz table data)) in *.
  destruct (widths_nonneg fl gw Hf Hg d) as [A B]. set (avg := fst (widths fl gw d)) in *. set (lag := snd (widths fl gw d)) in *.
  assert (F : forall r c, 0 <= r < g_rows (fill init) -> 0 <= c < g_cols (fill init) -> (lo <= g_at (fill init) r c <= hi)%Q).
  { intros r c _ _. unfold fill, gmap. cbn [g_at]. destruct (g_at init r c) as [|v] eqn:Ev; [exact H1|].
    unfold init, zero_to_nan, class2mz, gmap in Ev. cbn [g_at] in Ev. fold (reclass (g_at data r c) table (Num 0)) in Ev.
    destruct (in_dec Z.eq_dec (g_at data r c) (map fst table)) as [I|I].
    - destruct (listed_last _ _ I) as (w & Hw). rewrite (reclass_last _ _ _ _ Hw) in Ev. destruct (is_zero w); [discriminate|]. subst w.
      destruct Hw as (l1 & l2 & -> & _). apply (Ht (g_at data r c)). apply in_or_app. right. left. reflexivity.
    - rewrite reclass_unlisted in Ev by exact I. discriminate. }
  destruct (Z_lt_ge_dec (g_rows init) lag) as [S|S].
  - rewrite terrain_dir_small in K by exact S. injection K as <-. cbn [gmap g_at] in Eq. injection Eq as <-. apply F; assumption.
  - destruct (terrain_dir_cases fl gw d init Hf Hg) as [[_ X]|[N _]]; try (cbn; lia).
    + subst avg lag. rewrite K in X. discriminate.
    + unfold direction_fails in N. change (fst (widths fl gw d)) with avg in N. change (snd (widths fl gw d)) with lag in N. 
      assert (X : exists o', terrain_dir d init avg lag = Ok o' /\ g_rows o' = g_rows init /\ g_cols o' = g_cols init /\
        forall i j, 0 <= i < g_rows init -> 0 <= j < g_cols init ->
          same_num (g_at o' i j) (masked (g_at init i j) (cell_mean d (fill init) (Z.min avg (g_rows init - lag)) lag i j))).
      { assert (1 <= g_rows init) by (cbn; lia). assert (1 <= g_cols init) by (cbn; lia). apply terrain_dir_ok; lia. }
      destruct X as (o' & E' & _ & _ & V).
      rewrite K in E'. injection E' as <-. specialize (V i j Hi Hj). rewrite Eq in V. destruct (g_at init i j); cbn in V; [contradiction|].
      rewrite V. apply cell_mean_bounds; assumption.
Qed.
Print Assumptions C22_stage_bounds.

Theorem C22_uniform d data avg lag v o i j : 0 <= lag -> 1 <= avg ->
  (forall r c, 0 <= r < g_rows data -> 0 <= c < g_cols data -> (g_at data r c == v)%Q) ->
  convo d data avg lag = Ok o -> 0 <= i < g_rows data -> 0 <= j < g_cols data -> (g_at o i j == v)%Q.
Proof.
  intros Hl Ha H E Hi Hj. pose proof (C22_bounds d data avg lag v v o i j Hl Ha) as K.
  assert (L : (v <= g_at o i j <= v)%Q); [|lra]. apply K; try assumption. intros r c Hr Hc. rewrite (H r c Hr Hc). lra.
Qed.
Print Assumptions C22_uniform.

(** Without the 1 of filled no-data pixels in the interval the bound is false. *)
Theorem C22_nodata_pulls_refuted : exists init o, terrain_dir W_ init 1 0 = Ok o /\
  (forall c q, 0 <= c < 3 -> g_at init 0 c = Num q -> (q == 1#2)%Q) /\ same_num (g_at o 0 2) (Num 1).
Proof.
  exists (Grid 1 3 (fun _ c => if c =? 1 then NaN else Num (1#2))). eexists. split; [reflexivity|]. split; [|reflexivity].
  intros c q _. cbn [g_at]. destruct (c =? 1); [discriminate|]. intros H. injection H as <-. reflexivity.
Qed.
Print Assumptions C22_nodata_pulls_refuted.

Example C22_ex : exists o, convo SE (Grid 4 4 (fun r c => inject_Z (r + c))) 2 0 = Ok o /\ (g_at o 0 0 == 3)%Q.
Proof. eexists. split; reflexivity. Qed.

(** ** C23: division by zero, exactly. *)
Theorem C23_exact_condition fl gw d init : fl_ok fl -> (0 < gw)%Q -> 1 <= g_rows init -> 1 <= g_cols init ->
  let '(avg, lag) := widths fl gw d in
  (terrain_dir d init avg lag = Err ZeroDivisionError <->
     lag <= g_rows init /\ (avg = 0 \/ lag = g_rows init) /\ lag + 1 < extent_along d (g_rows init) (g_cols init)) /\
  (forall e, terrain_dir d init avg lag = Err e -> e = ZeroDivisionError) /\
  (forall o, terrain_dir d init avg lag = Ok o -> g_rows o = g_rows init /\ g_cols o = g_cols init).
Proof.
  intros Hf Hg Hr Hc. pose proof (terrain_dir_cases fl gw d init Hf Hg Hr Hc) as K. unfold direction_fails in K. cbv zeta in K.
  destruct (widths fl gw d) as [avg lag]. cbn [fst snd] in K. destruct K as [[F ->]|[N (o & -> & H1 & H2)]].
  - split; [tauto|]. split; [intros e X; injection X as <-; reflexivity|discriminate].
  - split; [split; [discriminate|tauto]|]. split; [discriminate|]. intros o' X. injection X as <-. auto.
Qed.
Print Assumptions C23_exact_condition.

(** When the averaging width is zero, whatever the rounding ... *)
Theorem C23_zero_width fl gw d : fl_ok fl -> (0 < gw)%Q ->
  ((gw <= 353)%Q -> fst (widths fl gw d) <> 0) /\
  (is_cardinal d = true -> (1001 <= gw)%Q -> fst (widths fl gw d) = 0) /\
  (is_cardinal d = false -> (354 <= gw)%Q -> fst (widths fl gw d) = 0).
Proof.
  intros Hf Hg. split; [|split].
  - intros H. pose proof (avg_positive fl gw Hf Hg d H). lia.
  - apply avg_zero_cardinal; assumption.
  - apply avg_zero_diagonal; assumption.
Qed.
Print Assumptions C23_zero_width.

(** ... and exactly, without rounding: from 1000 m in cardinal directions, above
    500/1.414 m diagonally. *)
Theorem C23_zero_width_exact gw d : (0 < gw)%Q ->
  (fst (widths (fun x => x) gw d) = 0 <-> if is_cardinal d then (1000 <= gw)%Q else (500 / (1414 # 1000) < gw)%Q).
Proof. exact (avg_zero_exact gw d). Qed.
Print Assumptions C23_zero_width_exact.

(** Hence tiles of pixels up to 353 m complete unless a lag width equals the
    number of rows, and a failing direction fails the whole tile. *)
Theorem C23_completes fl table data gw : fl_ok fl -> (0 < gw)%Q -> (gw <= 353)%Q -> 1 <= g_rows data -> 1 <= g_cols data ->
  (forall d, snd (widths fl gw d) <> g_rows data) -> exists r, terrain fl table data gw = Ok r.
Proof.
  intros Hf Hg H Hr Hc Hn. apply terrain_total; try assumption. intros d [_ [[X|X] _]].
  - pose proof (avg_positive fl gw Hf Hg d H). lia.
  - exact (Hn d X).
Qed.
Print Assumptions C23_completes.

(** A single direction that divides by zero fails the tile in all directions
    (unless the tile is skipped). *)
Theorem C23_tile_fails fl table data gw d : fl_ok fl -> (0 < gw)%Q -> 1 <= g_rows data -> 1 <= g_cols data ->
  (let '(avg, lag) := widths fl gw d in
   lag <= g_rows data /\ (avg = 0 \/ lag = g_rows data) /\ lag + 1 < extent_along d (g_rows data) (g_cols data)) ->
  terrain fl table data gw = Ok None \/ terrain fl table data gw = Err ZeroDivisionError.
Proof.
  intros Hf Hg Hr Hc H. apply (terrain_fails fl table data gw d Hf Hg Hr Hc). unfold direction_fails. cbv zeta.
  destruct (widths fl gw d) as [avg lag]. exact H.
Qed.
Print Assumptions C23_tile_fails.

(** The claim "averaging never divides by zero" is false: a 400 m raster, and
    a 25 m raster of 8 rows. *)
Theorem C23_refuted : exists table data gw, (0 < gw)%Q /\ terrain (fun x => x) table data gw = Err ZeroDivisionError.
Proof.
  exists [(1, Num (1#2))], (Grid 8 12 (fun _ _ => 1)), 25%Q. split; [lra|]. vm_compute. reflexivity.
Qed.
Print Assumptions C23_refuted.
Theorem C23_coarse_refuted : exists table data gw, (gw == 400)%Q /\ terrain (fun x => x) table data gw = Err ZeroDivisionError.
Proof. exists [(1, Num (1#2))], (Grid 4 4 (fun _ _ => 1)), 400%Q. split; [reflexivity|]. vm_compute. reflexivity. Qed.
Print Assumptions C23_coarse_refuted.

Example C23_ex : check (terrain (fun x => x) [(1, Num (1#2))] (Grid 4 4 (fun r c => if r =? c then 1 else 7)) 100%Q) NW
    (fun o => (g_rows o =? 4) && (g_cols o =? 4)) = true.
Proof. vm_compute. reflexivity. Qed.

(** ** C24: no-data. *)
Theorem C24_missing_exact fl table data gw l d o i j : fl_ok fl -> (0 < gw)%Q ->
  terrain fl table data gw = Ok (Some l) -> In (d, o) l -> 0 <= i < g_rows data -> 0 <= j < g_cols data ->
  snd (widths fl gw d) <= g_rows data ->
  (g_at o i j = NaN <-> missing_class table (g_at data i j)).
Proof.
  intros Hf Hg E Ho Hi Hj Hs. rewrite <- init_missing. destruct (terrain_skip_or_run _ _ _ _ _ E) as [|(l' & El & _ & K)]; [discriminate|].
  injection El as <-. specialize (K d o Ho). set (init := zero_to_nan (class2mz table data)) in *.
  unfold terrain_dir in K. rewrite (proj2 (Z.ltb_ge _ _)) in K by exact Hs. cbv zeta in K.
  destruct (convo _ _ _ _) as [o'|]; cbn [bind] in K; [|discriminate]. injection K as <-.
  change (masked (g_at init i j) (g_at o' i j) = NaN <-> g_at init i j = NaN). destruct (g_at init i j); cbn [masked]; split; congruence.
Qed.
Print Assumptions C24_missing_exact.

(** In the small-raster branch nothing is missing: an unclassified pixel has value 1. *)
Theorem C24_small_raster fl table data gw l d o i j : 
  terrain fl table data gw = Ok (Some l) -> In (d, o) l -> g_rows data < snd (widths fl gw d) ->
  missing_class table (g_at data i j) -> g_at o i j = Num 1.
Proof.
  intros E Ho Hs M. apply init_missing in M. destruct (terrain_skip_or_run _ _ _ _ _ E) as [|(l' & El & _ & K)]; [discriminate|].
  injection El as <-. specialize (K d o Ho). rewrite terrain_dir_small in K by exact Hs. injection K as <-. cbn [gmap fill g_at]. rewrite M. reflexivity.
Qed.
Print Assumptions C24_small_raster.
Theorem C24_small_raster_refuted : exists table data gw l o, terrain (fun x => x) table data gw = Ok (Some l) /\ In (W_, o) l /\
  missing_class table (g_at data 0 0) /\ g_at o 0 0 <> NaN.
Proof.
  set (table := [(1, Num (1#2))]). set (data := Grid 2 2 (fun r c => if r + c =? 0 then 9 else 1)).
  destruct (check_ok (terrain (fun x => x) table data 25) W_ (fun o => negb (is_nan (g_at o 0 0)))) as (l & o & E & I & V); [vm_compute; reflexivity|].
  exists table, data, 25%Q, l, o. repeat (split; [assumption|]). split.
  - left. intros [H|[]]. discriminate H.
  - destruct (g_at o 0 0); [discriminate V|discriminate].
Qed.
Print Assumptions C24_small_raster_refuted.

(** A tile is skipped exactly when none of its pixels is classified (for a
    table of positive multipliers). *)
Theorem C24_skipped fl table data gw : positive_table table -> 1 <= g_rows data -> 1 <= g_cols data ->
  (terrain fl table data gw = Ok None <-> forall r c, 0 <= r < g_rows data -> 0 <= c < g_cols data -> ~ listed table (g_at data r c)).
Proof. exact (terrain_none_iff fl table data gw). Qed.
Print Assumptions C24_skipped.

Example C24_ex : check (terrain (fun x => x) [(1, Num (1#2))] (Grid 4 4 (fun r c => if r =? c then 1 else 7)) 100%Q) W_
    (fun o => is_nan (g_at o 1 0) && num_is (g_at o 3 3) 1) = true /\ snd (widths (fun x => x) 100 W_) = 2.
Proof. vm_compute. split; reflexivity. Qed.

(** ** C25: tiling. The tile is [tr0,tr1) x [tc0,tc1); its buffered window extends it by
    at least [B] pixels, cut at the raster's edge (C03). *)
Theorem C25_tiling_independent fl table (data : grid Z) gw B tr0 tr1 tc0 tc1 r0 r1 c0 c1 l lw d o ow : fl_ok fl -> (0 < gw)%Q ->
  0 <= tr0 < tr1 /\ tr1 <= g_rows data -> 0 <= tc0 < tc1 /\ tc1 <= g_cols data ->
  1 <= fst (widths fl gw d) -> fst (widths fl gw d) + snd (widths fl gw d) <= B ->
  0 <= r0 <= Z.max 0 (tr0 - B) -> Z.min (g_rows data) (tr1 + B) <= r1 <= g_rows data ->
  0 <= c0 <= Z.max 0 (tc0 - B) -> Z.min (g_cols data) (tc1 + B) <= c1 <= g_cols data ->
  terrain fl table data gw = Ok (Some l) -> In (d, o) l ->
  terrain fl table (window data r0 r1 c0 c1) gw = Ok (Some lw) -> In (d, ow) lw ->
  forall i j, tr0 <= i < tr1 -> tc0 <= j < tc1 -> same_num (g_at ow (i - r0) (j - c0)) (g_at o i j).
Proof.
  intros Hf Hg Hr Hc Ha HB R0 R1 C0 C1 E Ho Ew How i j Hi Hj.
  destruct (terrain_skip_or_run _ _ _ _ _ E) as [|(l' & El & _ & K)]; [discriminate|]. injection El as <-. specialize (K d o Ho).
  destruct (terrain_skip_or_run _ _ _ _ _ Ew) as [|(l' & El & _ & Kw)]; [discriminate|]. injection El as <-. specialize (Kw d ow How).
  pose proof (terrain_dir_window (g_rows data) (g_cols data) r0 r1 c0 c1 B tr0 tr1 tc0 tc1 Hr Hc R0 R1 C0 C1 d
    (zero_to_nan (class2mz table data)) (zero_to_nan (class2mz table (window data r0 r1 c0 c1))) (fst (widths fl gw d)) (snd (widths fl gw d))
    eq_refl eq_refl (proj2 (widths_nonneg fl gw Hf Hg d)) Ha ltac:(lia) eq_refl eq_refl (fun _ _ _ _ => eq_refl)) as T.
  rewrite K, Kw in T. apply T; assumption.
Qed.
Print Assumptions C25_tiling_independent.

(** A tile skipped because its window is unclassified has only missing values
    in the whole-raster result. *)
Theorem C25_skipped_tile fl table (data : grid Z) gw r0 r1 c0 c1 l d o i j : fl_ok fl -> (0 < gw)%Q -> positive_table table ->
  0 <= r0 <= i /\ i < r1 <= g_rows data -> 0 <= c0 <= j /\ j < c1 <= g_cols data -> snd (widths fl gw d) <= g_rows data ->
  terrain fl table (window data r0 r1 c0 c1) gw = Ok None ->
  terrain fl table data gw = Ok (Some l) -> In (d, o) l -> g_at o i j = NaN.
Proof.
  intros Hf Hg P Hr Hc Hs Ew E Ho. apply (C24_missing_exact fl table data gw l d o i j); try assumption; try lia. left.
  apply (terrain_none_iff fl table (window data r0 r1 c0 c1) gw P) with (r := i - r0) (c := j - c0) in Ew; try (cbn; lia).
  cbn [window g_at] in Ew. replace (r0 + (i - r0)) with i in Ew by lia. replace (c0 + (j - c0)) with j in Ew by lia. exact Ew.
Qed.
Print Assumptions C25_skipped_tile.

(** With a smaller buffer the claim is false. *)
Theorem C25_small_buffer_refuted : exists table (data : grid Z) gw l lw o ow,
  terrain (fun x => x) table data gw = Ok (Some l) /\ In (W_, o) l /\
  terrain (fun x => x) table (window data 0 3 1 4) gw = Ok (Some lw) /\ In (W_, ow) lw /\ ~ same_num (g_at ow 0 2) (g_at o 0 3).
Proof.
  set (table := [(0, Num 2); (1, Num (1#2))]). set (data := Grid 3 4 (fun _ c => if c =? 0 then 1 else 0)).
  destruct (check_ok (terrain (fun x => x) table data 250) W_ (fun o => num_is (g_at o 0 3) (5#4))) as (l & o & E & I & V); [vm_compute; reflexivity|].
  destruct (check_ok (terrain (fun x => x) table (window data 0 3 1 4) 250) W_ (fun o => num_is (g_at o 0 2) 2)) as (lw & ow & Ew & Iw & Vw); [vm_compute; reflexivity|].
  exists table, data, 250%Q, l, lw, o, ow. repeat (split; [assumption|]).
  apply num_is_ok in V, Vw. intros C. apply (same_num_trans _ _ _ (same_num_sym _ _ Vw)) in C. apply (same_num_trans _ _ _ C) in V.
  cbn in V. discriminate V.
Qed.
Print Assumptions C25_small_buffer_refuted.

Example C25_ex :
  let table := [(0, Num 2); (1, Num (1#2))] in let data := Grid 6 9 (fun r c => (r + c) mod 2) in
  widths (fun x => x) 250%Q W_ = (2, 1) /\
  check (terrain (fun x => x) table data 250) W_ (fun o => num_is (g_at o 1 7) (5#4)) = true /\
  check (terrain (fun x => x) table (window data 0 6 3 9) 250) W_ (fun o => num_is (g_at o 1 4) (5#4)) = true.
Proof. vm_compute. repeat split; reflexivity. Qed.

(** ** C26: the table (terrain part; see ShldProps for shielding). *)
Theorem C26_terrain_table table data r c :
  (forall v, last_row table (g_at data r c) v -> g_at (class2mz table data) r c = v) /\
  (~ listed table (g_at data r c) -> g_at (class2mz table data) r c = Num 0).
Proof. split; [intros v; apply reclass_last|intros H; apply reclass_unlisted; exact H]. Qed.
Print Assumptions C26_terrain_table.
Example C26_ex : g_at (class2mz [(1, Num 5); (2, Num 6); (1, Num 7)] (Grid 1 3 (fun _ c => c + 1))) 0 0 = Num 7 /\
  last_row [(1, Num 5); (2, Num 6); (1, Num 7)] 1 (Num 7).
Proof. split; [reflexivity|]. exists [(1, Num 5); (2, Num 6)], []. split; [reflexivity|intros []]. Qed.

(** ** C27: rougher terrain, smaller multiplier. *)
Section C27.
Import Reals MzModel MzProofs.
Local Open Scope R_scope.
Theorem C27_decreasing a b : mz_defined a -> a < b -> mz_defined b /\ mz b < mz a.
Proof. exact (mz_decreasing a b). Qed.
(** With any monotone rounding after every operation the order is never reversed. *)
Theorem C27_rounded rnd a b : (forall x y, x <= y -> rnd x <= rnd y) -> 0 <= rnd 0.4554 -> rnd (-0.2827) <= 0 ->
  mz_rnd_defined rnd a -> a <= b -> mz_rnd_defined rnd b /\ mz_rnd rnd b <= mz_rnd rnd a.
Proof. intros H1 H2 H3. exact (mz_rnd_nonincreasing rnd H1 H2 H3 a b). Qed.
(** On roughness lengths from 2 mm to 3 m (the shipped table: 0.002 .. 2) the
    formula is defined and positive, so no listed class is taken for no-data. *)
Theorem C27_positive z : 0.002 <= z <= 3 -> mz_defined z /\ 0 < mz z.
Proof. intros [H1 H2]. split; [exact (mz_defined_from z H1)|]. apply mz_positive; [exact (mz_defined_from z H1)|exact H2]. Qed.
(** It has a value exactly above this roughness (about 0.27 mm) ... *)
Theorem C27_defined z : mz_defined z <-> exp (- 3.734 / 0.4554) < z.
Proof. exact (mz_defined_above z). Qed.
(** ... and there each multiplier belongs to exactly one roughness. *)
Theorem C27_inverse z m : mz_defined z /\ mz z = m <-> z = exp ((exp ((1.0762 - m) / 0.2827) - 3.734) / 0.4554).
Proof. exact (mz_inverse z m). Qed.
(** Without rounding the rounded formula is the formula. *)
Theorem C27_unrounded z : (mz_rnd_defined (fun x => x) z <-> mz_defined z) /\ mz_rnd (fun x => x) z = mz z.
Proof. split; [reflexivity|reflexivity]. Qed.
End C27.
Print Assumptions C27_defined.
Print Assumptions C27_inverse.
Print Assumptions C27_unrounded.
Print Assumptions C27_decreasing.
Print Assumptions C27_rounded.
Print Assumptions C27_positive.
