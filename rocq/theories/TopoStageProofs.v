(** * The topographic stage in terms of wind lines. *)
From Coq Require Import Permutation Sorted.
From Verif Require Import Base BaseLemmas ClipProofs NameModel TerrSpec TerrProofs TopoModel TopoSpec TopoLineProofs TopoMhProofs TopoCalcProofs TopoPathProofs TopoRunProofs.
Open Scope Z_scope.

Lemma inside_ins nr nc r c : inside nr nc (r, c) = true <-> ins nr nc r c.
Proof. unfold inside, ins. cbn [fst snd]. rewrite !andb_true_iff, !Z.leb_le, !Z.ltb_lt. tauto. Qed.
Lemma down_eq d t r c : down_cell d t r c = (r + t * i_incr d, c + t * j_incr d).
Proof. destruct (increments d) as [-> ->]. unfold down_cell, up_pixel. f_equal; ring. Qed.
Lemma up_eq d t r c : up_pixel d t r c = (r - t * i_incr d, c - t * j_incr d).
Proof. destruct (increments d) as [-> ->]. unfold up_pixel. f_equal; ring. Qed.
Lemma edge_up nr nc d r c : inside nr nc (up_pixel d 1 r c) = false <-> on_edge nr nc d r c.
Proof.
  rewrite up_eq. unfold on_edge. rewrite !Z.mul_1_l. destruct (inside nr nc (r - i_incr d, c - j_incr d)) eqn:E.
  - apply inside_ins in E. split; [discriminate|]. intros H. destruct (H E).
  - split; [|reflexivity]. intros _ H. apply inside_ins in H. congruence.
Qed.

Section Lines.
Variables (nr nc : Z) (d : dir).
Hypothesis Hnr : 1 <= nr.
Hypothesis Hnc : 1 <= nc.

(** Every wind line is one of the traversal lines, and conversely. *)
Lemma wind_path r0 c0 n : wind_line nr nc d r0 c0 n ->
  In (idx nr r0 c0) (starts nr nc d) /\
  make_path nr nc (idx nr r0 c0) d = map (fun t => idx nr (fst (down_cell d t r0 c0)) (snd (down_cell d t r0 c0))) (zrange n).
Proof.
  intros (I & U & Hn & A & O). apply inside_ins in I. apply edge_up in U. split.
  - apply in_starts; try assumption. exists r0, c0. auto.
  - destruct (make_path_spec nr nc Hnr Hnc d r0 c0 I) as (len & L1 & -> & B & X).
    assert (len = n) as ->.
    { destruct (Z.lt_trichotomy len n) as [L|[L|L]]; [|exact L|].
      - exfalso. apply X. specialize (A len ltac:(lia)). rewrite down_eq in A. apply inside_ins in A. exact A.
      - exfalso. specialize (B n ltac:(lia)). apply inside_ins in B. rewrite down_eq in O. congruence. }
    apply map_ext. intros t. rewrite down_eq. reflexivity.
Qed.
Lemma start_wind s : In s (starts nr nc d) -> exists r0 c0 n, s = idx nr r0 c0 /\ wind_line nr nc d r0 c0 n.
Proof.
  intros H. apply in_starts in H; try assumption. destruct H as (r & c & I & -> & E). destruct (make_path_spec nr nc Hnr Hnc d r c I) as (len & L1 & _ & B & X).
  exists r, c, len. split; [reflexivity|]. split; [apply inside_ins; exact I|]. split; [apply edge_up; exact E|]. split; [exact L1|]. split.
  - intros t Ht. rewrite down_eq. apply inside_ins. apply B. exact Ht.
  - rewrite down_eq. destruct (inside nr nc (r + len * i_incr d, c + len * j_incr d)) eqn:Y; [|reflexivity]. apply inside_ins in Y. destruct (X Y).
Qed.
(** Every cell lies on exactly one wind line, at exactly one position. *)
Lemma cell_on_line r c : inside nr nc (r, c) = true ->
  exists r0 c0 n t, wind_line nr nc d r0 c0 n /\ 0 <= t < n /\ down_cell d t r0 c0 = (r, c).
Proof.
  intros H. apply inside_ins in H. destruct (walk_back nr nc Hnr Hnc d r c H) as (T & HT & A & E).
  set (r0 := r - T * i_incr d) in *. set (c0 := c - T * j_incr d) in *.
  assert (I : ins nr nc r0 c0) by (apply A; lia). destruct (make_path_spec nr nc Hnr Hnc d r0 c0 I) as (len & L1 & _ & B & X).
  assert (Tl : T < len).
  { destruct (Z_lt_ge_dec T len) as [L|G]; [exact L|]. exfalso. apply X. specialize (A (T - len) ltac:(lia)).
    replace (r - (T - len) * i_incr d) with (r0 + len * i_incr d) in A by (unfold r0; ring). replace (c - (T - len) * j_incr d) with (c0 + len * j_incr d) in A by (unfold c0; ring). exact A. }
  exists r0, c0, len, T. split; [|split; [lia|rewrite down_eq; unfold r0, c0; f_equal; ring]].
  split; [apply inside_ins; exact I|]. split; [apply edge_up; exact E|]. split; [exact L1|]. split.
  - intros t Ht. rewrite down_eq. apply inside_ins. apply B. exact Ht.
  - rewrite down_eq. destruct (inside nr nc (r0 + len * i_incr d, c0 + len * j_incr d)) eqn:Y; [|reflexivity]. apply inside_ins in Y. destruct (X Y).
Qed.
Lemma line_unique r0 c0 n t r0' c0' n' t' : wind_line nr nc d r0 c0 n -> wind_line nr nc d r0' c0' n' -> 0 <= t < n -> 0 <= t' < n' ->
  down_cell d t r0 c0 = down_cell d t' r0' c0' -> r0 = r0' /\ c0 = c0' /\ n = n' /\ t = t'.
Proof.
  intros W W' Ht Ht' E. pose proof (wind_path _ _ _ W) as [S P]. pose proof (wind_path _ _ _ W') as [S' P'].
  assert (K : r0 = r0' /\ c0 = c0').
  { apply (lines_disjoint nr nc Hnr Hnc d r0 c0 r0' c0' (idx nr (fst (down_cell d t r0 c0)) (snd (down_cell d t r0 c0)))).
    - apply inside_ins, W.
    - apply inside_ins, W'.
    - apply edge_up, W.
    - apply edge_up, W'.
    - rewrite P. apply (in_map (fun t => idx nr (fst (down_cell d t r0 c0)) (snd (down_cell d t r0 c0)))). apply in_zrange. exact Ht.
    - rewrite P', E. apply (in_map (fun t => idx nr (fst (down_cell d t r0' c0')) (snd (down_cell d t r0' c0')))). apply in_zrange. exact Ht'. }
  destruct K as [<- <-]. split; [reflexivity|]. split; [reflexivity|]. split.
  - rewrite P in P'. apply (f_equal (@length Z)) in P'. rewrite !map_length, !zrange_length in P'. lia.
  - rewrite !down_eq in E. injection E as E1 E2. destruct (step_bounds d) as [[B1 B2] [N|N]].
    + assert (i_incr d = 1 \/ i_incr d = -1) as [Q|Q] by lia; rewrite Q in E1; lia.
    + assert (j_incr d = 1 \/ j_incr d = -1) as [Q|Q] by lia; rewrite Q in E2; lia.
Qed.
End Lines.

Lemma line_of_profile elev d r0 c0 n : 1 <= g_rows elev -> 1 <= g_cols elev -> wind_line (g_rows elev) (g_cols elev) d r0 c0 n ->
  line_of elev d (idx (g_rows elev) r0 c0) = line_profile elev d r0 c0 n.
Proof.
  intros Hr Hc W. unfold line_of. destruct (wind_path _ _ d Hr Hc _ _ _ W) as [_ ->]. rewrite map_map. unfold line_profile. apply map_ext_in. intros t Ht.
  apply in_zrange in Ht. destruct W as (_ & _ & _ & A & _). specialize (A t Ht). destruct (down_cell d t r0 c0) as [r c]. cbn [fst snd]. apply inside_ins in A.
  unfold elev_idx. rewrite idx_row, idx_col by (try lia; apply A). reflexivity.
Qed.
Lemma profile_len elev d r0 c0 n : 0 <= n -> zlen (line_profile elev d r0 c0 n) = n.
Proof. intros. unfold zlen, line_profile. rewrite map_length, zrange_length. lia. Qed.

(** One direction: the line multipliers [raw], then the per-cell corrections and
    the smoothing. *)
Lemma stage_dir fl M sqrt2 cellsize x_left y_upper elev d : fl_line fl M -> (0 < sqrt2)%Q -> (0 < cellsize)%Q ->
  1 <= g_rows elev <= M -> 1 <= g_cols elev <= M ->
  exists raw o, topo_dir fl sqrt2 cellsize x_left y_upper elev d = Ok o /\
    g_rows o = g_rows elev /\ g_cols o = g_cols elev /\
    (forall r0 c0 n, wind_line (g_rows elev) (g_cols elev) d r0 c0 n -> exists m,
        multiplier_calc fl (line_profile elev d r0 c0 n) (spacing fl sqrt2 cellsize d) = Ok m /\ zlen m = n /\
        forall t, 0 <= t < n -> g_at raw (fst (down_cell d t r0 c0)) (snd (down_cell d t r0 c0)) = nth (Z.to_nat t) m 0%Q) /\
    (forall r c, inside (g_rows elev) (g_cols elev) (r, c) = true -> (1 <= g_at raw r c <= fl (171#100))%Q) /\
    (forall r c, g_at elev r c = NaN -> g_at o r c = NaN) /\
    (forall r c h, g_at elev r c = Num h -> exists q, g_at o r c = Num q /\
        (q == total (map (fun p => box_field x_left y_upper elev raw (fst p) (snd p)) (around (g_rows elev) (g_cols elev) r c)) / 9)%Q).
Proof.
  intros Hfl Hs Hc Hnr Hnc. destruct (topo_dir_spec fl M sqrt2 cellsize x_left y_upper elev d Hfl Hs Hc Hnr Hnc) as (raw & o & E & _ & _ & Ro & Co & L & B & N & V).
  exists raw, o. split; [exact E|]. split; [exact Ro|]. split; [exact Co|]. split; [|split; [|split; [exact N|exact V]]].
  - intros r0 c0 n W. destruct (wind_path (g_rows elev) (g_cols elev) d ltac:(lia) ltac:(lia) _ _ _ W) as [S P]. destruct (L _ S) as (m & Em & Lm & At).
    rewrite (line_of_profile elev d r0 c0 n ltac:(lia) ltac:(lia) W) in Em, Lm. exists m. split; [exact Em|].
    assert (Hn : 1 <= n) by apply W. rewrite profile_len in Lm by lia. split; [exact Lm|]. intros t Ht.
    rewrite <- (At (Z.to_nat t) (idx (g_rows elev) (fst (down_cell d t r0 c0)) (snd (down_cell d t r0 c0)))).
    + destruct W as (_ & _ & _ & A & _). specialize (A t Ht). destruct (down_cell d t r0 c0) as [r c]. cbn [fst snd]. apply inside_ins in A. rewrite idx_row, idx_col by (try lia; apply A). reflexivity.
    + rewrite P. rewrite nth_error_map. rewrite (zrange_nth_error n t) by exact Ht. reflexivity.
  - intros r c I. apply inside_ins in I. apply B; apply I.
Qed.

Lemma mask_missing nodata x : (match x, nodata with Num q, Some n => if Qeq_bool q n then NaN else x | _, _ => x end) = NaN <-> dem_missing nodata x.
Proof.
  destruct x as [|q]; cbn; [tauto|]. destruct nodata as [n|]; [|split; [discriminate|tauto]]. destruct (Qeq_bool q n) eqn:E.
  - apply Qeq_bool_eq in E. tauto.
  - split; [discriminate|]. intros H. apply Qeq_bool_iff in H. congruence.
Qed.

(** The whole stage. *)
Lemma stage_all fl M sqrt2 cellsize x_left y_upper nodata dem : fl_line fl M -> (0 < sqrt2)%Q -> (0 < cellsize)%Q ->
  1 <= g_rows dem <= M -> 1 <= g_cols dem <= M ->
  exists outs, topomult fl sqrt2 cellsize x_left y_upper nodata dem = Ok outs /\ map fst outs = [N_; S_; E_; W_; NE; NW; SE; SW] /\
    forall d o, In (d, o) outs -> topo_dir fl sqrt2 cellsize x_left y_upper (mask_elevation nodata dem) d = Ok o /\
      g_rows o = g_rows dem /\ g_cols o = g_cols dem /\
      forall r c, (g_at o r c = NaN <-> dem_missing nodata (g_at dem r c)).
Proof.
  intros Hfl Hs Hc Hnr Hnc. unfold topomult. set (elev := mask_elevation nodata dem).
  assert (G : forall d, exists o, topo_dir fl sqrt2 cellsize x_left y_upper elev d = Ok o /\ g_rows o = g_rows dem /\ g_cols o = g_cols dem /\
     forall r c, (g_at o r c = NaN <-> dem_missing nodata (g_at dem r c))).
  { intros d. destruct (stage_dir fl M sqrt2 cellsize x_left y_upper elev d Hfl Hs Hc Hnr Hnc) as (raw & o & E & Ro & Co & _ & _ & N & V).
    exists o. split; [exact E|]. split; [exact Ro|]. split; [exact Co|]. intros r c. rewrite <- mask_missing. change (g_at o r c = NaN <-> g_at elev r c = NaN). split; [|apply N].
    intros X. destruct (g_at elev r c) as [|h] eqn:Eh; [reflexivity|]. destruct (V r c h Eh) as (q & Y & _). congruence. }
  unfold topo_directions. cbn [mapM].
  destruct (G N_) as (o1 & E1 & K1). destruct (G S_) as (o2 & E2 & K2). destruct (G E_) as (o3 & E3 & K3). destruct (G W_) as (o4 & E4 & K4).
  destruct (G NE) as (o5 & E5 & K5). destruct (G NW) as (o6 & E6 & K6). destruct (G SE) as (o7 & E7 & K7). destruct (G SW) as (o8 & E8 & K8).
  rewrite E1, E2, E3, E4, E5, E6, E7, E8. cbn [bind]. eexists. split; [reflexivity|]. split; [reflexivity|].
  intros d o H. cbn [In] in H. repeat (destruct H as [H|H]; [injection H as <- <-; split; assumption|]). destruct H.
Qed.

(** Bounds of a smoothed mainland value. *)
Lemma cons_bounds fl x : (14#10 <= fl (171#100))%Q -> (1 <= x <= fl (171#100))%Q -> (1 <= remove_conservatism x <= (9#10) * fl (171#100))%Q.
Proof.
  intros H [A B]. apply cons_mono in A. apply cons_mono in B. rewrite (cons_id 1) in A by lra. rewrite (cons_steep (fl _)) in B by exact H. lra.
Qed.

Lemma stage_bounds fl M sqrt2 cellsize x_left y_upper elev d : fl_line fl M -> (0 < sqrt2)%Q -> (0 < cellsize)%Q ->
  1 <= g_rows elev <= M -> 1 <= g_cols elev <= M -> in_tasmania x_left y_upper = false ->
  exists o, topo_dir fl sqrt2 cellsize x_left y_upper elev d = Ok o /\
    forall r c h, g_at elev r c = Num h -> exists q, g_at o r c = Num q /\
       (inject_Z (zlen (around (g_rows elev) (g_cols elev) r c)) / 9 <= q)%Q /\
       (q <= inject_Z (zlen (around (g_rows elev) (g_cols elev) r c)) / 9 * ((9#10) * fl (171#100)))%Q.
Proof.
  intros Hfl Hs Hc Hnr Hnc T. destruct (stage_dir fl M sqrt2 cellsize x_left y_upper elev d Hfl Hs Hc Hnr Hnc) as (raw & o & E & _ & _ & _ & B & _ & V).
  exists o. split; [exact E|]. intros r c h Eh. destruct (V r c h Eh) as (q & Eq & Q). exists q. split; [exact Eq|]. clear V E Eq.
  assert (C14 : (14#10 <= fl (171#100))%Q).
  { pose proof (fll_rel fl M Hfl (171#100)) as R. rewrite (Qabs_pos (171#100)) in R by lra. apply Qabs_le_iff in R. lra. }
  set (l := map (fun p => box_field x_left y_upper elev raw (fst p) (snd p)) (around (g_rows elev) (g_cols elev) r c)) in *.
  assert (L : zlen l = zlen (around (g_rows elev) (g_cols elev) r c)) by (unfold zlen, l; rewrite map_length; reflexivity).
  destruct (total_bounds l 1 ((9#10) * fl (171#100))) as [T1 T2].
  - intros x Hx. apply in_map_iff in Hx. destruct Hx as (p & <- & Hp). apply in_around in Hp. unfold box_field. rewrite T.
    assert (F : (tas_factor false (g_at elev (fst p) (snd p)) == 1)%Q) by (destruct (g_at elev (fst p) (snd p)); reflexivity).
    rewrite F. setoid_rewrite Qmult_1_r. apply cons_bounds; [exact C14|]. apply B. apply inside_ins. exact Hp.
  - rewrite L in T1, T2. assert (Z9 : (q == total l * (1#9))%Q) by (rewrite Q; field).
    assert (Y9 : (inject_Z (zlen (around (g_rows elev) (g_cols elev) r c)) / 9 == inject_Z (zlen (around (g_rows elev) (g_cols elev) r c)) * (1#9))%Q) by field.
    rewrite Y9, Z9. split; lra.
Qed.
