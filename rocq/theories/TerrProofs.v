From Verif Require Import Base BaseLemmas NameModel TerrModel TerrSpec.
Open Scope Z_scope.

Lemma point_up d i j m lag : (point_r d i m lag, point_c d j m lag) = up_pixel d (lag + 1 + m) i j.
Proof. destruct d; unfold up_pixel; cbn [point_r point_c upwind fst snd]; f_equal; lia. Qed.

Lemma inside_iff rows cols p : inside rows cols p = true <-> 0 <= fst p < rows /\ 0 <= snd p < cols.
Proof. unfold inside. rewrite !andb_true_iff, !Z.leb_le, !Z.ltb_lt. lia. Qed.

Lemma neighb_inside d rows cols lag i j k : 0 <= i < rows -> 0 <= j < cols -> 0 <= lag -> lag < k ->
  (inside rows cols (up_pixel d k i j) = true <-> k <= lag + all_neighb d i j rows cols lag).
Proof.
  intros Hi Hj Hl Hk. rewrite inside_iff. destruct d; unfold up_pixel; cbn [fst snd upwind all_neighb]; lia.
Qed.

Lemma gget_in {A} (g : grid A) r c : 0 <= r < g_rows g -> 0 <= c < g_cols g -> gget g r c = Ok (g_at g r c).
Proof. intros H1 H2. unfold gget. rewrite !norm_index_some by assumption. reflexivity. Qed.

Lemma foldM_sum {A} (f : A -> res Q) (v : A -> Q) l : (forall x, In x l -> f x = Ok (v x)) -> forall acc,
  exists s, foldM (fun s x => let* y := f x in Ok (s + y)%Q) l acc = Ok s /\ (s == acc + qsum (map v l))%Q.
Proof.
  induction l as [|x l IH]; intros H acc; cbn [foldM].
  - exists acc. split; [reflexivity|]. unfold qsum. simpl. ring.
  - rewrite (H x (or_introl eq_refl)). cbn [bind].
    destruct (IH (fun y Hy => H y (or_intror Hy)) (acc + v x)%Q) as (s & E & Es). exists s. split; [exact E|].
    rewrite Es. unfold qsum. cbn [map fold_right]. ring.
Qed.

Lemma filter_all {A} (p : A -> bool) l : (forall x, In x l -> p x = true) -> filter p l = l.
Proof.
  induction l as [|x l IH]; intros H; [reflexivity|]. cbn [filter]. rewrite (H x (or_introl eq_refl)), IH; [reflexivity|].
  intros y Hy. apply H. right. exact Hy.
Qed.
Lemma filter_none {A} (p : A -> bool) l : (forall x, In x l -> p x = false) -> filter p l = [].
Proof.
  induction l as [|x l IH]; intros H; [reflexivity|]. cbn [filter]. rewrite (H x (or_introl eq_refl)). apply IH.
  intros y Hy. apply H. right. exact Hy.
Qed.
Lemma range2_app a b c : a <= b <= c -> range2 a c = range2 a b ++ range2 b c.
Proof.
  intros H. unfold range2. replace (c - a) with ((b - a) + (c - b)) by lia. rewrite zrange_app by lia. rewrite map_app, map_map.
  f_equal. apply map_ext. intros. lia.
Qed.

(** The fetch in closed form. *)
Lemma fetch_eq d rows cols lag avg i j : 0 <= i < rows -> 0 <= j < cols -> 0 <= lag -> 0 <= avg ->
  fetch d rows cols lag avg i j =
  map (fun m => up_pixel d (lag + 1 + m) i j) (zrange (Z.min avg (all_neighb d i j rows cols lag))).
Proof.
  intros Hi Hj Hl Ha. unfold fetch. set (n := all_neighb d i j rows cols lag).
  assert (E : range2 (lag + 1) (lag + avg + 1) =
    range2 (lag + 1) (lag + 1 + Z.max 0 (Z.min avg n)) ++ range2 (lag + 1 + Z.max 0 (Z.min avg n)) (lag + avg + 1))
    by (apply range2_app; lia).
  rewrite E, map_app, filter_app, filter_all, filter_none, app_nil_r.
  - unfold range2. rewrite map_map. replace (lag + 1 + Z.max 0 (Z.min avg n) - (lag + 1)) with (Z.max 0 (Z.min avg n)) by lia.
    destruct (Z.max_spec 0 (Z.min avg n)) as [[_ ->]|[H ->]]; [reflexivity|]. rewrite (zrange_nil (Z.min avg n)) by lia. reflexivity.
  - intros p Hp. apply in_map_iff in Hp. destruct Hp as (k & <- & Hk). apply in_range2 in Hk.
    destruct (inside rows cols (up_pixel d k i j)) eqn:Ei; [|reflexivity].
    apply (neighb_inside d rows cols lag i j k) in Ei; subst n; lia.
  - intros p Hp. apply in_map_iff in Hp. destruct Hp as (k & <- & Hk). apply in_range2 in Hk.
    apply (neighb_inside d rows cols lag i j k); subst n; lia.
Qed.

Lemma zlen_map {A B} (f : A -> B) l : zlen (map f l) = zlen l.
Proof. unfold zlen. rewrite map_length. reflexivity. Qed.

Definition cell_mean d (data : grid Q) avg lag i j : Q :=
  mean_or (g_at data i j) (values data (fetch d (g_rows data) (g_cols data) lag avg i j)).

Lemma convo_cell_ok d data avg lag i j : 0 <= i < g_rows data -> 0 <= j < g_cols data -> 0 <= lag -> 1 <= avg ->
  exists q, convo_cell d data avg lag i j = Ok q /\ (q == cell_mean d data avg lag i j)%Q.
Proof.
  intros Hi Hj Hl Ha. unfold convo_cell, cell_mean. cbv zeta. set (n := all_neighb d i j (g_rows data) (g_cols data) lag).
  rewrite fetch_eq by lia. fold n.
  destruct (Z.ltb_spec 0 n) as [Hn|Hn].
  - assert (Emx : (if n <? avg then n else avg) = Z.min avg n) by (destruct (Z.ltb_spec n avg); lia). rewrite Emx.
    destruct (foldM_sum (fun m => gget data (point_r d i m lag) (point_c d j m lag))
       (fun m => g_at data (fst (up_pixel d (lag + 1 + m) i j)) (snd (up_pixel d (lag + 1 + m) i j))) (zrange (Z.min avg n))) with (acc := 0%Q)
       as (s & Es & Hs).
    { intros m Hm. apply in_zrange in Hm. pose proof (point_up d i j m lag) as P. rewrite <- P. cbn [fst snd].
      assert (X : inside (g_rows data) (g_cols data) (up_pixel d (lag + 1 + m) i j) = true)
        by (apply (neighb_inside d _ _ lag); subst n; lia).
      rewrite <- P in X. apply inside_iff in X. cbn [fst snd] in X. apply gget_in; apply X. }
    rewrite Es. cbn [bind]. unfold py_div.
    assert (Hz : Qeq_bool (inject_Z (Z.min avg n)) 0 = false).
    { destruct (Qeq_bool _ _) eqn:Eb; [|reflexivity]. apply Qeq_bool_eq in Eb. unfold Qeq in Eb. cbn in Eb. lia. }
    rewrite Hz. eexists. split; [reflexivity|].
    unfold values. rewrite map_map. unfold mean_or.
    destruct (zrange (Z.min avg n)) as [|m0 ms] eqn:Ez.
    + exfalso. assert (X : In 0 (zrange (Z.min avg n))) by (apply in_zrange; lia). rewrite Ez in X. destruct X.
    + cbn [map] in *. rewrite Hs. rewrite <- Ez in *.
      match goal with |- context [zlen (?a :: map ?f ms)] => change (a :: map f ms) with (map f (m0 :: ms)) end.
      rewrite zlen_map, <- Ez, zlen_zrange by lia. rewrite Qplus_0_l. reflexivity.
  - rewrite gget_in by assumption. rewrite zrange_nil by lia. cbn. eexists. split; reflexivity.
Qed.

(** Zero width. *)
Lemma convo_cell_zero d data lag i j : 0 <= i < g_rows data -> 0 <= j < g_cols data -> 0 <= lag ->
  convo_cell d data 0 lag i j =
  if 0 <? all_neighb d i j (g_rows data) (g_cols data) lag then Err ZeroDivisionError else Ok (g_at data i j).
Proof.
  intros Hi Hj Hl. unfold convo_cell. cbv zeta. destruct (Z.ltb_spec 0 (all_neighb d i j (g_rows data) (g_cols data) lag)) as [Hn|Hn].
  - rewrite (proj2 (Z.ltb_ge (all_neighb d i j (g_rows data) (g_cols data) lag) 0)) by lia. reflexivity.
  - apply gget_in; assumption.
Qed.

Lemma mapM_ok {A B} (f : A -> res B) l : (forall x, In x l -> exists b, f x = Ok b) -> exists bs, mapM f l = Ok bs.
Proof.
  induction l as [|x l IH]; intros H; [exists []; reflexivity|]. cbn [mapM].
  destruct (H x (or_introl eq_refl)) as (b & ->). destruct IH as (bs & ->); [intros; apply H; right; assumption|].
  exists (b :: bs). reflexivity.
Qed.
Lemma mapM_inv {A B} (f : A -> res B) l bs x : mapM f l = Ok bs -> In x l -> exists b, f x = Ok b.
Proof.
  revert bs. induction l as [|y l IH]; intros bs H Hx; [destruct Hx|]. cbn [mapM] in H.
  destruct (f y) as [b|] eqn:E; [|discriminate]. cbn [bind] in H. destruct (mapM f l) as [bs'|] eqn:E'; [|discriminate].
  destruct Hx as [<-|Hx]; [eauto|eapply IH; eauto].
Qed.
Lemma mapM_err {A B} (f : A -> res B) e l x : (forall y e', In y l -> f y = Err e' -> e' = e) -> In x l -> f x = Err e -> mapM f l = Err e.
Proof.
  induction l as [|y l IH]; intros H Hx Hf; [destruct Hx|]. cbn [mapM].
  destruct (f y) as [b|e'] eqn:E; cbn [bind].
  - destruct Hx as [->|Hx]; [congruence|]. rewrite IH; auto. intros; apply (H y0); [right|]; assumption.
  - f_equal. apply (H y e'); [left; reflexivity|exact E].
Qed.

Lemma grid_loop_ok {A} (dflt : A) rows cols f : (forall i j, 0 <= i < rows -> 0 <= j < cols -> exists a, f i j = Ok a) ->
  exists g, grid_loop dflt rows cols f = Ok g /\ g_rows g = rows /\ g_cols g = cols /\
    forall i j a, f i j = Ok a -> g_at g i j = a.
Proof.
  intros H. unfold grid_loop. destruct (mapM_ok (fun i => mapM (f i) (zrange cols)) (zrange rows)) as (bs & ->).
  - intros i Hi. apply in_zrange in Hi. apply mapM_ok. intros j Hj. apply in_zrange in Hj. apply H; assumption.
  - cbn [bind]. eexists. split; [reflexivity|]. cbn. split; [reflexivity|]. split; [reflexivity|]. intros i j a ->. reflexivity.
Qed.
Lemma grid_loop_inv {A} (dflt : A) rows cols f g : grid_loop dflt rows cols f = Ok g ->
  g_rows g = rows /\ g_cols g = cols /\ forall i j, 0 <= i < rows -> 0 <= j < cols -> f i j = Ok (g_at g i j).
Proof.
  unfold grid_loop. destruct (mapM _ _) as [bs|] eqn:E; cbn [bind]; [|discriminate]. intros H. injection H as <-. cbn.
  split; [reflexivity|]. split; [reflexivity|]. intros i j Hi Hj.
  destruct (mapM_inv _ _ _ i E) as (b & Eb); [apply in_zrange; exact Hi|].
  destruct (mapM_inv _ _ _ j Eb) as (a & ->); [apply in_zrange; exact Hj|]. reflexivity.
Qed.
Lemma grid_loop_err {A} (dflt : A) rows cols f e i j : (forall i j e', f i j = Err e' -> e' = e) ->
  0 <= i < rows -> 0 <= j < cols -> f i j = Err e -> grid_loop dflt rows cols f = Err e.
Proof.
  intros H Hi Hj E. unfold grid_loop.
  assert (R : forall i' e', mapM (f i') (zrange cols) = Err e' -> e' = e).
  { intros i' e'. generalize (zrange cols). induction l as [|y l IH]; cbn [mapM]; [discriminate|].
    destruct (f i' y) as [b|e0] eqn:E0; cbn [bind]; [|intros X; injection X as <-; eapply H; eauto].
    destruct (mapM (f i') l); cbn [bind]; [discriminate|]. exact IH. }
  rewrite (mapM_err (fun i => mapM (f i) (zrange cols)) e (zrange rows) i); [reflexivity| |apply in_zrange; exact Hi|].
  - intros y e' _. apply R.
  - apply (mapM_err (f i) e (zrange cols) j); [intros y e' _; apply H|apply in_zrange; exact Hj|exact E].
Qed.

Lemma convo_ok d data avg lag : 0 <= lag -> 1 <= avg ->
  exists o, convo d data avg lag = Ok o /\ g_rows o = g_rows data /\ g_cols o = g_cols data /\
    forall i j, 0 <= i < g_rows data -> 0 <= j < g_cols data -> (g_at o i j == cell_mean d data avg lag i j)%Q.
Proof.
  intros Hl Ha. unfold convo.
  destruct (grid_loop_ok 0%Q (g_rows data) (g_cols data) (convo_cell d data avg lag)) as (o & E & H1 & H2 & H3).
  - intros i j Hi Hj. destruct (convo_cell_ok d data avg lag i j Hi Hj Hl Ha) as (q & Eq & _). eauto.
  - exists o. split; [exact E|]. split; [exact H1|]. split; [exact H2|]. intros i j Hi Hj.
    destruct (convo_cell_ok d data avg lag i j Hi Hj Hl Ha) as (q & Eq & Hq). rewrite (H3 i j q Eq). exact Hq.
Qed.

(** Division by zero, exactly. *)
Lemma neighb_max d rows cols lag : 1 <= rows -> 1 <= cols ->
  (exists i j, 0 <= i < rows /\ 0 <= j < cols /\ 0 < all_neighb d i j rows cols lag) <-> lag + 1 < extent_along d rows cols.
Proof.
  intros Hr Hc. split.
  - intros (i & j & Hi & Hj & H). destruct d; cbn [all_neighb extent_along] in *; lia.
  - intros H. destruct d; cbn [all_neighb extent_along] in *.
    + exists (rows - 1), 0. lia.
    + exists 0, 0. lia.
    + exists 0, 0. lia.
    + exists 0, (cols - 1). lia.
    + exists (rows - 1), 0. lia.
    + exists (rows - 1), (cols - 1). lia.
    + exists 0, 0. lia.
    + exists 0, (cols - 1). lia.
Qed.

Lemma convo_zero d data lag : 0 <= lag -> 1 <= g_rows data -> 1 <= g_cols data ->
  (lag + 1 < extent_along d (g_rows data) (g_cols data) -> convo d data 0 lag = Err ZeroDivisionError) /\
  (extent_along d (g_rows data) (g_cols data) <= lag + 1 -> exists o, convo d data 0 lag = Ok o /\
     g_rows o = g_rows data /\ g_cols o = g_cols data /\
     forall i j, 0 <= i < g_rows data -> 0 <= j < g_cols data -> g_at o i j = g_at data i j).
Proof.
  intros Hl Hr Hc. split; intros H.
  - apply (neighb_max d (g_rows data) (g_cols data) lag Hr Hc) in H. destruct H as (i & j & Hi & Hj & H).
    unfold convo. cut (exists i j, 0 <= i < g_rows data /\ 0 <= j < g_cols data /\ convo_cell d data 0 lag i j = Err ZeroDivisionError).
    + intros (i' & j' & Hi' & Hj' & E).
      set (f := fun i j => if inside (g_rows data) (g_cols data) (i, j) then convo_cell d data 0 lag i j else Ok 0%Q).
      assert (X : grid_loop 0%Q (g_rows data) (g_cols data) f = Err ZeroDivisionError).
      { apply (grid_loop_err 0%Q _ _ f ZeroDivisionError i' j'); [|exact Hi'|exact Hj'|].
        - intros a b e'. unfold f. destruct (inside _ _ (a, b)) eqn:Ei; [|discriminate]. apply inside_iff in Ei. cbn [fst snd] in Ei.
          rewrite convo_cell_zero by (try apply Ei; exact Hl). destruct (0 <? _); [|discriminate]. intros X. injection X as <-. reflexivity.
        - unfold f. replace (inside (g_rows data) (g_cols data) (i', j')) with true by (symmetry; apply inside_iff; auto). exact E. }
      unfold grid_loop in *. destruct (mapM (fun i => mapM (convo_cell d data 0 lag i) (zrange (g_cols data))) (zrange (g_rows data))) as [bs|e] eqn:Em; cbn [bind] in *.
      * exfalso. destruct (mapM_inv _ _ _ i' Em) as (b & Eb); [apply in_zrange; exact Hi'|].
        destruct (mapM_inv _ _ _ j' Eb) as (a & Ea); [apply in_zrange; exact Hj'|]. congruence.
      * f_equal. assert (Ext : forall l : list Z, (forall x, In x l -> 0 <= x < g_rows data) ->
           mapM (fun i => mapM (convo_cell d data 0 lag i) (zrange (g_cols data))) l = mapM (fun i => mapM (f i) (zrange (g_cols data))) l).
        { assert (Ext1 : forall a, 0 <= a < g_rows data -> forall l : list Z, (forall x, In x l -> 0 <= x < g_cols data) ->
             mapM (convo_cell d data 0 lag a) l = mapM (f a) l).
          { intros a Ha. induction l as [|y l IH]; intros Hl'; [reflexivity|]. cbn [mapM]. rewrite IH by (intros; apply Hl'; right; assumption).
            unfold f at 2. replace (inside _ _ (a, y)) with true; [reflexivity|]. symmetry. apply inside_iff. split; [exact Ha|apply Hl'; left; reflexivity]. }
          induction l as [|y l IH]; intros Hl'; [reflexivity|]. cbn [mapM]. rewrite IH by (intros; apply Hl'; right; assumption).
          rewrite (Ext1 y) by (try (apply Hl'; left; reflexivity); intros x Hx; apply in_zrange; exact Hx). reflexivity. }
        rewrite Ext in Em by (intros x Hx; apply in_zrange; exact Hx). rewrite Em in X. injection X as ->. reflexivity.
    + exists i, j. split; [exact Hi|]. split; [exact Hj|]. rewrite convo_cell_zero by assumption. rewrite (proj2 (Z.ltb_lt _ _) H). reflexivity.
  - unfold convo.
    assert (K : forall i j, 0 <= i < g_rows data -> 0 <= j < g_cols data -> convo_cell d data 0 lag i j = Ok (g_at data i j)).
    { intros i j Hi Hj. rewrite convo_cell_zero by assumption.
      destruct (Z.ltb_spec 0 (all_neighb d i j (g_rows data) (g_cols data) lag)) as [C|]; [|reflexivity].
      exfalso. assert (lag + 1 < extent_along d (g_rows data) (g_cols data)) by (apply neighb_max; eauto). lia. }
    destruct (grid_loop_ok 0%Q (g_rows data) (g_cols data) (convo_cell d data 0 lag)) as (o & E & H1 & H2 & H3).
    + intros i j Hi Hj. rewrite K by assumption. eauto.
    + exists o. split; [exact E|]. split; [exact H1|]. split; [exact H2|]. intros i j Hi Hj. apply H3. apply K; assumption.
Qed.

(** ** One direction *)
Lemma gmap_rows {A B} (f : A -> B) g : g_rows (gmap f g) = g_rows g. Proof. reflexivity. Qed.
Lemma gmap_cols {A B} (f : A -> B) g : g_cols (gmap f g) = g_cols g. Proof. reflexivity. Qed.

Definition fillv (x : num) : Q := match x with Num q => q | NaN => 1%Q end.
Definition masked (x : num) (q : Q) : num := match x with NaN => NaN | Num _ => Num q end.

Lemma cell_mean_0 d data lag i j : cell_mean d data 0 lag i j = g_at data i j.
Proof.
  unfold cell_mean, fetch. replace (lag + 0 + 1) with (lag + 1) by lia. unfold range2.
  rewrite Z.sub_diag, (zrange_nil 0) by lia. reflexivity.
Qed.

Lemma same_num_refl x : same_num x x.
Proof. destruct x; cbn; [exact I|reflexivity]. Qed.
Lemma same_num_trans x y z : same_num x y -> same_num y z -> same_num x z.
Proof. destruct x, y, z; cbn; try contradiction; auto. intros -> ->. reflexivity. Qed.
Lemma same_num_sym x y : same_num x y -> same_num y x.
Proof. destruct x, y; cbn; auto. intros ->. reflexivity. Qed.

Lemma clamp_min rows avg lag : (if rows <? avg + lag then rows - lag else avg) = Z.min avg (rows - lag).
Proof. destruct (Z.ltb_spec rows (avg + lag)); lia. Qed.

Lemma terrain_dir_small d init avg lag : g_rows init < lag ->
  terrain_dir d init avg lag = Ok (gmap Num (fill init)).
Proof. intros H. unfold terrain_dir. rewrite (proj2 (Z.ltb_lt _ _) H). reflexivity. Qed.

Lemma terrain_dir_ok d init avg lag : 0 <= lag <= g_rows init -> 0 <= avg -> 1 <= g_rows init -> 1 <= g_cols init ->
  (1 <= Z.min avg (g_rows init - lag) \/ extent_along d (g_rows init) (g_cols init) <= lag + 1) ->
  exists o, terrain_dir d init avg lag = Ok o /\ g_rows o = g_rows init /\ g_cols o = g_cols init /\
    forall i j, 0 <= i < g_rows init -> 0 <= j < g_cols init ->
      same_num (g_at o i j) (masked (g_at init i j) (cell_mean d (fill init) (Z.min avg (g_rows init - lag)) lag i j)).
Proof.
  intros Hl Ha Hr Hc H. unfold terrain_dir. cbv zeta. rewrite (proj2 (Z.ltb_ge _ _)) by lia. rewrite clamp_min.
  set (e := Z.min avg (g_rows init - lag)) in *.
  assert (X : exists o, convo d (fill init) e lag = Ok o /\ g_rows o = g_rows init /\ g_cols o = g_cols init /\
    forall i j, 0 <= i < g_rows init -> 0 <= j < g_cols init -> (g_at o i j == cell_mean d (fill init) e lag i j)%Q).
  { destruct (Z_le_gt_dec 1 e) as [He|He].
    - apply (convo_ok d (fill init) e lag); lia.
    - assert (e0 : e = 0) by (subst e; lia). rewrite e0. destruct H as [H|H]; [lia|].
      destruct (convo_zero d (fill init) lag) as [_ K]; try (cbn; lia).
      destruct (K H) as (o & E & H1 & H2 & H3). exists o. repeat split; auto.
      intros i j Hi Hj. rewrite cell_mean_0, H3 by assumption. reflexivity. }
  destruct X as (o & E & H1 & H2 & H3). rewrite E. cbn [bind]. eexists. split; [reflexivity|]. cbn [g_rows g_cols g_at].
  split; [exact H1|]. split; [exact H2|]. intros i j Hi Hj. destruct (g_at init i j); cbn; [exact I|]. apply H3; assumption.
Qed.

Lemma terrain_dir_err d init avg lag : 0 <= lag <= g_rows init -> 0 <= avg -> 1 <= g_rows init -> 1 <= g_cols init ->
  Z.min avg (g_rows init - lag) = 0 -> lag + 1 < extent_along d (g_rows init) (g_cols init) ->
  terrain_dir d init avg lag = Err ZeroDivisionError.
Proof.
  intros Hl Ha Hr Hc He H. unfold terrain_dir. cbv zeta. rewrite (proj2 (Z.ltb_ge _ _)) by lia. rewrite clamp_min, He.
  destruct (convo_zero d (fill init) lag) as [K _]; try (cbn; lia). rewrite (K H). reflexivity.
Qed.

(** ** Bounds *)
Lemma qsum_bounds lo hi l : (forall x, In x l -> (lo <= x <= hi)%Q) ->
  (lo * inject_Z (zlen l) <= qsum l /\ qsum l <= hi * inject_Z (zlen l))%Q.
Proof.
  induction l as [|x l IH]; intros H.
  - unfold qsum, zlen. cbn [fold_right length Z.of_nat]. change (inject_Z 0) with 0%Q. split; lra.
  - assert (E : (inject_Z (zlen (x :: l)) == inject_Z (zlen l) + 1)%Q).
    { unfold zlen. cbn [length]. rewrite Nat2Z.inj_succ. unfold Z.succ. rewrite inject_Z_plus. reflexivity. }
    destruct IH as [A B]; [intros; apply H; right; assumption|]. pose proof (H x (or_introl eq_refl)) as [C D].
    unfold qsum in *. cbn [fold_right]. rewrite E. split; lra.
Qed.
Lemma mean_or_bounds lo hi own l : (lo <= own <= hi)%Q -> (forall x, In x l -> (lo <= x <= hi)%Q) -> (lo <= mean_or own l <= hi)%Q.
Proof.
  intros Ho H. destruct l as [|x l]; [exact Ho|].
  change (mean_or own (x :: l)) with (qsum (x :: l) / inject_Z (zlen (x :: l)))%Q.
  assert (P : (0 < inject_Z (zlen (x :: l)))%Q) by (unfold zlen; cbn [length]; unfold Qlt; cbn; lia).
  destruct (qsum_bounds lo hi (x :: l) H) as [A B]. split; [apply Qle_shift_div_l|apply Qle_shift_div_r]; assumption.
Qed.

Lemma in_fetch d rows cols lag avg i j p : In p (fetch d rows cols lag avg i j) <->
  exists k, lag + 1 <= k <= lag + avg /\ p = up_pixel d k i j /\ 0 <= fst p < rows /\ 0 <= snd p < cols.
Proof.
  unfold fetch. rewrite filter_In, in_map_iff, inside_iff. split.
  - intros [(k & <- & Hk) Hp]. apply in_range2 in Hk. exists k. repeat split; try lia; apply Hp.
  - intros (k & Hk & -> & H). split; [|exact H]. exists k. split; [reflexivity|]. apply in_range2. lia.
Qed.

Lemma cell_mean_bounds lo hi d data avg lag i j : 0 <= i < g_rows data -> 0 <= j < g_cols data ->
  (forall r c, 0 <= r < g_rows data -> 0 <= c < g_cols data -> (lo <= g_at data r c <= hi)%Q) ->
  (lo <= cell_mean d data avg lag i j <= hi)%Q.
Proof.
  intros Hi Hj H. apply mean_or_bounds; [apply H; assumption|]. intros x Hx. unfold values in Hx. apply in_map_iff in Hx.
  destruct Hx as (p & <- & Hp). apply in_fetch in Hp. destruct Hp as (k & _ & _ & H1 & H2). apply H; assumption.
Qed.

(** ** Clamping the averaging length to the number of rows matters only for west/east *)
Lemma fetch_clamp d rows cols lag avg i j : 0 <= i < rows -> 0 <= j < cols -> 0 <= lag -> 0 <= avg -> lag <= rows ->
  (match d with W_ | E_ => avg + lag <= rows | _ => True end) ->
  fetch d rows cols lag (Z.min avg (rows - lag)) i j = fetch d rows cols lag avg i j.
Proof.
  intros Hi Hj Hl Ha Hr Hd. rewrite !fetch_eq by lia.
  destruct (Z_le_gt_dec (all_neighb d i j rows cols lag) 0) as [N|N].
  - rewrite !zrange_nil by lia. reflexivity.
  - f_equal. f_equal. destruct d; cbn [all_neighb] in *; lia.
Qed.

(** ** Reclassification *)
Definition reclass (cat : Z) (t : list (Z * num)) (a : num) : num :=
  fold_left (fun acc row => if cat =? fst row then snd row else acc) t a.
Lemma reclass_unlisted cat t a : ~ In cat (map fst t) -> reclass cat t a = a.
Proof.
  revert a. induction t as [|x t IH]; intros a H; [reflexivity|]. unfold reclass in *. cbn [fold_left].
  cbn [map In] in H. destruct (Z.eqb_spec cat (fst x)) as [->|]; [tauto|]. apply IH. tauto.
Qed.
Lemma reclass_last cat t a v : last_row t cat v -> reclass cat t a = v.
Proof.
  intros (l1 & l2 & -> & H). unfold reclass. rewrite fold_left_app. cbn [fold_left fst snd]. rewrite Z.eqb_refl.
  apply (reclass_unlisted cat l2 v H).
Qed.
Lemma listed_last t cat : listed t cat -> exists v, last_row t cat v.
Proof.
  unfold listed, last_row. induction t as [|[c v] t IH]; intros H; [destruct H|].
  destruct (in_dec Z.eq_dec cat (map fst t)) as [I|I].
  - destruct (IH I) as (w & l1 & l2 & -> & N). exists w, ((c, v) :: l1), l2. split; [reflexivity|exact N].
  - destruct H as [H|H]; [cbn in H; subst c|contradiction]. exists v, [], t. split; [reflexivity|exact I].
Qed.
Lemma last_row_listed t cat v : last_row t cat v -> listed t cat.
Proof. intros (l1 & l2 & -> & _). unfold listed. rewrite map_app. apply in_or_app. right. left. reflexivity. Qed.
Lemma last_row_fun t cat v w : last_row t cat v -> last_row t cat w -> v = w.
Proof. intros H1 H2. rewrite <- (reclass_last cat t NaN v H1). apply reclass_last. exact H2. Qed.

Lemma init_missing table data r c : g_at (zero_to_nan (class2mz table data)) r c = NaN <-> missing_class table (g_at data r c).
Proof.
  unfold zero_to_nan, class2mz, gmap. cbn [g_at]. fold (reclass (g_at data r c) table (Num 0)). set (cat := g_at data r c).
  destruct (in_dec Z.eq_dec cat (map fst table)) as [I|I].
  - destruct (listed_last table cat I) as (v & Hv). rewrite (reclass_last cat table _ v Hv). unfold missing_class. split.
    + destruct v as [|q]; cbn [is_zero]; [auto|]. destruct (Qeq_bool q 0) eqn:E; [|discriminate]. intros _. right. right.
      exists q. split; [exact Hv|]. apply Qeq_bool_eq. exact E.
    + intros [N|[N|(q & N & Hq)]].
      * contradiction.
      * rewrite (last_row_fun _ _ _ _ Hv N). reflexivity.
      * rewrite (last_row_fun _ _ _ _ Hv N). cbn. apply Qeq_eq_bool in Hq. rewrite Hq. reflexivity.
  - rewrite reclass_unlisted by exact I. cbn. split; [|reflexivity]. intros _. left. exact I.
Qed.
Lemma init_value table data r c q : last_row table (g_at data r c) (Num q) -> ~ (q == 0)%Q ->
  g_at (zero_to_nan (class2mz table data)) r c = Num q.
Proof.
  intros H N. unfold zero_to_nan, class2mz, gmap. cbn [g_at]. fold (reclass (g_at data r c) table (Num 0)).
  rewrite (reclass_last _ _ _ _ H). cbn [is_zero]. destruct (Qeq_bool q 0) eqn:E; [|reflexivity]. apply Qeq_bool_eq in E. contradiction.
Qed.

(** ** Skipped tiles *)
Lemma in_cells {A} (g : grid A) x : In x (grid_cells g) <-> exists r c, 0 <= r < g_rows g /\ 0 <= c < g_cols g /\ x = g_at g r c.
Proof.
  unfold grid_cells. rewrite in_flat_map. split.
  - intros (r & Hr & H). apply in_map_iff in H. destruct H as (c & <- & Hc). apply in_zrange in Hr, Hc. eauto.
  - intros (r & c & Hr & Hc & ->). exists r. split; [apply in_zrange; exact Hr|]. apply in_map_iff. exists c. split; [reflexivity|apply in_zrange; exact Hc].
Qed.
Lemma max_pos l : forall x, (forall y, In y (x :: l) -> exists q, y = Num q /\ (0 <= q)%Q) ->
  exists m, fold_left num_max l x = Num m /\ (0 <= m)%Q /\
    ((m == 0)%Q <-> forall y, In y (x :: l) -> exists q, y = Num q /\ (q == 0)%Q).
Proof.
  induction l as [|z l IH]; intros x H.
  - destruct (H x (or_introl eq_refl)) as (q & -> & Hq). exists q. cbn [fold_left]. split; [reflexivity|]. split; [exact Hq|]. split.
    + intros E y [<-|[]]. eauto.
    + intros K. destruct (K (Num q) (or_introl eq_refl)) as (q' & E & Z0). injection E as <-. exact Z0.
  - cbn [fold_left]. destruct (H x (or_introl eq_refl)) as (a & -> & Ha). destruct (H z (or_intror (or_introl eq_refl))) as (b & -> & Hb).
    cbn [num_max].
    assert (Hm : (0 <= (if Qltb a b then b else a))%Q) by (destruct (Qltb a b); assumption).
    destruct (IH (Num (if Qltb a b then b else a))) as (m & E & Hm0 & Hiff).
    + intros y [<-|Hy]; [eauto|]. apply H. right. right. exact Hy.
    + exists m. split; [exact E|]. split; [exact Hm0|]. rewrite Hiff. split; intros K y Hy.
      * destruct (K _ (or_introl eq_refl)) as (q & Eq & Hq). injection Eq as <-.
        destruct Hy as [<-|[<-|Hy]]; [| |apply K; right; exact Hy].
        -- exists a. split; [reflexivity|]. destruct (Qltb a b) eqn:L; [apply Qltb_lt in L; lra|exact Hq].
        -- exists b. split; [reflexivity|]. destruct (Qltb a b) eqn:L; [exact Hq|apply Qltb_ge in L; lra].
      * destruct Hy as [<-|Hy]; [|apply K; right; right; exact Hy]. destruct (Qltb a b).
        -- apply (K (Num b)). right. left. reflexivity.
        -- apply (K (Num a)). left. reflexivity.
Qed.

Definition positive_table (table : list (Z * num)) : Prop := forall cat v, In (cat, v) table -> exists q, v = Num q /\ (0 < q)%Q.
Lemma positive_last table cat v : positive_table table -> last_row table cat v -> exists q, v = Num q /\ (0 < q)%Q.
Proof. intros P (l1 & l2 & -> & _). apply (P cat v). apply in_or_app. right. left. reflexivity. Qed.

Lemma skip_iff table data : positive_table table -> 1 <= g_rows data -> 1 <= g_cols data ->
  exists m, np_max (class2mz table data) = Ok (Num m) /\
   (is_zero (Num m) = true <-> forall r c, 0 <= r < g_rows data -> 0 <= c < g_cols data -> ~ listed table (g_at data r c)).
Proof.
  intros P Hr Hc. unfold np_max.
  assert (V : forall y, In y (grid_cells (class2mz table data)) -> exists q, y = Num q /\ (0 <= q)%Q).
  { intros y Hy. apply in_cells in Hy. destruct Hy as (r & c & _ & _ & ->). unfold class2mz. cbn [g_at].
    fold (reclass (g_at data r c) table (Num 0)). destruct (in_dec Z.eq_dec (g_at data r c) (map fst table)) as [I|I].
    - destruct (listed_last _ _ I) as (v & Hv). rewrite (reclass_last _ _ _ _ Hv). destruct (positive_last _ _ _ P Hv) as (q & -> & Hq).
      exists q. split; [reflexivity|lra].
    - rewrite reclass_unlisted by exact I. exists 0%Q. split; [reflexivity|lra]. }
  destruct (grid_cells (class2mz table data)) as [|x xs] eqn:E.
  { exfalso. assert (X : In (g_at (class2mz table data) 0 0) (grid_cells (class2mz table data))).
    { apply in_cells. exists 0, 0. cbn. repeat split; lia. } rewrite E in X. destruct X. }
  destruct (max_pos xs x V) as (m & Em & _ & Hiff). exists m. rewrite Em. split; [reflexivity|]. cbn [is_zero].
  split.
  - intros Z0. apply Qeq_bool_eq in Z0. intros r c Hr' Hc' L. destruct (listed_last _ _ L) as (v & Hv).
    destruct (positive_last _ _ _ P Hv) as (q & -> & Hq). 
    destruct (proj1 Hiff Z0 (g_at (class2mz table data) r c)) as (q' & Eq & Hq').
    + rewrite <- E. apply in_cells. exists r, c. cbn. auto.
    + unfold class2mz in Eq. cbn [g_at] in Eq. fold (reclass (g_at data r c) table (Num 0)) in Eq. rewrite (reclass_last _ _ _ _ Hv) in Eq.
      injection Eq as <-. lra.
  - intros K. apply Qeq_eq_bool. apply Hiff. intros y Hy. rewrite <- E in Hy. apply in_cells in Hy. destruct Hy as (r & c & H1 & H2 & ->).
    unfold class2mz. cbn [g_at]. fold (reclass (g_at data r c) table (Num 0)). rewrite reclass_unlisted by (apply K; assumption). exists 0%Q.
    split; reflexivity.
Qed.

(** ** Tiling independence *)
Lemma filter_map_rel {A B C D} (P : B -> bool) (P' : C -> bool) (f : A -> B) (g : A -> C) (v : B -> D) (w : C -> D) l :
  (forall x, In x l -> P (f x) = P' (g x) /\ (P (f x) = true -> v (f x) = w (g x))) -> map v (filter P (map f l)) = map w (filter P' (map g l)).
Proof.
  induction l as [|x l IH]; intros H; [reflexivity|]. cbn [map filter]. destruct (H x (or_introl eq_refl)) as [E1 E2].
  assert (I := IH (fun y Hy => H y (or_intror Hy))). rewrite E1 in *. destruct (P' (g x)); cbn [map]; [rewrite E2, I; reflexivity|exact I].
Qed.

Section Tiling.
Variables (rows cols r0 r1 c0 c1 B : Z).
(** [r0..r1) x [c0..c1) contains the tile [tr0..tr1) x [tc0..tc1) with a buffer of at least [B] pixels cut at the raster's edge. *)
Variables (tr0 tr1 tc0 tc1 : Z).
Hypothesis Htr : 0 <= tr0 < tr1 /\ tr1 <= rows.
Hypothesis Htc : 0 <= tc0 < tc1 /\ tc1 <= cols.
Hypothesis Hr0 : 0 <= r0 <= Z.max 0 (tr0 - B).
Hypothesis Hr1 : Z.min rows (tr1 + B) <= r1 <= rows.
Hypothesis Hc0 : 0 <= c0 <= Z.max 0 (tc0 - B).
Hypothesis Hc1 : Z.min cols (tc1 + B) <= c1 <= cols.

Lemma mean_window d (data w : grid Q) avg lag i j : g_rows data = rows -> g_cols data = cols -> 0 <= lag -> 0 <= avg -> lag + avg <= B ->
  g_rows w = r1 - r0 -> g_cols w = c1 - c0 -> (forall r c, 0 <= r < r1 - r0 -> 0 <= c < c1 - c0 -> g_at w r c = g_at data (r0 + r) (c0 + c)) ->
  tr0 <= i < tr1 -> tc0 <= j < tc1 ->
  cell_mean d w avg lag (i - r0) (j - c0) = cell_mean d data avg lag i j.
Proof.
  intros Er Ec Hl Ha HB Ewr Ewc Ew Hi Hj. unfold cell_mean, values, fetch. rewrite Er, Ec, Ewr, Ewc.
  f_equal.
  - rewrite Ew by lia. f_equal; lia.
  - apply filter_map_rel. intros k Hk. apply in_range2 in Hk. split.
    + apply eq_true_iff_eq. rewrite !inside_iff. unfold up_pixel. cbn [fst snd].
      destruct d; cbn [upwind fst snd]; lia.
    + intros Hin. apply inside_iff in Hin. unfold up_pixel in *. cbn [fst snd] in *. rewrite Ew by lia. f_equal; lia.
Qed.

Lemma terrain_dir_window d (init w : grid num) avg lag : g_rows init = rows -> g_cols init = cols -> 0 <= lag -> 1 <= avg -> lag + avg <= B ->
  g_rows w = r1 - r0 -> g_cols w = c1 - c0 -> (forall r c, 0 <= r < r1 - r0 -> 0 <= c < c1 - c0 -> g_at w r c = g_at init (r0 + r) (c0 + c)) ->
  match terrain_dir d w avg lag, terrain_dir d init avg lag with
  | Ok ow, Ok o => forall i j, tr0 <= i < tr1 -> tc0 <= j < tc1 -> same_num (g_at ow (i - r0) (j - c0)) (g_at o i j)
  | Err e, Err e' => e = e'
  | _, _ => False
  end.
Proof.
  intros Er Ec Hl Ha HB Ewr Ewc Ew.
  assert (RW : r1 - r0 = rows \/ lag + avg < r1 - r0) by lia.
  assert (CW : c1 - c0 = cols \/ lag + avg < c1 - c0) by lia.
  assert (Bd : forall i j, tr0 <= i < tr1 -> tc0 <= j < tc1 -> 0 <= i - r0 < r1 - r0 /\ 0 <= j - c0 < c1 - c0) by lia.
  assert (RP : 1 <= r1 - r0) by lia. assert (CP : 1 <= c1 - c0) by lia. assert (RR : r1 - r0 <= rows) by lia. assert (CC : c1 - c0 <= cols) by lia.
  assert (MW : forall a i j, 0 <= a <= avg -> tr0 <= i < tr1 -> tc0 <= j < tc1 ->
    cell_mean d (fill w) a lag (i - r0) (j - c0) = cell_mean d (fill init) a lag i j).
  { intros a i j Ha' Hi Hj. apply mean_window; try assumption; try (cbn; lia). intros; unfold fill, gmap; cbn [g_at]; rewrite Ew by assumption; reflexivity. }
  assert (IB : forall i j, tr0 <= i < tr1 -> tc0 <= j < tc1 -> 0 <= i < rows /\ 0 <= j < cols) by lia.
  clear Htr Htc Hr0 Hr1 Hc0 Hc1.
  destruct (Z_lt_ge_dec rows lag) as [S|S].
  - rewrite !terrain_dir_small by lia. intros i j Hi Hj. destruct (Bd i j Hi Hj). unfold gmap, fill. cbn [g_at gmap]. rewrite Ew by assumption.
    replace (r0 + (i - r0)) with i by lia. replace (c0 + (j - c0)) with j by lia. apply same_num_refl.
  - assert (Em : Z.min avg (g_rows w - lag) = Z.min avg (g_rows init - lag)) by lia.
    destruct (Z_lt_ge_dec (Z.min avg (g_rows init - lag)) 1) as [Z0|Z1].
    + assert (Rl : rows = lag) by lia.
      destruct (Z_lt_ge_dec (lag + 1) (extent_along d rows cols)) as [X|X].
      * rewrite (terrain_dir_err d w), (terrain_dir_err d init); try reflexivity; try lia.
        -- rewrite Er, Ec. exact X.
        -- rewrite Ewr, Ewc. destruct d; cbn [extent_along] in *; lia.
      * destruct (terrain_dir_ok d w avg lag) as (ow & -> & _ & _ & Vw); try lia.
        { right. rewrite Ewr, Ewc. destruct d; cbn [extent_along] in *; lia. }
        destruct (terrain_dir_ok d init avg lag) as (o & -> & _ & _ & V); try lia.
        { right. rewrite Er, Ec. lia. }
        intros i j Hi Hj. destruct (Bd i j Hi Hj) as [B1 B2].
        eapply same_num_trans; [apply Vw; lia|]. destruct (IB i j Hi Hj) as [B3 B4].
        apply same_num_sym. eapply same_num_trans; [apply V; lia|].
        rewrite Em, MW by (try assumption; lia).
        rewrite Ew by assumption. replace (r0 + (i - r0)) with i by lia. replace (c0 + (j - c0)) with j by lia. apply same_num_refl.
    + destruct (terrain_dir_ok d w avg lag) as (ow & -> & _ & _ & Vw); try lia.
      destruct (terrain_dir_ok d init avg lag) as (o & -> & _ & _ & V); try lia.
      intros i j Hi Hj. destruct (Bd i j Hi Hj) as [B1 B2].
      eapply same_num_trans; [apply Vw; lia|]. destruct (IB i j Hi Hj) as [B3 B4].
        apply same_num_sym. eapply same_num_trans; [apply V; lia|].
      rewrite Em, MW by (try assumption; lia).
      rewrite Ew by assumption. replace (r0 + (i - r0)) with i by lia. replace (c0 + (j - c0)) with j by lia. apply same_num_refl.
Qed.
End Tiling.
