(** * The terrain average in floating point is the rounded exact average. *)
From Verif Require Import Base BaseLemmas NameModel TerrModel TerrSpec TerrProofs TerrRunProofs Rounding FloatSpec FloatModel.
From Coq Require Import Qpower.
Open Scope Z_scope.

(** Results that agree up to [R]; failures agree. *)
Definition rres {A B} (R : A -> B -> Prop) (x : res A) (y : res B) : Prop :=
  match x, y with Ok a, Ok b => R a b | Err e, Err e' => e = e' | _, _ => False end.

Lemma rres_mapM {A B C} (R : B -> C -> Prop) (f : A -> res B) (g : A -> res C) l :
  (forall x, In x l -> rres R (f x) (g x)) -> rres (Forall2 R) (mapM f l) (mapM g l).
Proof.
  induction l as [|x l IH]; intros H; [constructor|]. cbn [mapM].
  pose proof (H x (or_introl eq_refl)) as Hx. specialize (IH (fun y Hy => H y (or_intror Hy))).
  destruct (f x), (g x); cbn [rres bind] in *; try contradiction; try assumption.
  destruct (mapM f l), (mapM g l); cbn [rres bind] in *; try contradiction; try assumption. constructor; assumption.
Qed.

Lemma rres_grid_loop {A B} (R : A -> B -> Prop) (da : A) (db : B) rows cols f g :
  (forall i j, 0 <= i < rows -> 0 <= j < cols -> rres R (f i j) (g i j)) ->
  rres (fun a b => g_rows a = rows /\ g_cols a = cols /\ g_rows b = rows /\ g_cols b = cols /\
          forall i j, 0 <= i < rows -> 0 <= j < cols -> R (g_at a i j) (g_at b i j))
       (grid_loop da rows cols f) (grid_loop db rows cols g).
Proof.
  intros H. unfold grid_loop.
  assert (M : rres (Forall2 (Forall2 R)) (mapM (fun i => mapM (f i) (zrange cols)) (zrange rows)) (mapM (fun i => mapM (g i) (zrange cols)) (zrange rows))).
  { apply rres_mapM. intros i Hi. apply in_zrange in Hi. apply rres_mapM. intros j Hj. apply in_zrange in Hj. apply H; assumption. }
  destruct (mapM _ (zrange rows)) as [la|e] eqn:Ea; destruct (mapM (fun i => mapM (g i) (zrange cols)) (zrange rows)) as [lb|e'] eqn:Eb;
    cbn [rres bind] in *; try contradiction; [|exact M].
  split; [reflexivity|]. split; [reflexivity|]. split; [reflexivity|]. split; [reflexivity|].
  intros i j Hi Hj. cbn [g_at].
  assert (Ia : In i (zrange rows)) by (apply in_zrange; exact Hi). assert (Ij : In j (zrange cols)) by (apply in_zrange; exact Hj).
  destruct (mapM_inv _ _ _ _ Ea Ia) as (ra & Ra). destruct (mapM_inv _ _ _ _ Ra Ij) as (va & Va).
  destruct (mapM_inv _ _ _ _ Eb Ia) as (rb & Rb). destruct (mapM_inv _ _ _ _ Rb Ij) as (vb & Vb).
  pose proof (H i j Hi Hj) as X. rewrite Va, Vb in *. exact X.
Qed.

(** Multiples of 2^-25 between 0 and 2. *)
Definition short (x : Q) : Prop := exists k, 0 <= k <= 2 ^ 26 /\ (x == inject_Z k * Qpower 2 (-25))%Q.

Lemma short_1 : short 1%Q. Proof. exists (2 ^ 25). split; [lia|reflexivity]. Qed.

Lemma avg_500 fl gw d : fl_ok fl -> (1 <= gw)%Q -> fst (widths fl gw d) <= 500.
Proof.
  intros Hf Hg.
  assert (D : forall g, (1 <= g)%Q -> (fl (500 / g) <= 500)%Q).
  { intros g G. assert (M : (500 / g <= inject_Z 500)%Q).
    { apply Qle_shift_div_r; [lra|]. change (inject_Z 500) with 500%Q. lra. }
    apply (fl_mono fl Hf) in M. rewrite (fl_int fl Hf 500) in M by lia. exact M. }
  unfold widths. destruct (is_cardinal d); cbn [fst].
  - rewrite <- (np_around_int 500 500) by reflexivity. apply np_around_mono. apply D. exact Hg.
  - assert (O : forall x, (1 <= x)%Q -> (1 <= fl x)%Q).
    { intros x X. apply (fl_mono fl Hf) in X. change 1%Q with (inject_Z 1) in X at 1. rewrite (fl_int fl Hf 1) in X by lia. exact X. }
    assert (G : (1 <= fl (gw * fl (1414 # 1000)))%Q).
    { apply O. assert (1 <= fl (1414#1000))%Q by (apply O; discriminate). nra. }
    set (g := fl (gw * fl (1414 # 1000))%Q) in *. specialize (D g G).
    assert (P : (0 <= fl (500 / g))%Q).
    { assert (X : (0 <= 500 / g)%Q) by (apply Qle_shift_div_l; lra). apply (fl_mono fl Hf) in X.
      change 0%Q with (inject_Z 0) in X at 1. rewrite (fl_int fl Hf 0) in X by lia. exact X. }
    rewrite py_int_nonneg by exact P. rewrite <- (Qfloor_Z 500). apply Qfloor_resp_le. exact D.
Qed.

Section T.
  Variables acc dbl sgl : Q -> Q.
  Hypothesis Ha : double acc.
  Hypothesis Hd : double dbl.
  Hypothesis Hs : single sgl.

  Lemma sgl_short q : (1#2 <= q <= 2)%Q -> short (sgl q).
  Proof.
    intros [L U].
    assert (L' : (1#2 <= sgl q)%Q).
    { assert (X : (sgl (inject_Z 1 * Qpower 2 (-1)) == inject_Z 1 * Qpower 2 (-1))%Q) by (apply (bin_exact _ _ Hs); lia).
      assert (M := bin_mono _ _ Hs (inject_Z 1 * Qpower 2 (-1)) q). rewrite X in M. apply M. exact L. }
    assert (U' : (sgl q <= 2)%Q).
    { assert (X : (sgl (inject_Z 2 * Qpower 2 0) == inject_Z 2 * Qpower 2 0)%Q) by (apply (bin_exact _ _ Hs); lia).
      assert (M := bin_mono _ _ Hs q (inject_Z 2 * Qpower 2 0)). rewrite X in M. apply M. exact U. }
    destruct (bin_format _ _ Hs q) as (k & e & K & E).
    change (Qpower 2 e) with (p2 e) in E.
    destruct (Z_le_gt_dec (-25) e) as [G|G].
    - exists (k * 2 ^ (e + 25)). change (Qpower 2 (-25)) with (p2 (-25)).
      assert (E' : (sgl q == inject_Z (k * 2 ^ (e + 25)) * p2 (-25))%Q).
      { rewrite E, inject_Z_mult, <- p2_Z by lia. rewrite <- Qmult_assoc, <- p2_add. replace (e + 25 + -25)%Z with e by lia. reflexivity. }
      split; [|exact E'].
      assert (P : (p2 (-25) == 1 # 33554432)%Q) by reflexivity. rewrite P in E'.
      assert (A1 : (inject_Z 0 <= inject_Z (k * 2 ^ (e + 25)))%Q) by (change (inject_Z 0) with 0%Q; lra).
      assert (A2 : (inject_Z (k * 2 ^ (e + 25)) <= inject_Z (2 ^ 26))%Q) by (change (inject_Z (2 ^ 26)) with (67108864 # 1)%Q; lra).
      rewrite <- Zle_Qle in A1, A2. lia.
    - exfalso. assert (X : (p2 e <= p2 (-26))%Q) by (apply p2_mono; lia).
      assert (Y : (inject_Z k <= inject_Z (2 ^ 24))%Q) by (apply inject_Z_le; lia).
      change (inject_Z (2 ^ 24)) with (16777216 # 1)%Q in Y. assert (P : (p2 (-26) == 1 # 67108864)%Q) by reflexivity. rewrite P in X.
      pose proof (p2_pos e).
      assert (Z1 : (inject_Z k * p2 e <= (16777216 # 1) * p2 e)%Q) by (apply Qmult_le_r; assumption). lra.
  Qed.

  Lemma dbl_short x : short x -> (dbl x == x)%Q.
  Proof. intros (k & K & E). rewrite (bin_proper _ _ Hd _ _ E), E. apply (bin_exact _ _ Hd). lia. Qed.

  (** Short sums are exact. *)
  Lemma sum_exact {A} (g : A -> res Q) l : (forall x v, In x l -> g x = Ok v -> short v) -> forall s s' k,
    (s == s')%Q -> (s' == inject_Z k * Qpower 2 (-25))%Q -> 0 <= k -> k + 2 ^ 26 * zlen l <= 2 ^ 53 ->
    rres Qeq (foldM (fun s m => let* v := g m in Ok (acc (s + v))) l s) (foldM (fun s m => let* v := g m in Ok (s + v)%Q) l s').
  Proof.
    induction l as [|x l IH]; intros Hg s s' k Es Ek K0 K; [exact Es|].
    cbn [foldM]. destruct (g x) as [v|e] eqn:E; cbn [bind]; [|reflexivity].
    assert (G0 := Hg x v (or_introl eq_refl) E). destruct G0 as (j & J & Ej).
    unfold zlen in K. cbn [length] in K. rewrite Nat2Z.inj_succ in K. fold (zlen l) in K. pose proof (Nat2Z.is_nonneg (length l)) as LN. fold (zlen l) in LN.
    apply (IH (fun y w Hy => Hg y w (or_intror Hy))) with (k := k + j); try lia.
    - assert (X : (s + v == inject_Z (k + j) * Qpower 2 (-25))%Q) by (rewrite Es, Ek, Ej, inject_Z_plus; ring).
      rewrite (bin_proper _ _ Ha _ _ X). rewrite (bin_exact _ _ Ha) by lia.
      rewrite <- X, Es. reflexivity.
    - rewrite Ek, Ej, inject_Z_plus. ring.
  Qed.

  Lemma gget_short data r c v : (forall r c, short (g_at data r c)) -> gget data r c = Ok v -> short v.
  Proof.
    intros H E. unfold gget in E. destruct (norm_index (g_rows data) r); [|discriminate]. destruct (norm_index (g_cols data) c); [|discriminate].
    injection E as <-. apply H.
  Qed.

  Lemma cell_fl d data avg lag i j : (forall r c, short (g_at data r c)) -> avg <= 2 ^ 27 ->
    rres (fun x y => (x == sgl (dbl y))%Q) (convo_cell_fl acc dbl sgl d data avg lag i j) (convo_cell d data avg lag i j).
  Proof.
    intros H A. unfold convo_cell_fl, convo_cell.
    set (n := all_neighb d i j (g_rows data) (g_cols data) lag). destruct (0 <? n) eqn:En.
    - set (mx := if n <? avg then n else avg). assert (M : mx <= 2 ^ 27) by (unfold mx; destruct (n <? avg) eqn:C; lia).
      pose proof (sum_exact (fun m => gget data (point_r d i m lag) (point_c d j m lag)) (zrange mx)
        (fun m v _ E => gget_short data _ _ v H E) 0%Q 0%Q 0 (Qeq_refl 0) ltac:(reflexivity) (Z.le_refl 0)) as S.
      assert (L : 0 + 2 ^ 26 * zlen (zrange mx) <= 2 ^ 53).
      { destruct (Z_le_gt_dec 0 mx) as [P|P]; [rewrite zlen_zrange by exact P; lia|]. replace (zrange mx) with (@nil Z); [cbn; lia|]. unfold zrange. destruct mx; try lia. reflexivity. }
      specialize (S L). destruct (foldM (fun s m => let* v := _ in Ok (acc (s + v))) (zrange mx) 0%Q) as [x|e];
        destruct (foldM _ (zrange mx) 0%Q) as [y|e']; cbn [rres bind] in *; try contradiction; [|exact S].
      unfold py_div. destruct (Qeq_bool (inject_Z mx) 0); cbn [bind rres]; [reflexivity|].
      apply (bin_proper _ _ Hs). apply (bin_proper _ _ Hd). rewrite S. reflexivity.
    - destruct (gget data i j) as [v|e] eqn:E; cbn [bind rres]; [|reflexivity].
      apply (bin_proper _ _ Hs). symmetry. apply dbl_short. apply (gget_short data i j v H E).
  Qed.

  Lemma dir_fl d init avg lag : (forall r c, short (g_at (fill init) r c)) ->
    (forall r c q, g_at init r c = Num q -> (sgl q == q)%Q) -> avg <= 2 ^ 27 -> 0 <= lag ->
    (sgl 1 == 1)%Q ->
    rres (fun a b => g_rows a = g_rows b /\ g_cols a = g_cols b /\
            forall i j, 0 <= i < g_rows b -> 0 <= j < g_cols b -> same_num (g_at a i j) (nround (fun q => sgl (dbl q)) (g_at b i j)))
         (terrain_dir_fl acc dbl sgl d init avg lag) (terrain_dir d init avg lag).
  Proof.
    intros H HQ A L H1. unfold terrain_dir_fl, terrain_dir. cbv zeta. destruct (g_rows init <? lag) eqn:E.
    - cbn [rres gmap fill g_rows g_cols g_at]. split; [reflexivity|]. split; [reflexivity|]. intros i j _ _. cbn [nround same_num].
      symmetry. rewrite (bin_proper _ _ Hs _ (g_at (fill init) i j)) by (apply dbl_short; apply H).
      change (g_at (fill init) i j) with (match g_at init i j with Num q => q | NaN => 1%Q end).
      destruct (g_at init i j) eqn:Q; [exact H1|apply (HQ i j); exact Q].
    - set (avg' := if g_rows init <? avg + lag then g_rows init - lag else avg).
      assert (A' : avg' <= 2 ^ 27) by (unfold avg'; destruct (g_rows init <? avg + lag) eqn:C; lia).
      pose proof (rres_grid_loop (fun x y => (x == sgl (dbl y))%Q) 0%Q 0%Q (g_rows (fill init)) (g_cols (fill init))
        (convo_cell_fl acc dbl sgl d (fill init) avg' lag) (convo_cell d (fill init) avg' lag)
        (fun i j _ _ => cell_fl d (fill init) avg' lag i j H A')) as G.
      unfold convo_fl, convo. destruct (grid_loop 0%Q _ _ (convo_cell_fl acc dbl sgl d (fill init) avg' lag)) as [a|e];
        destruct (grid_loop 0%Q _ _ (convo_cell d (fill init) avg' lag)) as [b|e']; cbn [rres bind] in *; try contradiction; [|exact G].
      destruct G as (R1 & C1 & R2 & C2 & V). cbn [g_rows g_cols g_at]. split; [congruence|]. split; [congruence|].
      intros i j Hi Hj. rewrite R2 in Hi. rewrite C2 in Hj. destruct (g_at init i j); cbn [nround same_num]; [exact I|]. apply V; assumption.
  Qed.

  Lemma sgl_idem q : (sgl (sgl q) == sgl q)%Q.
  Proof. destruct (bin_format _ _ Hs q) as (k & e & K & E). rewrite (bin_proper _ _ Hs _ _ E), E. apply (bin_exact _ _ Hs). exact K. Qed.
  Lemma sgl_0 q : (q == 0)%Q -> (sgl q == 0)%Q.
  Proof.
    intros E. rewrite (bin_proper _ _ Hs _ (inject_Z 0 * Qpower 2 0)%Q) by (rewrite E; reflexivity).
    rewrite (bin_exact _ _ Hs) by lia. reflexivity.
  Qed.
  Lemma sgl_1 : (sgl 1 == 1)%Q.
  Proof.
    rewrite (bin_proper _ _ Hs _ (inject_Z 1 * Qpower 2 0)%Q) by reflexivity. rewrite (bin_exact _ _ Hs) by lia. reflexivity.
  Qed.

  Lemma reclass_from cat (t : list (Z * num)) : forall a,
    fold_left (fun acc row => if cat =? fst row then snd row else acc) t a = a \/
    exists k, In (k, fold_left (fun acc row => if cat =? fst row then snd row else acc) t a) t.
  Proof.
    induction t as [|[k v] t IH]; intros a; [left; reflexivity|]. cbn [fold_left fst snd].
    destruct (IH (if cat =? k then v else a)) as [E|(k' & E)]; [|right; exists k'; right; exact E].
    rewrite E. destruct (cat =? k); [right; exists k; left; reflexivity|left; reflexivity].
  Qed.

  Definition rounded_table (table : list (Z * num)) := map (fun row => (fst row, nround sgl (snd row))) table.

  Lemma init_from table data r c q : g_at (zero_to_nan (class2mz (rounded_table table) data)) r c = Num q ->
    exists cat v, In (cat, Num v) table /\ q = sgl v /\ ~ (v == 0)%Q.
  Proof.
    unfold zero_to_nan, class2mz, gmap. cbn [g_at]. intros E.
    destruct (reclass_from (g_at data r c) (rounded_table table) (Num 0)) as [F|(k & F)].
    - rewrite F in E. discriminate.
    - set (x := fold_left _ _ _) in *. destruct x as [|y]; [discriminate|]. cbn [is_zero] in E.
      destruct (Qeq_bool y 0) eqn:Z0; [discriminate|]. injection E as ->.
      unfold rounded_table in F. apply in_map_iff in F. destruct F as ([k' w] & E & I). cbn in E. destruct w as [|v]; [discriminate|].
      cbn in E. injection E as -> <-. exists k, v. split; [exact I|]. split; [reflexivity|].
      intros V. apply sgl_0 in V. apply Qeq_bool_neq in Z0. contradiction.
  Qed.

  Lemma terrain_fl_same fl table data gw : fl_ok fl -> (1 <= gw)%Q ->
    (forall cat v, In (cat, Num v) table -> (v == 0 \/ 1#2 <= v <= 2)%Q) ->
    rres (fun a b => match a, b with
      | None, None => True
      | Some l, Some l' => Forall2 (fun x y => fst x = fst y /\ g_rows (snd x) = g_rows (snd y) /\ g_cols (snd x) = g_cols (snd y) /\
          forall i j, 0 <= i < g_rows (snd y) -> 0 <= j < g_cols (snd y) ->
            same_num (g_at (snd x) i j) (nround (fun q => sgl (dbl q)) (g_at (snd y) i j))) l l'
      | _, _ => False end)
      (terrain_fl acc dbl sgl fl table data gw) (terrain fl (rounded_table table) data gw).
  Proof.
    intros Hf Hg Ht. unfold terrain_fl, terrain. fold (rounded_table table).
    set (re := class2mz (rounded_table table) data). destruct (np_max re) as [mx|e]; cbn [bind]; [|reflexivity].
    destruct (is_zero mx); [exact I|].
    set (init := zero_to_nan re).
    assert (SH : forall r c, short (g_at (fill init) r c)).
    { intros r c. change (g_at (fill init) r c) with (match g_at init r c with Num q => q | NaN => 1%Q end).
      destruct (g_at init r c) as [|q] eqn:E; [exact short_1|]. apply init_from in E. destruct E as (cat & v & I & -> & N).
      apply sgl_short. destruct (Ht cat v I); [contradiction|assumption]. }
    assert (SG : forall r c q, g_at init r c = Num q -> (sgl q == q)%Q).
    { intros r c q E. apply init_from in E. destruct E as (cat & v & I & -> & N). apply sgl_idem. }
    pose proof (rres_mapM (fun (x y : dir * grid num) => fst x = fst y /\ g_rows (snd x) = g_rows (snd y) /\ g_cols (snd x) = g_cols (snd y) /\
          forall i j, 0 <= i < g_rows (snd y) -> 0 <= j < g_cols (snd y) ->
            same_num (g_at (snd x) i j) (nround (fun q => sgl (dbl q)) (g_at (snd y) i j)))
      (fun d => let '(avg, lag) := widths fl gw d in let* o := terrain_dir_fl acc dbl sgl d init avg lag in Ok (d, o))
      (fun d => let '(avg, lag) := widths fl gw d in let* o := terrain_dir d init avg lag in Ok (d, o)) dire) as M.
    destruct (mapM _ dire) as [l|e]; destruct (mapM (fun d => let '(avg, lag) := widths fl gw d in let* o := terrain_dir d init avg lag in Ok (d, o)) dire) as [l'|e'];
      cbn [rres bind] in *; apply M; clear M; intros d _;
      (destruct (widths_nonneg fl gw Hf ltac:(lra) d) as [W1 W2]; pose proof (avg_500 fl gw d Hf Hg) as W3;
       destruct (widths fl gw d) as [avg lag]; cbn [fst snd] in *;
       pose proof (dir_fl d init avg lag SH SG ltac:(lia) W2 sgl_1) as D;
       destruct (terrain_dir_fl acc dbl sgl d init avg lag), (terrain_dir d init avg lag); cbn [rres bind] in *; try contradiction; try assumption;
       cbn [fst snd]; split; [reflexivity|exact D]).
  Qed.
End T.

(** ** Values of a tile *)
Lemma Forall2_in_l {A B} (R : A -> B -> Prop) l l' x : Forall2 R l l' -> In x l -> exists y, In y l' /\ R x y.
Proof.
  induction 1 as [|a b l l' H _ IH]; intros I; [destruct I|]. destruct I as [<-|I]; [exists b; split; [left; reflexivity|exact H]|].
  destruct (IH I) as (y & Iy & Ry). exists y. split; [right; exact Iy|exact Ry].
Qed.

Lemma sgl_zero sgl v : single sgl -> (sgl v == 0)%Q -> (v == 0)%Q.
Proof.
  intros Hs E. pose proof (bin_near _ _ Hs v) as N. change (Qpower 2 (- (24))) with (1 # 16777216)%Q in N.
  setoid_replace (sgl v - v)%Q with (- v)%Q in N by (rewrite E; ring). rewrite Qabs_opp in N. pose proof (Qabs_nonneg v).
  assert (X : (Qabs v <= 0)%Q) by lra. apply Qabs_Qle_condition in X. lra.
Qed.
Lemma dbl_of_single dbl sgl v : double dbl -> single sgl -> (dbl (sgl v) == sgl v)%Q.
Proof.
  intros Hd Hs. destruct (bin_format _ _ Hs v) as (k & e & K & E). rewrite (bin_proper _ _ Hd _ _ E), E. apply (bin_exact _ _ Hd).
  apply Z.le_trans with (2 ^ 24); [exact K|discriminate].
Qed.

(** The exact stage, from bounds on the values it averages. *)
Lemma terrain_between fl table data gw l d o i j lo hi : fl_ok fl -> (0 < gw)%Q ->
  terrain fl table data gw = Ok (Some l) -> In (d, o) l -> 0 <= i < g_rows data -> 0 <= j < g_cols data ->
  (forall r c, 0 <= r < g_rows data -> 0 <= c < g_cols data -> (lo <= g_at (fill (zero_to_nan (class2mz table data))) r c <= hi)%Q) ->
  g_rows o = g_rows data /\ g_cols o = g_cols data /\
  match g_at o i j with Num q => (lo <= q <= hi)%Q | NaN => g_at (zero_to_nan (class2mz table data)) i j = NaN end.
Proof.
  intros Hf Hg E Ho Hi Hj F. destruct (terrain_skip_or_run _ _ _ _ _ E) as [|(l' & El & _ & K)]; [discriminate|].
  injection El as <-. specialize (K d o Ho). set (init := zero_to_nan (class2mz table data)) in *.
  destruct (widths_nonneg fl gw Hf Hg d) as [A B]. set (avg := fst (widths fl gw d)) in *. set (lag := snd (widths fl gw d)) in *.
  destruct (Z_lt_ge_dec (g_rows init) lag) as [S|S].
  - rewrite terrain_dir_small in K by exact S. injection K as <-. cbn [gmap g_at g_rows g_cols fill]. split; [reflexivity|]. split; [reflexivity|]. apply F; assumption.
  - destruct (terrain_dir_cases fl gw d init Hf Hg) as [[_ X]|[N _]]; try (cbn; lia).
    + subst avg lag. rewrite K in X. discriminate.
    + unfold direction_fails in N. change (fst (widths fl gw d)) with avg in N. change (snd (widths fl gw d)) with lag in N.
      assert (X : exists o', terrain_dir d init avg lag = Ok o' /\ g_rows o' = g_rows init /\ g_cols o' = g_cols init /\
        forall i j, 0 <= i < g_rows init -> 0 <= j < g_cols init ->
          same_num (g_at o' i j) (masked (g_at init i j) (cell_mean d (fill init) (Z.min avg (g_rows init - lag)) lag i j))).
      { assert (1 <= g_rows init) by (cbn; lia). assert (1 <= g_cols init) by (cbn; lia). apply terrain_dir_ok; lia. }
      destruct X as (o' & E' & R & C & V). rewrite K in E'. injection E' as <-. split; [exact R|]. split; [exact C|].
      specialize (V i j Hi Hj). destruct (g_at o i j) as [|q]; destruct (g_at init i j); cbn in V; try contradiction; [reflexivity|].
      rewrite V. apply cell_mean_bounds; [assumption|assumption|]. exact F.
Qed.

Lemma terrain_uniform fl table data gw l cat v d o i j : fl_ok fl -> (0 < gw)%Q -> (forall r c, 0 <= r < g_rows data -> 0 <= c < g_cols data -> g_at data r c = cat) ->
  last_row table cat (Num v) -> ~ (v == 0)%Q -> terrain fl table data gw = Ok (Some l) -> In (d, o) l ->
  0 <= i < g_rows data -> 0 <= j < g_cols data ->
  g_rows o = g_rows data /\ g_cols o = g_cols data /\ same_num (g_at o i j) (Num v).
Proof.
  intros Hf Hg U L V E Ho Hi Hj.
  assert (I : forall r c, 0 <= r < g_rows data -> 0 <= c < g_cols data -> g_at (zero_to_nan (class2mz table data)) r c = Num v).
  { intros r c Hr Hc. unfold zero_to_nan, class2mz, gmap. cbn [g_at]. rewrite U by assumption. fold (reclass cat table (Num 0)). rewrite (reclass_last _ _ _ _ L).
    cbn [is_zero]. destruct (Qeq_bool v 0) eqn:Z0; [apply Qeq_bool_eq in Z0; contradiction|reflexivity]. }
  destruct (terrain_between fl table data gw l d o i j v v Hf Hg E Ho Hi Hj) as (R & C & K).
  { intros r c Hr Hc. unfold fill. cbn [gmap g_at]. change (g_at _ r c) with (g_at (zero_to_nan (class2mz table data)) r c). rewrite I by assumption. lra. }
  split; [exact R|]. split; [exact C|]. rewrite I in K by assumption. destruct (g_at o i j); [discriminate|]. cbn [same_num]. lra.
Qed.

Lemma terrain_shape fl table data gw l d o : fl_ok fl -> (0 < gw)%Q -> terrain fl table data gw = Ok (Some l) -> In (d, o) l ->
  1 <= g_rows data -> 1 <= g_cols data -> g_rows o = g_rows data /\ g_cols o = g_cols data.
Proof.
  intros Hf Hg E Ho R C. destruct (terrain_skip_or_run _ _ _ _ _ E) as [|(l' & El & _ & K)]; [discriminate|].
  injection El as <-. specialize (K d o Ho). set (init := zero_to_nan (class2mz table data)) in *.
  destruct (terrain_dir_cases fl gw d init Hf Hg R C) as [[_ X]|[_ (o' & X & R' & C')]]; rewrite K in X; [discriminate|]. injection X as <-. split; assumption.
Qed.
