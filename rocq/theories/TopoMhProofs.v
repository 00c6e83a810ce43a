(** * The hill-shape multiplier of one line (C37-C40). *)
From Verif Require Import Base BaseLemmas TopoModel TopoSpec TopoLineProofs.
Open Scope Z_scope.

Lemma fl_line_id M : fl_line (fun x => x) M.
Proof.
  constructor; try reflexivity; try (intros; assumption).
  - intros x. setoid_replace (x - x)%Q with 0%Q by ring. cbn. pose proof (Qabs_nonneg x). lra.
  - lra.
Qed.
Lemma fl_line_of_ok fl : fl_ok fl -> (fl (1 + fl (fl (71#100))) <= fl (171#100))%Q -> fl_line fl (2 ^ 53).
Proof.
  intros [P R Mo I O] H. constructor; try assumption. intros x. eapply Qle_trans; [apply R|].
  apply Qmult_le_compat_r; [unfold u53; vm_compute; discriminate|apply Qabs_nonneg].
Qed.

Section Fl.
Variables (fl : Q -> Q) (M : Z).
Hypothesis Hfl : fl_line fl M.
Hypothesis HM : 1 <= M.

Lemma f0 : (fl 0 == 0)%Q.
Proof. apply (fll_int _ _ Hfl 0). cbn. lia. Qed.
Lemma f1 : (fl 1 == 1)%Q.
Proof. apply (fll_int _ _ Hfl 1). cbn. lia. Qed.
Lemma f_nonneg x : (0 <= x)%Q -> (0 <= fl x)%Q.
Proof. intros H. rewrite <- f0. apply (fll_mono _ _ Hfl). exact H. Qed.
Lemma f_lo x : (0 <= x)%Q -> ((99#100) * x <= fl x)%Q.
Proof. intros H. pose proof (fll_rel _ _ Hfl x) as R. rewrite (Qabs_pos x H) in R. apply Qabs_Qle_condition in R. lra. Qed.
Lemma f_hi x : (0 <= x)%Q -> (fl x <= (101#100) * x)%Q.
Proof. intros H. pose proof (fll_rel _ _ Hfl x) as R. rewrite (Qabs_pos x H) in R. apply Qabs_Qle_condition in R. lra. Qed.
Lemma f_pos x : (0 < x)%Q -> (0 < fl x)%Q.
Proof. intros H. pose proof (f_lo x ltac:(lra)). lra. Qed.
Lemma f_ge1 x : (1 <= x)%Q -> (1 <= fl x)%Q.
Proof. intros H. rewrite <- f1. apply (fll_mono _ _ Hfl). exact H. Qed.
Lemma f_le1 x : (x <= 1)%Q -> (fl x <= 1)%Q.
Proof. intros H. rewrite <- f1. apply (fll_mono _ _ Hfl). exact H. Qed.
Lemma fdiv_ok x y : (0 < y)%Q -> fdiv fl x y = Ok (fl (x / y)).
Proof. intros H. unfold fdiv. destruct (Qeq_bool y 0) eqn:E; [apply Qeq_bool_eq in E; lra|reflexivity]. Qed.
Lemma q_div_nonneg x y : (0 <= x)%Q -> (0 < y)%Q -> (0 <= x / y)%Q.
Proof. intros H1 H2. apply Qle_shift_div_l; lra. Qed.
Lemma q_div_pos x y : (0 < x)%Q -> (0 < y)%Q -> (0 < x / y)%Q.
Proof. intros H1 H2. apply Qlt_shift_div_l; lra. Qed.
Lemma q_div_le1 x y : (x <= y)%Q -> (0 < y)%Q -> (x / y <= 1)%Q.
Proof. intros H1 H2. apply Qle_shift_div_r; lra. Qed.

(** A line value [1 + a (1 - b)]. *)
Lemma value_ge1 a b : (0 <= a)%Q -> (b <= 1)%Q -> (1 <= fl (1 + fl (a * fl (1 - b))))%Q.
Proof.
  intros Ha Hb. assert (K : (0 <= fl (1 - b))%Q) by (apply f_nonneg; lra).
  assert (K2 : (0 <= fl (a * fl (1 - b)))%Q) by (apply f_nonneg; apply Qmult_le_0_compat; assumption). apply f_ge1. lra.
Qed.

Lemma cell_value_ok h l1c l2c slope esc x : (0 < h)%Q -> (0 < l1c)%Q -> ((15#10) * h <= l2c)%Q -> ((1#2) <= esc)%Q ->
  exists o, cell_value fl h l1c l2c slope esc x = Ok o /\
    match o with Some v => (1 <= v <= fl (171#100))%Q | None => True end.
Proof.
  intros Hh H1 H2 He. assert (L2 : (0 < l2c)%Q) by lra. assert (EL : (0 < esc * l2c)%Q) by (apply Qmult_lt_0_compat; lra).
  pose proof (f_pos _ EL) as FEL.
  assert (Dn : (0 < fl (fl (35#10) * fl (10 + l1c)))%Q) by (apply f_pos; apply Qmult_lt_0_compat; apply f_pos; lra).
  assert (C1 : (1 <= fl (171#100))%Q) by (apply f_ge1; lra).
  assert (CP : forall v, (1 <= v)%Q -> (1 <= (if Qltb (fl (171#100)) v then fl (171#100) else v) <= fl (171#100))%Q).
  { intros v Hv. destruct (Qltb (fl (171#100)) v) eqn:E; [lra|]. apply Qltb_ge in E. lra. }
  assert (AN : (0 <= fl (h / fl (fl (35#10) * fl (10 + l1c))))%Q) by (apply f_nonneg; apply q_div_nonneg; lra).
  unfold cell_value. destruct (Qleb 0 x && Qltb x l2c) eqn:B1.
  - apply andb_true_iff in B1. destruct B1 as [B1 B1']. apply Qleb_le in B1. apply Qltb_lt in B1'.
    rewrite fdiv_ok by exact Dn. cbn [bind]. rewrite fdiv_ok by exact L2. cbn [bind]. eexists. split; [reflexivity|]. apply CP. apply value_ge1; [exact AN|].
    apply f_le1. apply q_div_le1; [|exact L2]. rewrite Qabs_pos; lra.
  - destruct (Qltb (fl (45#100)) slope && Qltb x 0 && Qltb (fl (- h / 4)) x && Qltb (Qabs (fl (esc - 1))) (fl (2#10))) eqn:B2.
    + apply andb_true_iff in B2. destruct B2 as [B2 _]. apply andb_true_iff in B2. destruct B2 as [B2 B3]. apply andb_true_iff in B2. destruct B2 as [_ B2].
      apply Qltb_lt in B2, B3. rewrite fdiv_ok by exact FEL. cbn [bind]. eexists. split; [reflexivity|].
      assert (BB : (fl (Qabs x / fl (esc * l2c)) <= 1)%Q).
      { apply f_le1. apply q_div_le1; [|exact FEL]. rewrite Qabs_neg by lra.
        assert (X : (- x <= (101#100) * (h / 4))%Q).
        { assert (E : (fl (- h / 4) == - fl (h / 4))%Q) by (rewrite <- (fll_opp _ _ Hfl); apply (fll_proper _ _ Hfl); field).
          pose proof (f_hi (h / 4) ltac:(apply q_div_nonneg; lra)). lra. }
        pose proof (f_lo (esc * l2c) ltac:(lra)) as Y.
        assert (Zz : ((1#2) * ((15#10) * h) <= esc * l2c)%Q).
        { apply Qle_trans with ((1#2) * l2c)%Q; [lra|]. apply Qmult_le_compat_r; lra. }
        assert (Q4 : (h / 4 == (1#4) * h)%Q) by (unfold Qdiv; change (/ 4)%Q with (1#4)%Q; ring). rewrite Q4 in X. lra. }
      assert (B0 : (0 <= fl (Qabs x / fl (esc * l2c)))%Q) by (apply f_nonneg; apply q_div_nonneg; [apply Qabs_nonneg|exact FEL]).
      split; [apply value_ge1; [apply f_nonneg; lra|exact BB]|].
      eapply Qle_trans; [|apply (fll_171 _ _ Hfl)]. apply (fll_mono _ _ Hfl).
      assert (G : (fl (fl (71#100) * fl (1 - fl (Qabs x / fl (esc * l2c)))) <= fl (fl (71#100)))%Q).
      { apply (fll_mono _ _ Hfl). assert (U : (fl (1 - fl (Qabs x / fl (esc * l2c))) <= 1)%Q) by (apply f_le1; lra).
        assert (N7 : (0 <= fl (71#100))%Q) by (apply f_nonneg; lra).
        assert (P : (0 <= fl (71#100) * (1 - fl (1 - fl (Qabs x / fl (esc * l2c)))))%Q) by (apply Qmult_le_0_compat; lra). lra. }
      lra.
    + destruct (Qltb x 0 && Qltb (fl (- esc * l2c)) x) eqn:B3.
      * apply andb_true_iff in B3. destruct B3 as [B3 B4]. apply Qltb_lt in B3, B4.
        rewrite fdiv_ok by exact Dn. cbn [bind]. rewrite fdiv_ok by exact FEL. cbn [bind]. eexists. split; [reflexivity|]. apply CP. apply value_ge1; [exact AN|].
        apply f_le1. apply q_div_le1; [|exact FEL]. rewrite Qabs_neg by lra.
        assert (E : (fl (- esc * l2c) == - fl (esc * l2c))%Q) by (rewrite <- (fll_opp _ _ Hfl); apply (fll_proper _ _ Hfl); ring). lra.
      * exists None. split; [reflexivity|exact I].
Qed.

Lemma pyget_elev y i : 0 <= i <= last_pt y -> pyget y i = Ok (elev_at y i).
Proof.
  intros H. apply pyget_nth; [unfold last_pt in H; lia|]. unfold elev_at. apply nth_error_nth'. unfold last_pt, zlen in H. lia.
Qed.

Lemma lu_pos v r ds : v < r -> (0 < ds)%Q -> (0 < fl (fl (inject_Z (Z.abs (r - v)) * ds) / 2))%Q.
Proof.
  intros H Hd. apply f_pos. apply q_div_pos; [|lra]. apply f_pos. apply Qmult_lt_0_compat; [|exact Hd].
  change 0%Q with (inject_Z 0). apply inject_Z_lt. lia.
Qed.

Lemma escarpment_ok y v r ds : 0 <= v < r -> r <= last_pt y -> (0 < ds)%Q -> (elev_at y v < elev_at y r)%Q ->
  exists e, escarpment_factor fl y r v ds = Ok e /\ ((1#2) <= e <= 3)%Q.
Proof.
  intros Hv Hr Hd Hh. unfold escarpment_factor. rewrite (pyget_elev y r) by lia. cbn [bind]. rewrite (pyget_elev y v) by lia. cbn [bind].
  set (lu := fl (fl (inject_Z (Z.abs (r - v)) * ds) / 2)%Q). assert (Lu : (0 < lu)%Q) by (apply lu_pos; [lia|exact Hd]).
  set (h := fl (elev_at y r - elev_at y v)%Q). assert (H0 : (0 < h)%Q) by (apply f_pos; lra).
  assert (L2 : (0 < fl (2 * lu))%Q) by (apply f_pos; lra).
  rewrite fdiv_ok by exact L2. cbn [bind]. rewrite fdiv_ok by exact Hd. cbn [bind].
  set (b := Z.min _ _). assert (Hb : 0 <= b <= last_pt y).
  { unfold b, last_pt in *. assert (0 <= Qfloor (fl (inject_Z r + fl (fl (2 * lu) / ds)))); [|lia]. apply Qfloor_nonneg. apply f_nonneg.
    assert (0 <= inject_Z r)%Q by (change 0%Q with (inject_Z 0); apply inject_Z_le; lia).
    assert (0 <= fl (fl (2 * lu) / ds))%Q by (apply f_nonneg, q_div_nonneg; lra). lra. }
  rewrite (pyget_elev y b) by exact Hb. cbn [bind].
  destruct (Qltb 0 (fl (fl (inject_Z (b - r)) * ds))) eqn:E; [|exists 1%Q; split; [reflexivity|lra]].
  apply Qltb_lt in E. rewrite fdiv_ok by exact E. cbn [bind].
  rewrite fdiv_ok by (apply f_pos, q_div_pos; assumption). cbn [bind].
  match goal with |- context [Qltb ?e (1#2)] => set (ee := e) end.
  destruct (Qltb ee (1#2)) eqn:E1; [exists (1#2)%Q; split; [reflexivity|lra]|]. destruct (Qltb 3 ee) eqn:E2; [exists 3%Q; split; [reflexivity|lra]|].
  apply Qltb_ge in E1, E2. exists ee. split; [reflexivity|lra].
Qed.

(** ** The update loop *)
Definition upd (m : list Q) (k : Z) (o : option Q) : res (list Q) := match o with Some v => pyset m k v | None => Ok m end.
Definition q_at (m : list Q) (i : Z) : Q := nth (Z.to_nat i) m 0%Q.

Lemma list_upd_length {A} (l : list A) n a : length (list_upd l n a) = length l.
Proof. revert n. induction l as [|x l IH]; intros [|n]; cbn; try reflexivity. rewrite IH. reflexivity. Qed.
Lemma list_upd_nth {A} (l : list A) n a d k : (n < length l)%nat -> nth k (list_upd l n a) d = if Nat.eqb k n then a else nth k l d.
Proof.
  revert n k. induction l as [|x l IH]; intros n k H; [cbn in H; lia|]. destruct n as [|n], k as [|k]; cbn; try reflexivity.
  apply IH. cbn in H. lia.
Qed.
Lemma pyset_at (m : list Q) k v : 0 <= k < zlen m -> exists m', pyset m k v = Ok m' /\ zlen m' = zlen m /\
  forall i, 0 <= i -> q_at m' i = if i =? k then v else q_at m i.
Proof.
  intros H. unfold pyset. rewrite norm_index_some by exact H. eexists. split; [reflexivity|]. split; [unfold zlen; rewrite list_upd_length; reflexivity|].
  intros i Hi. unfold q_at. rewrite list_upd_nth by (unfold zlen in H; lia). destruct (Nat.eqb_spec (Z.to_nat i) (Z.to_nat k)), (Z.eqb_spec i k); try reflexivity; lia.
Qed.
Lemma pyset_wrap (m : list Q) v : 0 < zlen m -> pyset m (-1) v = pyset m (zlen m - 1) v.
Proof.
  intros H. unfold pyset. rewrite (norm_index_some (zlen m) (zlen m - 1)) by lia. unfold norm_index. cbn [Z.ltb Z.compare].
  replace ((0 <=? -1 + zlen m) && (-1 + zlen m <? zlen m)) with true by (symmetry; apply andb_true_iff; split; [apply Z.leb_le|apply Z.ltb_lt]; lia).
  replace (-1 + zlen m) with (zlen m - 1) by lia. reflexivity.
Qed.

Lemma loop_plain (f : Z -> option Q) n a (m : list Q) : 0 <= a -> a + Z.of_nat n <= zlen m ->
  exists m', foldM (fun m k => upd m k (f k)) (map (fun i => a + i) (zrange (Z.of_nat n))) m = Ok m' /\ zlen m' = zlen m /\
    forall i, 0 <= i -> q_at m' i = if (a <=? i) && (i <? a + Z.of_nat n) then match f i with Some v => v | None => q_at m i end else q_at m i.
Proof.
  revert a m. induction n as [|n IH]; intros a m Ha Hn.
  - exists m. split; [reflexivity|]. split; [reflexivity|]. intros i Hi. destruct (Z.leb_spec a i), (Z.ltb_spec i (a + Z.of_nat 0)); cbn; try reflexivity; lia.
  - rewrite zrange_cons by lia. cbn [map foldM]. replace (Z.of_nat (S n) - 1) with (Z.of_nat n) by lia. rewrite map_map.
    assert (U : exists m1, upd m (a + 0) (f (a + 0)) = Ok m1 /\ zlen m1 = zlen m /\ forall i, 0 <= i -> q_at m1 i = if i =? a then match f a with Some v => v | None => q_at m a end else q_at m i).
    { rewrite Z.add_0_r. unfold upd. destruct (f a) as [v|].
      - destruct (pyset_at m a v ltac:(lia)) as (m1 & E & L & At). exists m1. split; [exact E|]. split; [exact L|exact At].
      - exists m. split; [reflexivity|]. split; [reflexivity|]. intros i Hi. destruct (Z.eqb_spec i a) as [->|]; reflexivity. }
    destruct U as (m1 & -> & L1 & A1). cbn [bind].
    destruct (IH (a + 1) m1 ltac:(lia) ltac:(lia)) as (m' & E & L' & A').
    exists m'. split; [|split; [lia|]].
    + rewrite <- E. f_equal. apply map_ext. intros. lia.
    + intros i Hi. rewrite A' by exact Hi. rewrite A1 by exact Hi.
      destruct (Z.leb_spec (a + 1) i), (Z.ltb_spec i (a + 1 + Z.of_nat n)), (Z.leb_spec a i), (Z.ltb_spec i (a + Z.of_nat (S n))), (Z.eqb_spec i a); cbn; try lia; try reflexivity.
      subst; reflexivity.
Qed.
Lemma range2_cons a b : a < b -> range2 a b = a :: range2 (a + 1) b.
Proof.
  intros H. unfold range2. rewrite zrange_cons by lia. cbn [map]. rewrite Z.add_0_r, map_map. f_equal. replace (b - a - 1) with (b - (a + 1)) by lia.
  apply map_ext. intros. lia.
Qed.
Lemma range2_nil a b : b <= a -> range2 a b = [].
Proof. intros H. unfold range2, zrange. replace (Z.to_nat (b - a)) with 0%nat by lia. reflexivity. Qed.
Lemma loop_from (f : Z -> option Q) a b (m : list Q) : 0 <= a -> b <= zlen m ->
  exists m', foldM (fun m k => upd m k (f k)) (range2 a b) m = Ok m' /\ zlen m' = zlen m /\
    forall i, 0 <= i -> q_at m' i = if (a <=? i) && (i <? b) then match f i with Some v => v | None => q_at m i end else q_at m i.
Proof.
  intros Ha Hb. destruct (Z_lt_ge_dec a b) as [L|G].
  - destruct (loop_plain f (Z.to_nat (b - a)) a m Ha ltac:(lia)) as (m' & E & L' & A). exists m'. unfold range2.
    replace (b - a) with (Z.of_nat (Z.to_nat (b - a))) by lia. split; [exact E|]. split; [exact L'|]. intros i Hi. rewrite A by exact Hi.
    replace (a + Z.of_nat (Z.to_nat (b - a))) with b by lia. reflexivity.
  - rewrite range2_nil by lia. exists m. split; [reflexivity|]. split; [reflexivity|]. intros i Hi.
    destruct (Z.leb_spec a i), (Z.ltb_spec i b); cbn; try reflexivity; lia.
Qed.
(** The whole loop: index -1 is the last cell, visited first. *)
Lemma loop_all (f : Z -> option Q) a b (m : list Q) : -1 <= a -> b <= zlen m -> 0 < zlen m ->
  exists m', foldM (fun m k => upd m k (f k)) (range2 a b) m = Ok m' /\ zlen m' = zlen m /\
    forall i, 0 <= i < zlen m -> q_at m' i =
      match (if (a <=? i) && (i <? b) then f i else None) with
      | Some v => v
      | None => match (if (a =? -1) && (-1 <? b) && (i =? zlen m - 1) then f (-1) else None) with Some v => v | None => q_at m i end
      end.
Proof.
  intros Ha Hb Hm. destruct (Z.eq_dec a (-1)) as [->|N].
  - destruct (Z_lt_ge_dec (-1) b) as [L|G].
    + rewrite range2_cons by exact L. cbn [foldM].
      assert (U : exists m1, upd m (-1) (f (-1)) = Ok m1 /\ zlen m1 = zlen m /\ forall i, 0 <= i -> q_at m1 i = if i =? zlen m - 1 then match f (-1) with Some v => v | None => q_at m i end else q_at m i).
      { unfold upd. destruct (f (-1)) as [v|].
        - rewrite pyset_wrap by exact Hm. apply pyset_at. lia.
        - exists m. split; [reflexivity|]. split; [reflexivity|]. intros i Hi. destruct (i =? zlen m - 1); reflexivity. }
      destruct U as (m1 & -> & L1 & A1). cbn [bind]. destruct (loop_from f (-1 + 1) b m1 ltac:(lia) ltac:(lia)) as (m' & E & L' & A').
      exists m'. split; [exact E|]. split; [lia|]. intros i Hi. rewrite A' by lia. rewrite A1 by lia. cbn [Z.eqb Pos.eqb].
      rewrite (proj2 (Z.ltb_lt (-1) b)) by exact L. rewrite (proj2 (Z.leb_le (-1) i)) by lia. rewrite (proj2 (Z.leb_le (-1 + 1) i)) by lia. cbn [andb].
      destruct (i <? b); [destruct (f i); [reflexivity|]|]; destruct (i =? zlen m - 1); reflexivity.
    + rewrite range2_nil by lia. exists m. split; [reflexivity|]. split; [reflexivity|]. intros i Hi.
      rewrite (proj2 (Z.ltb_ge i b)) by lia. rewrite (proj2 (Z.ltb_ge (-1) b)) by lia. rewrite !andb_false_r. reflexivity.
  - destruct (loop_from f a b m ltac:(lia) Hb) as (m' & E & L' & A'). exists m'. split; [exact E|]. split; [exact L'|]. intros i Hi.
    rewrite A' by lia. rewrite (proj2 (Z.eqb_neq a (-1))) by exact N. cbn [andb].
    destruct ((a <=? i) && (i <? b)); [destruct (f i)|]; reflexivity.
Qed.

Lemma ones_at n i : 0 <= i < n -> q_at (ones n) i = 1%Q.
Proof.
  intros H. unfold q_at, ones. rewrite (nth_indep _ 0%Q 1%Q) by (rewrite map_length, zrange_length; lia).
  rewrite (map_nth (fun _ : Z => 1%Q) (zrange n) 0). reflexivity.
Qed.
Lemma ones_len n : 0 <= n -> zlen (ones n) = n.
Proof. intros H. unfold zlen, ones. rewrite map_length, zrange_length. lia. Qed.

(** ** mh_calc *)
Lemma foldM_ext {A S} (f g : S -> A -> res S) l s : (forall s x, In x l -> f s x = g s x) -> foldM f l s = foldM g l s.
Proof.
  revert s. induction l as [|x l IH]; intros s H; [reflexivity|]. cbn. rewrite H by (left; reflexivity). destruct (g s x); cbn; [|reflexivity].
  apply IH. intros. apply H. right. assumption.
Qed.

(** Closed form of [mh_calc] for any rounding. *)
Lemma mh_calc_form y v r ds : 0 <= v < r -> r <= last_pt y -> (0 < ds)%Q -> (elev_at y v < elev_at y r)%Q -> zlen y <= M ->
  let h := fl (elev_at y r - elev_at y v)%Q in
  let lu := fl (fl (inject_Z (Z.abs (r - v)) * ds) / 2)%Q in
  let slope := fl (h / fl (2 * lu))%Q in
  let l1c := Qmax (fl (fl (36#100) * lu)%Q) (fl (fl (4#10) * h)%Q) in
  let l2c := fl (4 * l1c)%Q in
  exists esc, escarpment_factor fl y r v ds = Ok esc /\ ((1#2) <= esc <= 3)%Q /\
  (0 < h)%Q /\ (0 < l1c)%Q /\ ((15#10) * h <= l2c)%Q /\
  let a := Qfloor (Qmax 0 (fl (inject_Z r - inject_Z (Qfloor (fl (l2c / ds))))%Q)) - 1 in
  let b := Qfloor (fl (Qmin (inject_Z (zlen y - 1)) (fl (inject_Z r + inject_Z (Qfloor (fl (fl (esc * l2c) / ds))))%Q) + 1)%Q) in
  -1 <= a /\ b <= zlen y /\
  exists f, (forall k, cell_value fl h l1c l2c slope esc (fl (inject_Z (r - k) * ds)%Q) = Ok (f k) /\ match f k with Some w => (1 <= w <= fl (171#100))%Q | None => True end) /\
  mh_calc fl y r v ds =
    (if Qltb slope (fl (5#100)) || Qltb h 10 || Qltb lu ds then Ok (ones (zlen y))
     else foldM (fun m k => upd m k (f k)) (range2 a b) (ones (zlen y))).
Proof.
  intros Hv Hr Hd Hh HMn h lu slope l1c l2c. destruct (escarpment_ok y v r ds Hv Hr Hd Hh) as (esc & Ee & Be). exists esc. split; [exact Ee|]. split; [exact Be|].
  assert (Lu : (0 < lu)%Q) by (apply lu_pos; [lia|exact Hd]).
  assert (H0 : (0 < h)%Q) by (apply f_pos; lra).
  assert (L1 : (0 < l1c)%Q).
  { unfold l1c. eapply Qlt_le_trans; [|apply Q.le_max_l]. apply f_pos. apply Qmult_lt_0_compat; [apply f_pos; lra|exact Lu]. }
  assert (L2 : ((15#10) * h <= l2c)%Q).
  { unfold l2c. pose proof (Q.le_max_r (fl (fl (36#100) * lu)) (fl (fl (4#10) * h))) as K. fold l1c in K.
    pose proof (f_lo (4#10) ltac:(lra)) as A1. assert (A2 : ((99#100) * (4#10) * h <= fl (4#10) * h)%Q) by (apply Qmult_le_compat_r; lra).
    pose proof (f_lo (fl (4#10) * h) ltac:(lra)) as A3. pose proof (f_lo (4 * l1c) ltac:(lra)) as A4. lra. }
  split; [exact H0|]. split; [exact L1|]. split; [exact L2|]. intros a b.
  assert (Ha : -1 <= a).
  { unfold a. assert (0 <= Qfloor (Qmax 0 (fl (inject_Z r - inject_Z (Qfloor (fl (l2c / ds))))))); [|lia]. apply Qfloor_nonneg. apply Q.le_max_l. }
  assert (Hb : b <= zlen y).
  { unfold b. assert (K : (fl (Qmin (inject_Z (zlen y - 1)) (fl (inject_Z r + inject_Z (Qfloor (fl (fl (esc * l2c) / ds))))) + 1) <= inject_Z (zlen y))%Q).
    { rewrite <- (fll_int _ _ Hfl (zlen y)) by (unfold zlen in *; lia). apply (fll_mono _ _ Hfl).
      match goal with |- (Qmin ?p ?q + 1 <= _)%Q => pose proof (Q.le_min_l p q) end.
      assert (E : (inject_Z (zlen y) == inject_Z (zlen y - 1) + 1)%Q) by (rewrite inject_Z_minus; change (inject_Z 1) with 1%Q; ring). lra. }
    apply Qfloor_resp_le in K. rewrite Qfloor_Z in K. exact K. }
  split; [exact Ha|]. split; [exact Hb|].
  exists (fun k => match cell_value fl h l1c l2c slope esc (fl (inject_Z (r - k) * ds)%Q) with Ok o => o | Err _ => None end). split.
  - intros k. destruct (cell_value_ok h l1c l2c slope esc (fl (inject_Z (r - k) * ds)%Q) H0 L1 L2 ltac:(lra)) as (o & -> & B). auto.
  - unfold mh_calc. rewrite (pyget_elev y r) by lia. cbn [bind]. rewrite (pyget_elev y v) by lia. cbn [bind]. fold h lu.
    rewrite fdiv_ok by (apply f_pos; lra). cbn [bind]. fold slope l1c l2c. rewrite Ee. cbn [bind]. rewrite fdiv_ok by exact Hd. cbn [bind].
    destruct (Qltb slope (fl (5#100)) || Qltb h 10 || Qltb lu ds); [reflexivity|]. rewrite fdiv_ok by exact Hd. cbn [bind]. fold a b.
    apply foldM_ext. intros m k _. destruct (cell_value_ok h l1c l2c slope esc (fl (inject_Z (r - k) * ds)%Q) H0 L1 L2 ltac:(lra)) as (o & -> & B). cbn [bind].
    destruct o; reflexivity.
Qed.

Lemma mh_calc_ok y v r ds : 0 <= v < r -> r <= last_pt y -> (0 < ds)%Q -> (elev_at y v < elev_at y r)%Q -> zlen y <= M ->
  exists m, mh_calc fl y r v ds = Ok m /\ zlen m = zlen y /\ forall i, 0 <= i < zlen y -> (1 <= q_at m i <= fl (171#100))%Q.
Proof.
  intros Hv Hr Hd Hh HMn. destruct (mh_calc_form y v r ds Hv Hr Hd Hh HMn) as (esc & _ & _ & _ & _ & _ & Ha & Hb & f & Hf & ->).
  assert (C1 : (1 <= fl (171#100))%Q) by (apply f_ge1; lra).
  assert (N : 0 < zlen y) by (unfold last_pt in Hr; lia).
  destruct (_ || _ || _).
  - exists (ones (zlen y)). split; [reflexivity|]. split; [apply ones_len; lia|]. intros i Hi. rewrite ones_at by exact Hi. lra.
  - match goal with |- context [range2 ?a ?b] => destruct (loop_all f a b (ones (zlen y))) as (m & E & L & A); rewrite ?ones_len by lia; try assumption end.
    exists m. split; [exact E|]. rewrite ones_len in * by lia. split; [exact L|]. intros i Hi. rewrite A by exact Hi.
    match goal with |- context [if ?c then f i else None] => destruct c end.
    + destruct (Hf i) as [_ B]. destruct (f i); [exact B|]. match goal with |- context [if ?c then f (-1) else None] => destruct c end.
      * destruct (Hf (-1)) as [_ B']. destruct (f (-1)); [exact B'|]. rewrite ones_at by exact Hi. lra.
      * rewrite ones_at by exact Hi. lra.
    + match goal with |- context [if ?c then f (-1) else None] => destruct c end.
      * destruct (Hf (-1)) as [_ B']. destruct (f (-1)); [exact B'|]. rewrite ones_at by exact Hi. lra.
      * rewrite ones_at by exact Hi. lra.
Qed.
End Fl.
