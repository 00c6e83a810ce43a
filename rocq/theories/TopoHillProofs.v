(** * Closed forms in exact arithmetic (C39, C40). *)
From Coq Require Import Qfield.
From Verif Require Import Base BaseLemmas TopoModel TopoSpec TopoLineProofs TopoMhProofs TopoCalcProofs.
Open Scope Z_scope.

Notation idq := (fun x : Q => x).

#[local] Instance Qltb_proper : Proper (Qeq ==> Qeq ==> eq) Qltb.
Proof. intros a b H c d H'. apply Qltb_comp; assumption. Qed.
#[local] Instance Qleb_proper : Proper (Qeq ==> Qeq ==> eq) Qleb.
Proof. intros a b H c d H'. unfold Qleb. rewrite H, H'. reflexivity. Qed.
#[local] Instance capped_proper : Proper (Qeq ==> Qeq) capped.
Proof. intros a b H. unfold capped. rewrite H. reflexivity. Qed.
#[local] Instance clamp_proper : Proper (Qeq ==> Qeq ==> Qeq ==> Qeq) clamp.
Proof. intros a b H c d H' e f H''. unfold clamp. rewrite H, H', H''. reflexivity. Qed.
Lemma hill_proper h h' L1 L1' L2 L2' sl sl' e e' x x' : (h == h')%Q -> (L1 == L1')%Q -> (L2 == L2')%Q -> (sl == sl')%Q -> (e == e')%Q -> (x == x')%Q ->
  (hill h L1 L2 sl e x == hill h' L1' L2' sl' e' x')%Q.
Proof.
  intros H1 H2 H3 H4 H5 H6. unfold hill.
  assert (E1 : Qleb 0 x && Qltb x L2 = Qleb 0 x' && Qltb x' L2') by (rewrite H6, H3; reflexivity).
  assert (E2 : Qltb (45#100) sl && Qltb x 0 && Qltb (- h / 4) x && Qltb (Qabs (e - 1)) (2#10) = Qltb (45#100) sl' && Qltb x' 0 && Qltb (- h' / 4) x' && Qltb (Qabs (e' - 1)) (2#10))
    by (rewrite H4, H6, H1, H5; reflexivity).
  assert (E3 : Qltb x 0 && Qltb (- (e * L2)) x = Qltb x' 0 && Qltb (- (e' * L2')) x') by (rewrite H6, H5, H3; reflexivity).
  rewrite E1, E2, E3.
  repeat match goal with |- context [if ?b then _ else _] => destruct b end; try reflexivity; rewrite ?H1, ?H2, ?H3, ?H5, ?H6; reflexivity.
Qed.

Lemma inj_pos n : 0 < n -> (0 < inject_Z n)%Q.
Proof. intros H. change 0%Q with (inject_Z 0). apply inject_Z_lt. exact H. Qed.

(** ** Escarpment factor *)
Lemma escarpment_exact y v r ds : 0 <= v < r -> r <= last_pt y -> (0 < ds)%Q -> (elev_at y v < elev_at y r)%Q ->
  exists e, escarpment_factor idq y r v ds = Ok e /\ (e == stretch y v r)%Q.
Proof.
  intros Hv Hr Hd Hh. unfold escarpment_factor. rewrite (pyget_elev y r) by lia. cbn [bind]. rewrite (pyget_elev y v) by lia. cbn [bind].
  pose proof (inj_pos (r - v) ltac:(lia)) as HD. rewrite (Z.abs_eq (r - v)) by lia.
  set (lu2 := (2 * (inject_Z (r - v) * ds / 2))%Q).
  assert (E2 : (lu2 == inject_Z (r - v) * ds)%Q) by (unfold lu2; field).
  assert (P2 : (0 < lu2)%Q) by (rewrite E2; apply Qmult_lt_0_compat; assumption).
  unfold fdiv. destruct (Qeq_bool lu2 0) eqn:Z1; [apply Qeq_bool_eq in Z1; lra|]. cbn [bind].
  destruct (Qeq_bool ds 0) eqn:Z2; [apply Qeq_bool_eq in Z2; lra|]. cbn [bind].
  assert (EF : Qfloor (inject_Z r + lu2 / ds) = r + (r - v)).
  { rewrite <- (Qfloor_Z (r + (r - v))). apply Qfloor_comp. rewrite inject_Z_plus, E2. field. lra. }
  rewrite EF. change (zlen y - 1) with (last_pt y). set (b := Z.min (last_pt y) (r + (r - v))). assert (Hb : r <= b <= last_pt y) by (unfold b; lia).
  rewrite (pyget_elev y b) by lia. cbn [bind]. unfold stretch. fold b. destruct (Z.eqb_spec b r) as [Eb|Nb].
  - rewrite Eb. replace (r - r) with 0 by lia. rewrite (proj2 (Qltb_ge 0 (inject_Z 0 * ds))) by (change (inject_Z 0) with 0%Q; lra). exists 1%Q. split; reflexivity.
  - pose proof (inj_pos (b - r) ltac:(lia)) as HB. assert (PB : (0 < inject_Z (b - r) * ds)%Q) by (apply Qmult_lt_0_compat; assumption).
    rewrite (proj2 (Qltb_lt 0 (inject_Z (b - r) * ds)) PB).
    destruct (Qeq_bool (inject_Z (b - r) * ds) 0) eqn:Z3; [apply Qeq_bool_eq in Z3; lra|]. cbn [bind].
    set (h := (elev_at y r - elev_at y v)%Q) in *. assert (P4 : (0 < h / lu2)%Q) by (apply q_div_pos; [unfold h; lra|exact P2]).
    destruct (Qeq_bool (h / lu2) 0) eqn:Z4; [apply Qeq_bool_eq in Z4; lra|]. cbn [bind].
    set (ee := ((25#10) - (15#10) * ((elev_at y r - elev_at y b) / (inject_Z (b - r) * ds)) / (h / lu2))%Q).
    set (es := ((25#10) - (15#10) * ((elev_at y r - elev_at y b) / inject_Z (b - r)) / (h / inject_Z (r - v)))%Q).
    assert (EE : (ee == es)%Q).
    { unfold ee, es. rewrite E2. assert (~ (h == 0)%Q) by (unfold h; lra). field. repeat split; lra. }
    assert (EC : (clamp (1#2) 3 es == if Qltb ee (1#2) then 1#2 else if Qltb 3 ee then 3 else ee)%Q).
    { rewrite <- EE. unfold clamp. destruct (Qltb ee (1#2)) eqn:C1.
      - apply Qltb_lt in C1. rewrite Q.min_r by lra. rewrite Q.max_l by lra. reflexivity.
      - apply Qltb_ge in C1. destruct (Qltb 3 ee) eqn:C2.
        + apply Qltb_lt in C2. rewrite Q.min_l by lra. rewrite Q.max_r by lra. reflexivity.
        + apply Qltb_ge in C2. rewrite Q.min_r by lra. rewrite Q.max_r by lra. reflexivity. }
    destruct (Qltb ee (1#2)); [|destruct (Qltb 3 ee)]; eexists; (split; [reflexivity|]); symmetry; exact EC.
Qed.

(** ** One cell *)
Lemma cell_value_exact h l1 l2 sl e x : (0 < h)%Q -> (0 < l1)%Q -> ((15#10) * h <= l2)%Q -> ((1#2) <= e)%Q ->
  exists o, cell_value idq h l1 l2 sl e x = Ok o /\
    ((match o with Some w => w | None => 1 end) == hill h l1 l2 sl e x)%Q /\
    (o = None <-> (x <= - (e * l2) \/ l2 <= x)%Q).
Proof.
  intros Hh H1 H2 He. assert (L2 : (0 < l2)%Q) by lra. assert (EL : (0 < e * l2)%Q) by (apply Qmult_lt_0_compat; lra).
  assert (EL2 : ((1#2) * ((15#10) * h) <= e * l2)%Q) by (apply Qle_trans with ((1#2) * l2)%Q; [lra|]; apply Qmult_le_compat_r; lra).
  assert (Dn : (0 < (35#10) * (10 + l1))%Q) by lra.
  assert (CP : forall v, ((if Qltb (171#100) v then 171#100 else v) == capped v)%Q).
  { intros v. unfold capped. destruct (Qltb (171#100) v) eqn:E; [apply Qltb_lt in E; rewrite Q.min_r by lra|apply Qltb_ge in E; rewrite Q.min_l by lra]; reflexivity. }
  unfold cell_value, hill, fdiv.
  destruct (Qeq_bool ((35#10) * (10 + l1)) 0) eqn:Z1; [apply Qeq_bool_eq in Z1; lra|].
  destruct (Qeq_bool l2 0) eqn:Z2; [apply Qeq_bool_eq in Z2; lra|]. destruct (Qeq_bool (e * l2) 0) eqn:Z3; [apply Qeq_bool_eq in Z3; lra|]. cbn [bind].
  assert (NE : (- e * l2 == - (e * l2))%Q) by ring.
  assert (NB : Qltb (- e * l2) x = Qltb (- (e * l2)) x) by (rewrite NE; reflexivity). rewrite NB.
  assert (H4 : (- h / 4 == - ((1#4) * h))%Q) by field.
  destruct (Qleb 0 x && Qltb x l2) eqn:B1.
  - apply andb_true_iff in B1. destruct B1 as [B1 B1']. apply Qleb_le in B1. apply Qltb_lt in B1'. eexists. split; [reflexivity|]. split; [|split; [discriminate|lra]].
    rewrite CP. rewrite Qabs_pos by lra. reflexivity.
  - assert (B1' : (x < 0 \/ l2 <= x)%Q).
    { apply andb_false_iff in B1. destruct B1 as [B1|B1]; [left; apply Qleb_gt in B1; exact B1|right; apply Qltb_ge in B1; exact B1]. }
    destruct (Qltb (45#100) sl && Qltb x 0 && Qltb (- h / 4) x && Qltb (Qabs (e - 1)) (2#10)) eqn:B2.
    + apply andb_true_iff in B2. destruct B2 as [B2 _]. apply andb_true_iff in B2. destruct B2 as [B2 B3]. apply andb_true_iff in B2. destruct B2 as [_ B2].
      apply Qltb_lt in B2, B3. eexists. split; [reflexivity|]. split; [rewrite Qabs_neg by lra; reflexivity|]. split; [discriminate|]. lra.
    + destruct (Qltb x 0 && Qltb (- (e * l2)) x) eqn:B3.
      * apply andb_true_iff in B3. destruct B3 as [B3 B4]. apply Qltb_lt in B3, B4. eexists. split; [reflexivity|]. split; [|split; [discriminate|lra]].
        rewrite CP. rewrite Qabs_neg by lra. reflexivity.
      * exists None. split; [reflexivity|]. split; [reflexivity|]. split; [|reflexivity]. intros _.
        destruct B1' as [N|G]; [|right; exact G]. apply andb_false_iff in B3. destruct B3 as [B3|B3]; apply Qltb_ge in B3; [lra|left; exact B3].
Qed.

Lemma floor_lt_Z q n : (inject_Z n <= q)%Q <-> n <= Qfloor q.
Proof.
  split; intros H.
  - apply Qfloor_resp_le in H. rewrite Qfloor_Z in H. exact H.
  - apply Qle_trans with (inject_Z (Qfloor q)); [apply inject_Z_le; exact H|apply Qfloor_le].
Qed.
Lemma floor_max0 n : Qfloor (Qmax 0 (inject_Z n)) = Z.max 0 n.
Proof.
  destruct (Z.max_spec 0 n) as [[L ->]|[L ->]].
  - rewrite <- (Qfloor_Z n) at 2. apply Qfloor_comp. apply Q.max_r. change 0%Q with (inject_Z 0). apply inject_Z_le. lia.
  - rewrite <- (Qfloor_Z 0). apply Qfloor_comp. apply Q.max_l. change 0%Q with (inject_Z 0). apply inject_Z_le. lia.
Qed.
Lemma floor_min1 a b : Qfloor (Qmin (inject_Z a) (inject_Z b) + 1) = Z.min a b + 1.
Proof.
  rewrite <- (Qfloor_Z (Z.min a b + 1)). apply Qfloor_comp. rewrite inject_Z_plus. change (inject_Z 1) with 1%Q.
  destruct (Z.min_spec a b) as [[L ->]|[L ->]]; [rewrite Q.min_l by (apply inject_Z_le; lia)|rewrite Q.min_r by (apply inject_Z_le; lia)]; reflexivity.
Qed.

(** ** One hill *)
Lemma negligible_dec y v r ds : v < r -> (0 < ds)%Q ->
  let h := (elev_at y r - elev_at y v)%Q in let lu := (inject_Z (Z.abs (r - v)) * ds / 2)%Q in
  (Qltb (h / (2 * lu)) (5#100) || Qltb h 10 || Qltb lu ds = true <-> negligible y v r ds).
Proof.
  intros Hv Hd h lu. pose proof (inj_pos (r - v) ltac:(lia)) as HD. unfold negligible. fold h. unfold lu in *. clear lu. rewrite (Z.abs_eq (r - v)) by lia.
  rewrite !orb_true_iff, !Qltb_lt. assert (E : (2 * (inject_Z (r - v) * ds / 2) == inject_Z (r - v) * ds)%Q) by field. rewrite E.
  assert (K : (inject_Z (r - v) * ds / 2 < ds)%Q <-> r - v < 2).
  { assert (E2 : (inject_Z (r - v) * ds / 2 == (inject_Z (r - v) / 2) * ds)%Q) by field. rewrite E2. split; intros H.
    - destruct (Z_lt_ge_dec (r - v) 2) as [L|G]; [exact L|]. exfalso. assert (G2 : (inject_Z 2 <= inject_Z (r - v))%Q) by (apply inject_Z_le; lia).
      assert (G3 : (1 <= inject_Z (r - v) / 2)%Q) by (apply Qle_shift_div_l; [lra|]; change (inject_Z 2) with 2%Q in G2; lra).
      assert (G4 : (1 * ds <= inject_Z (r - v) / 2 * ds)%Q) by (apply Qmult_le_compat_r; lra). lra.
    - replace (r - v) with 1 by lia. change (inject_Z 1 / 2)%Q with (1 / 2)%Q. assert (E3 : (1 / 2 * ds == (1#2) * ds)%Q) by field. lra. }
  rewrite K. tauto.
Qed.

Lemma mh_exact y v r ds : 0 <= v < r -> r <= last_pt y -> (0 < ds)%Q -> (elev_at y v < elev_at y r)%Q ->
  exists m, mh_calc idq y r v ds = Ok m /\ zlen m = zlen y /\
    (negligible y v r ds -> forall k, 0 <= k <= last_pt y -> (q_at m k == 1)%Q) /\
    (~ negligible y v r ds ->
       (forall k, 0 <= k < last_pt y -> (q_at m k == hill_at y v r ds k)%Q) /\
       ((- (stretch y v r * hill_reach y v r ds) < inject_Z (r - last_pt y) * ds)%Q -> (q_at m (last_pt y) == hill_at y v r ds (last_pt y))%Q) /\
       ((inject_Z (r - last_pt y) * ds <= - (stretch y v r * hill_reach y v r ds))%Q ->
          (q_at m (last_pt y) == if Qltb (inject_Z (r + 1) * ds) (hill_reach y v r ds) then hill_at y v r ds (-1) else 1)%Q)).
Proof.
  intros Hv Hr Hd Hh. pose proof (inj_pos (r - v) ltac:(lia)) as HD.
  destruct (mh_calc_form idq (Z.max 1 (zlen y)) (fl_line_id _) ltac:(lia) y v r ds Hv Hr Hd Hh ltac:(lia)) as (esc & Ee & Be & H0 & L1 & L2 & Ha & Hb & f & Hf & Em).
  cbv beta zeta in *.
  destruct (escarpment_exact y v r ds Hv Hr Hd Hh) as (esc' & Ee' & Es). assert (esc' = esc) by congruence. subst esc'. clear Ee Ee'.
  set (h := (elev_at y r - elev_at y v)%Q) in *. set (lu := (inject_Z (Z.abs (r - v)) * ds / 2)%Q) in *.
  set (l1 := Qmax ((36#100) * lu) ((4#10) * h)) in *. set (l2 := (4 * l1)%Q) in *.
  assert (N : 0 < zlen y) by (unfold last_pt in Hr; lia).
  assert (ER : (hill_reach y v r ds == l2)%Q) by (unfold hill_reach, l2, l1, lu; rewrite (Z.abs_eq (r - v)) by lia; reflexivity).
  assert (L2p : (0 < l2)%Q) by lra. assert (EL : (0 < esc * l2)%Q) by (apply Qmult_lt_0_compat; lra).
  (* cell values *)
  assert (Hk : forall k, ((match f k with Some w => w | None => 1 end) == hill_at y v r ds k)%Q /\
                         (f k = None <-> (inject_Z (r - k) * ds <= - (esc * l2) \/ l2 <= inject_Z (r - k) * ds)%Q)).
  { intros k. destruct (Hf k) as [Ck _]. destruct (cell_value_exact h l1 l2 (h / (2 * lu)) esc (inject_Z (r - k) * ds) H0 L1 L2 ltac:(lra)) as (o & Eo & Vo & No).
    rewrite Eo in Ck. injection Ck as <-. split; [|exact No]. rewrite Vo. unfold hill_at. fold h. apply hill_proper; try reflexivity.
    - unfold l1, lu. rewrite (Z.abs_eq (r - v)) by lia. reflexivity.
    - unfold l2, l1, lu. rewrite (Z.abs_eq (r - v)) by lia. reflexivity.
    - unfold lu. rewrite (Z.abs_eq (r - v)) by lia. assert (E : (2 * (inject_Z (r - v) * ds / 2) == inject_Z (r - v) * ds)%Q) by field. rewrite E. reflexivity.
    - exact Es. }
  pose proof (negligible_dec y v r ds ltac:(lia) Hd) as ND. cbv zeta in ND. fold h lu in ND.
  rewrite Em. clear Em. destruct (Qltb (h / (2 * lu)) (5#100) || Qltb h 10 || Qltb lu ds).
  - exists (ones (zlen y)). split; [reflexivity|]. split; [apply ones_len; lia|]. split.
    + intros _ k K. rewrite ones_at by (unfold last_pt in K; lia). reflexivity.
    + intros NN. exfalso. apply NN, ND. reflexivity.
  - set (a := Qfloor (Qmax 0 (inject_Z r - inject_Z (Qfloor (l2 / ds)))) - 1) in *.
    set (b := Qfloor (Qmin (inject_Z (zlen y - 1)) (inject_Z r + inject_Z (Qfloor (esc * l2 / ds))) + 1)) in *.
    assert (Ea : a = Z.max 0 (r - Qfloor (l2 / ds)) - 1) by (unfold a; rewrite <- inject_Z_minus; rewrite floor_max0; reflexivity).
    assert (Eb : b = Z.min (zlen y - 1) (r + Qfloor (esc * l2 / ds)) + 1) by (unfold b; rewrite <- inject_Z_plus; rewrite floor_min1; reflexivity).
    destruct (loop_all f a b (ones (zlen y))) as (m & E & Lm & A); rewrite ?ones_len by lia; try assumption; try lia.
    rewrite ones_len in * by lia. exists m. split; [exact E|]. split; [exact Lm|]. split; [intros NN; apply ND in NN; discriminate|]. intros _.
    assert (FU : forall n, n <= Qfloor (l2 / ds) <-> (inject_Z n * ds <= l2)%Q).
    { intros n. rewrite <- floor_lt_Z. split; intros K.
      - apply Qle_trans with (l2 / ds * ds)%Q; [apply Qmult_le_compat_r; lra|]. setoid_replace (l2 / ds * ds)%Q with l2 by (field; lra). lra.
      - apply Qle_shift_div_l; assumption. }
    assert (FD : forall n, n <= Qfloor (esc * l2 / ds) <-> (inject_Z n * ds <= esc * l2)%Q).
    { intros n. rewrite <- floor_lt_Z. split; intros K.
      - apply Qle_trans with (esc * l2 / ds * ds)%Q; [apply Qmult_le_compat_r; lra|]. setoid_replace (esc * l2 / ds * ds)%Q with (esc * l2)%Q by (field; lra). lra.
      - apply Qle_shift_div_l; assumption. }
    (* cells outside the loop range have no value *)
    assert (OUT : forall k, 0 <= k <= last_pt y -> (if (a <=? k) && (k <? b) then f k else None) = f k).
    { intros k K. destruct (Z.leb_spec a k), (Z.ltb_spec k b); cbn [andb]; try reflexivity; symmetry; apply (proj2 (Hk k)).
      - left. unfold last_pt in K. assert (D : ~ (k - r <= Qfloor (esc * l2 / ds))) by lia. rewrite FD in D.
        assert (E1 : (inject_Z (r - k) * ds == - (inject_Z (k - r) * ds))%Q) by (rewrite !inject_Z_minus; ring). apply Qnot_le_lt in D. lra.
      - right. assert (D : ~ (r - k <= Qfloor (l2 / ds))) by lia. rewrite FU in D. apply Qnot_le_lt in D. lra.
      - right. assert (D : ~ (r - k <= Qfloor (l2 / ds))) by lia. rewrite FU in D. apply Qnot_le_lt in D. lra. }
    split; [|split].
    + intros k K. rewrite A by (unfold last_pt in K; lia). rewrite OUT by lia. rewrite (proj2 (Z.eqb_neq k (zlen y - 1))) by (unfold last_pt in K; lia).
      rewrite andb_false_r. rewrite ones_at by (unfold last_pt in K; lia). apply Hk.
    + intros K. rewrite ER in K. rewrite <- Es in K. rewrite A by (unfold last_pt; lia). rewrite OUT by (unfold last_pt in *; lia).
      destruct (Hk (last_pt y)) as [V _]. destruct (f (last_pt y)) as [w|] eqn:Fl; [exact V|]. exfalso.
      destruct (proj1 (proj2 (Hk (last_pt y))) Fl) as [C|C]; [lra|].
      assert (S : (inject_Z (r - last_pt y) <= 0)%Q) by (change 0%Q with (inject_Z 0); apply inject_Z_le; lia).
      assert (S2 : (inject_Z (r - last_pt y) * ds <= 0 * ds)%Q) by (apply Qmult_le_compat_r; lra). lra.
    + intros K. rewrite ER in K. rewrite <- Es in K. rewrite A by (unfold last_pt; lia). rewrite OUT by (unfold last_pt in *; lia).
      rewrite (proj2 (proj2 (Hk (last_pt y))) (or_introl K)). change (zlen y - 1) with (last_pt y). rewrite Z.eqb_refl, andb_true_r.
      rewrite ones_at by (unfold last_pt; lia).
      assert (B1 : -1 < b).
      { rewrite Eb. assert (0 <= Qfloor (esc * l2 / ds)); [|unfold last_pt in *; lia]. apply FD. change (inject_Z 0) with 0%Q. lra. }
      rewrite (proj2 (Z.ltb_lt (-1) b)) by exact B1. rewrite andb_true_r.
      assert (XQ : Qltb (inject_Z (r + 1) * ds) (hill_reach y v r ds) = Qltb (inject_Z (r + 1) * ds) l2) by (rewrite ER; reflexivity). rewrite XQ.
      destruct (Hk (-1)) as [V1 N1]. replace (r - -1) with (r + 1) in N1 by lia.
      assert (P1 : (0 < inject_Z (r + 1) * ds)%Q) by (apply Qmult_lt_0_compat; [apply inj_pos; lia|exact Hd]).
      destruct (Qltb (inject_Z (r + 1) * ds) l2) eqn:W.
      * apply Qltb_lt in W. assert (A1 : a = -1). { rewrite Ea. assert (r + 1 <= Qfloor (l2 / ds)) by (apply FU; lra). lia. }
        rewrite A1. cbn [Z.eqb Pos.eqb]. exact V1.
      * apply Qltb_ge in W. rewrite (proj2 N1) by (right; exact W). destruct (a =? -1); reflexivity.
Qed.
