(** * Proofs about the rounded topographic stage (C94). *)
From Coq Require Import Qpower Qfield.
From Verif Require Import Base BaseLemmas NameModel TerrSpec Rounding FloatSpec FloatModel FloatRndProofs TopoModel TopoSpec TopoLineProofs TopoMhProofs TopoCalcProofs TopoPathProofs TopoRunProofs TopoStageProofs TopoProps.
From Verif Require Import TopoFlSpec TopoFlProofs TopoFlEndProofs TopoFlHillProofs TopoFlProps TopoRndSpec TopoRndModel.
Open Scope Q_scope.

Definition U : Q := 1 # 9007199254740992.
Definition V : Q := 1 # 16777216.
Lemma U_pos : 0 < U. Proof. reflexivity. Qed.
Lemma V_pos : 0 < V. Proof. reflexivity. Qed.
Lemma UV : 536870912 * U == V. Proof. reflexivity. Qed.

Lemma near_d x b : Qabs x <= b -> Qabs (rnd53 x - x) <= U * b.
Proof.
  intros H. pose proof (bin_near _ _ rnd53_double x) as N. eapply Qle_trans; [exact N|]. change (Qpower 2 (-(53))) with U.
  rewrite !(Qmult_comm U). apply Qmult_le_compat_r; [exact H|]. discriminate.
Qed.
Lemma near_p p fl x b : binary p fl -> (24 <= p)%Z -> Qabs x <= b -> Qabs (fl x - x) <= V * b.
Proof.
  intros B Hp H. pose proof (bin_near _ _ B x) as N. eapply Qle_trans; [exact N|].
  assert (P : Qpower 2 (- p) <= V) by (change V with (Rounding.p2 (-24)); apply p2_mono; lia).
  apply mul_le; try assumption; [|apply Qabs_nonneg]. apply Qpower_pos. lra.
Qed.
Lemma abs_le x b : - b <= x -> x <= b -> Qabs x <= b.
Proof. intros. apply Qabs_Qle_condition. split; assumption. Qed.
Lemma abs_two x b : Qabs x <= b -> - b <= x /\ x <= b.
Proof. intros H. apply Qabs_Qle_condition in H. exact H. Qed.
Lemma scale a b b' B e : Qabs a <= B -> Qabs (b - b') <= e -> Qabs (a * b - a * b') <= B * e.
Proof.
  intros H1 H2. setoid_replace (a * b - a * b') with (a * (b - b')) by ring. rewrite Qabs_Qmult. apply mul_le; try assumption; apply Qabs_nonneg.
Qed.

(** ** Removing conservatism *)
Lemma cons_err x : 1 <= x <= 2 -> Qabs (cons_fl rnd53 x - remove_conservatism x) <= 16 * U.
Proof.
  intros [H1 H2]. pose proof U_pos as UP. assert (AX : Qabs x <= 2) by (apply abs_le; lra).
  pose proof (near_d (14#10) (14#10) ltac:(vm_compute; discriminate)) as N14. apply abs_two in N14. unfold cons_fl.
  set (f14 := rnd53 (14#10)) in *. clearbody f14.
  assert (SH : Qabs (rnd53 (x * rnd53 ((125#100) - rnd53 ((25#100) * x))) - x * ((125#100) - (25#100) * x)) <= 11 * U).
  { pose proof (near_d ((25#100) * x) 1 ltac:(apply abs_le; lra)) as Na. set (a := rnd53 ((25#100) * x)) in *. clearbody a. apply abs_two in Na.
    assert (U1 : U <= 1#100) by (vm_compute; discriminate).
    pose proof (near_d ((125#100) - a) 2 ltac:(apply abs_le; lra)) as Nb. set (b := rnd53 ((125#100) - a)) in *. clearbody b. apply abs_two in Nb.
    assert (Sb : Qabs (b - ((125#100) - (25#100) * x)) <= 3 * U) by (apply abs_le; lra). pose proof (scale x _ _ 2 _ AX Sb) as S. apply abs_two in S.
    assert (Bb : Qabs b <= 2) by (apply abs_two in Sb; apply abs_le; lra).
    assert (Bx : Qabs (x * b) <= 4) by (rewrite Qabs_Qmult; setoid_replace 4 with (2 * 2) by ring; apply mul_le; try assumption; apply Qabs_nonneg).
    pose proof (near_d (x * b) 4 Bx) as Nc. apply abs_two in Nc. apply abs_le; lra. }
  assert (ST : Qabs (rnd53 (x * rnd53 (9#10)) - x * (9#10)) <= 6 * U).
  { pose proof (near_d (9#10) 1 ltac:(vm_compute; discriminate)) as Nn. set (n := rnd53 (9#10)) in *. clearbody n.
    assert (Sb : Qabs (n - (9#10)) <= U) by (apply abs_two in Nn; apply abs_le; lra). pose proof (scale x _ _ 2 _ AX Sb) as S. apply abs_two in S.
    assert (U1 : U <= 1#100) by (vm_compute; discriminate).
    assert (Bb : Qabs n <= 2) by (apply abs_two in Sb; apply abs_le; lra).
    assert (Bx : Qabs (x * n) <= 4) by (rewrite Qabs_Qmult; setoid_replace 4 with (2 * 2) by ring; apply mul_le; try assumption; apply Qabs_nonneg).
    pose proof (near_d (x * n) 4 Bx) as Nc. apply abs_two in Nc. apply abs_le; lra. }
  apply abs_two in SH, ST.
  (* the two formulas differ little near 1.4 *)
  assert (MID : Qabs (x - (14#10)) <= 2 * U -> Qabs (x * ((125#100) - (25#100) * x) - x * (9#10)) <= U).
  { intros D. assert (D' : Qabs (((125#100) - (25#100) * x) - (9#10)) <= (1#2) * U) by (apply abs_two in D; apply abs_le; lra).
    pose proof (scale x _ _ 2 _ AX D') as S. setoid_replace U with (2 * ((1#2) * U)) by ring. exact S. }
  destruct (Qltb 1 x && Qltb x f14) eqn:E1.
  - apply andb_prop in E1. destruct E1 as [_ E1]. apply Qltb_lt in E1. destruct (Qlt_le_dec x (14#10)) as [L|L].
    + rewrite cons_shallow by lra. apply abs_le; lra.
    + rewrite cons_steep by lra. specialize (MID ltac:(apply abs_le; lra)). apply abs_two in MID. apply abs_le; lra.
  - destruct (Qleb f14 x) eqn:E2.
    + apply Qleb_le in E2. destruct (Qlt_le_dec x (14#10)) as [L|L].
      * rewrite cons_shallow by lra. specialize (MID ltac:(apply abs_le; lra)). apply abs_two in MID. apply abs_le; lra.
      * rewrite cons_steep by lra. apply abs_le; lra.
    + apply andb_false_iff in E1. assert (Z : x == 1).
      { destruct E1 as [E1|E1]; [apply Qltb_ge in E1; lra|]. apply Qltb_ge in E1. exfalso. apply Qleb_le in E1. congruence. }
      rewrite cons_id by lra. apply abs_le; lra.
Qed.

Lemma cons_lip x y : Qabs (remove_conservatism x - remove_conservatism y) <= Qabs (x - y).
Proof.
  destruct (Qlt_le_dec x y) as [L|L].
  - pose proof (C42_lipschitz x y ltac:(lra)) as A. pose proof (cons_mono x y ltac:(lra)) as B. rewrite Qabs_Qminus, (Qabs_Qminus x y). rewrite !Qabs_pos by lra. exact A.
  - pose proof (C42_lipschitz y x L) as A. pose proof (cons_mono y x L) as B. rewrite !Qabs_pos by lra. exact A.
Qed.

(** ** The Tasmanian factor *)
Section Tas.
Variable p : Z.
Variable elr : Q -> Q.
Hypothesis Bp : binary p elr.
Hypothesis Hp : (24 <= p)%Z.

Lemma factor_err e : 500 < e <= 10000 -> Qabs (elr (1 + elr (elr (15#100000) * e)) - (1 + (15#100000) * e)) <= 6 * V.
Proof.
  intros [H1 H2]. pose proof V_pos as VP. assert (V1 : V <= 1#1000000) by (vm_compute; discriminate).
  pose proof (near_p p elr (15#100000) (15#100000) Bp Hp ltac:(vm_compute; discriminate)) as Nk. set (k := elr (15#100000)) in *. clearbody k.
  assert (AE : Qabs e <= 10000) by (apply abs_le; lra).
  pose proof (scale e k (15#100000) 10000 _ AE Nk) as S. apply abs_two in S.
  assert (B1 : Qabs (k * e) <= 16#10) by (apply abs_le; lra).
  pose proof (near_p p elr (k * e) _ Bp Hp B1) as Nm. set (m := elr (k * e)) in *. clearbody m. apply abs_two in Nm.
  assert (B2 : Qabs (1 + m) <= 28#10) by (apply abs_le; lra).
  pose proof (near_p p elr (1 + m) _ Bp Hp B2) as Ns. apply abs_two in Ns. apply abs_le; lra.
Qed.

Lemma tas_err x x0 e delta : 0 <= x <= 156#100 -> Qabs (x - x0) <= delta -> delta <= V * (1#1000) -> (forall h, e = Num h -> Qabs h <= 10000) ->
  Qabs (tas_fl rnd53 elr x e - x0 * tas_factor true e) <= 10 * V /\ Qabs (tas_fl rnd53 elr x e) <= 4.
Proof.
  intros [X1 X2] D Hd He. pose proof V_pos as VP. pose proof U_pos as UP. pose proof UV as E. assert (V1 : V <= 1#1000000) by (vm_compute; discriminate). pose proof (abs_two _ _ D) as D2.
  destruct e as [|h]; cbn [tas_fl tas_factor andb].
  - split; apply abs_le; lra.
  - specialize (He h eq_refl). apply abs_two in He. destruct (Qltb 500 h) eqn:E5; [|split; apply abs_le; lra]. apply Qltb_lt in E5.
    pose proof (factor_err h ltac:(lra)) as F. set (s := elr (1 + elr (elr (15#100000) * h))) in *. clearbody s.
    assert (AX : Qabs x <= 156#100) by (apply abs_le; lra).
    pose proof (scale x _ _ _ _ AX F) as S. apply abs_two in S, F.
    set (fe := 1 + (15#100000) * h) in *. assert (BF : 0 <= fe <= 25#10) by (unfold fe; lra). clearbody fe.
    assert (AF : Qabs fe <= 25#10) by (apply abs_le; lra). pose proof (scale fe _ _ _ _ AF D) as S2. apply abs_two in S2.
    assert (PX : 0 <= x * fe <= (156#100) * (25#10)).
    { split; [apply Qmult_le_0_compat; lra|]. apply mul_le; lra. }
    assert (BX : Qabs (x * s) <= 3905#1000) by (apply abs_le; lra).
    pose proof (near_d _ _ BX) as N. apply abs_two in N, BX. split; apply abs_le; lra.
Qed.
End Tas.

(** ** Means *)
Lemma total_err {A} (f g : A -> Q) l e : 0 <= e -> (forall x, In x l -> Qabs (f x - g x) <= e) ->
  Qabs (total (map f l) - total (map g l)) <= inject_Z (zlen l) * e.
Proof.
  intros He. induction l as [|x l IH]; intros H; [change (Qabs (0 - 0) <= 0 * e); apply abs_le; lra|]. cbn [map total fold_right]. fold (total (map f l)). fold (total (map g l)).
  specialize (IH (fun y Hy => H y (or_intror Hy))). specialize (H x (or_introl eq_refl)). apply abs_two in IH, H.
  replace (zlen (x :: l)) with (1 + zlen l)%Z by (unfold zlen; cbn [length]; lia). rewrite inject_Z_plus. change (inject_Z 1) with 1. apply abs_le; lra.
Qed.
Lemma filter_len {A} (f : A -> bool) l : (length (filter f l) <= length l)%nat.
Proof. induction l as [|x l IH]; [constructor|]. cbn. destruct (f x); cbn; lia. Qed.
Lemma around_most rows cols r c : (zlen (around rows cols r c) <= 9)%Z.
Proof. unfold zlen, around. pose proof (filter_len (fun p => (0 <=? fst p)%Z && (fst p <? rows)%Z && ((0 <=? snd p)%Z && (snd p <? cols)%Z)) [(r - 1, c - 1); (r - 1, c); (r - 1, c + 1); (r, c - 1); (r, c); (r, c + 1); (r + 1, c - 1); (r + 1, c); (r + 1, c + 1)]%Z) as H. cbn [length] in H. lia. Qed.
Lemma mean_err {A} (f g : A -> Q) l e : 0 <= e -> (zlen l <= 9)%Z -> (forall x, In x l -> Qabs (f x - g x) <= e) ->
  Qabs (total (map f l) / 9 - total (map g l) / 9) <= e.
Proof.
  intros He Hl H. pose proof (total_err f g l e He H) as T. apply abs_two in T.
  assert (N : inject_Z (zlen l) <= 9) by (change 9 with (inject_Z 9); rewrite <- Zle_Qle; exact Hl).
  assert (M : inject_Z (zlen l) * e <= 9 * e) by (apply Qmult_le_compat_r; assumption).
  unfold Qdiv. change (/ 9) with (1#9). apply abs_le; lra.
Qed.

(** Direct sums average within 2^-47. *)
Lemma direct_averages : averages (Qpower 2 (-47)) (conv_direct rnd53).
Proof.
  intros g b r c Hb Ein. unfold conv_direct. cbn [g_at].
  assert (b0 : 0 <= b \/ b < 0) by (destruct (Qlt_le_dec b 0); [right|left]; assumption).
  set (F := fun o : Z * Z => (r + fst o, c + snd o)%Z). set (I := fun p : Z * Z => (0 <=? fst p)%Z && (fst p <? g_rows g)%Z && ((0 <=? snd p)%Z && (snd p <? g_cols g)%Z)).
  assert (Q1 : forall o, 0 <= b -> Qabs (qget g (r + fst o)%Z (c + snd o)%Z) <= b).
  { intros o B0. unfold qget. destruct (_ && _ && (_ && _)) eqn:E; [|cbn; lra]. apply Hb. unfold inside. cbn [fst snd].
    rewrite !andb_true_iff in E. rewrite !andb_true_iff. tauto. }
  assert (G : forall l : list (Z * Z), 0 <= b -> (length l <= 9)%nat ->
    Qabs (fold_right (fun o s => rnd53 (rnd53 (qget g (r + fst o)%Z (c + snd o)%Z * rnd53 (1 / 9)) + s)) 0 l -
          total (map (fun p => g_at g (fst p) (snd p)) (filter I (map F l))) / 9) <= inject_Z (Z.of_nat (length l)) * (4 * U * b) /\
    Qabs (total (map (fun p => g_at g (fst p) (snd p)) (filter I (map F l))) / 9) <= inject_Z (Z.of_nat (length l)) * (b * (1#9))).
  { intros l B0. induction l as [|o l IH]; intros HL; [split; [change (Qabs (0 - 0) <= 0 * (4 * U * b))|change (Qabs 0 <= 0 * (b * (1#9)))]; apply abs_le; lra|]. cbn [length] in HL. destruct (IH ltac:(lia)) as [I1 I2]. clear IH.
    cbn [fold_right map filter]. set (S := fold_right _ 0 l) in *. set (T := total (map (fun p => g_at g (fst p) (snd p)) (filter I (map F l))) / 9) in *. clearbody S.
    assert (ET : total (map (fun p => g_at g (fst p) (snd p)) (if I (F o) then F o :: filter I (map F l) else filter I (map F l))) / 9 == qget g (r + fst o)%Z (c + snd o)%Z * (1#9) + T).
    { unfold T, qget. change ((0 <=? r + fst o)%Z && (r + fst o <? g_rows g)%Z && ((0 <=? c + snd o)%Z && (c + snd o <? g_cols g)%Z)) with (I (F o)).
      destruct (I (F o)); cbn [map total fold_right fst snd F]; fold (total (map (fun p => g_at g (fst p) (snd p)) (filter I (map F l)))); unfold Qdiv; change (/ 9) with (1#9); ring. }
    rewrite ET. clearbody T. clear ET.
    specialize (Q1 o B0). set (q := qget g (r + fst o)%Z (c + snd o)%Z) in *. clearbody q.
    replace (Z.of_nat (length (o :: l))) with (Z.of_nat (length l) + 1)%Z by (cbn [length]; lia). rewrite inject_Z_plus. change (inject_Z 1) with 1.
    assert (N8 : inject_Z (Z.of_nat (length l)) <= 8) by (change 8 with (inject_Z 8); rewrite <- Zle_Qle; lia).
    set (n := inject_Z (Z.of_nat (length l))) in *. clearbody n.
    pose proof U_pos as UP. assert (U1 : U <= 1#1000000) by (vm_compute; discriminate).
    assert (ub : 0 <= U * b) by (apply Qmult_le_0_compat; lra).
    assert (ub2 : U * b <= (1#1000000) * b) by (apply Qmult_le_compat_r; assumption).
    assert (M1 : n * (4 * U * b) <= 8 * (4 * U * b)) by (apply Qmult_le_compat_r; [exact N8|lra]).
    assert (M2 : n * (b * (1#9)) <= 8 * (b * (1#9))) by (apply Qmult_le_compat_r; [exact N8|lra]).
    assert (N9 : Qabs (rnd53 (1 / 9) - (1#9)) <= U * (1#8)) by (vm_compute; discriminate). set (c9 := rnd53 (1 / 9)) in *. clearbody c9.
    pose proof (scale q _ _ _ _ Q1 N9) as SC. apply abs_two in SC. apply abs_two in I1, I2. pose proof (abs_two _ _ Q1) as Q2.
    assert (Bq : Qabs (q * c9) <= (1#2) * b) by (apply abs_le; lra). pose proof (near_d _ _ Bq) as Nq. set (t := rnd53 (q * c9)) in *. clearbody t. apply abs_two in Nq, Bq.
    assert (Bs : Qabs (t + S) <= 2 * b) by (apply abs_le; lra). pose proof (near_d _ _ Bs) as Ns. apply abs_two in Ns.
    split; apply abs_le; lra. }
  destruct b0 as [b0|b0].
  - destruct (G [(-1, -1); (-1, 0); (-1, 1); (0, -1); (0, 0); (0, 1); (1, -1); (1, 0); (1, 1)]%Z b0 ltac:(cbn; lia)) as [G1 _].
    unfold F in G1 at 1. cbn [map fst snd] in G1. rewrite !Z.add_0_r in G1. eapply Qle_trans; [exact G1|]. cbn [length]. change (inject_Z (Z.of_nat 9)) with 9.
    setoid_replace (9 * (4 * U * b)) with ((36 * U) * b) by ring. apply Qmult_le_compat_r; [vm_compute; discriminate|exact b0].
  - exfalso. specialize (Hb r c Ein). pose proof (Qabs_nonneg (g_at g r c)). lra.
Qed.

(** ** Lines *)
Open Scope Z_scope.
Lemma raw_along fl M elev d ds : fl_line fl M -> 1 <= g_rows elev <= M -> 1 <= g_cols elev <= M -> (0 < ds)%Q ->
  exists a, foldM (topo_line fl (g_rows elev) (g_cols elev) d ds (flat elev)) (starts (g_rows elev) (g_cols elev) d) (ones (zlen (flat elev))) = Ok a /\
    along_lines (fun l => multiplier_calc fl l ds) elev d (unflat (g_rows elev) (g_cols elev) a) /\
    (forall r c, inside (g_rows elev) (g_cols elev) (r, c) = true -> (1 <= g_at (unflat (g_rows elev) (g_cols elev) a) r c <= fl (171#100))%Q).
Proof.
  intros Hfl Hnr Hnc Hds. destruct (raw_spec fl M Hfl elev d ds Hnr Hnc Hds) as (a & Ea & La & L & B). exists a. split; [exact Ea|]. split.
  - intros r0 c0 n W. destruct (wind_path (g_rows elev) (g_cols elev) d ltac:(lia) ltac:(lia) _ _ _ W) as [S P]. destruct (L _ S) as (m & Em & Lm & At).
    rewrite (line_of_profile elev d r0 c0 n ltac:(lia) ltac:(lia) W) in Em, Lm. exists m. split; [exact Em|]. intros t Ht.
    pose proof (At (Z.to_nat t) (idx (g_rows elev) (fst (down_cell d t r0 c0)) (snd (down_cell d t r0 c0)))) as K. unfold q_at, idx in K. unfold unflat. cbn [g_at].
    unfold idx in P. apply K. rewrite P. rewrite nth_error_map. rewrite (zrange_nth_error n t) by exact Ht. reflexivity.
  - intros r c I. apply inside_ins in I. destruct I as [I1 I2]. unfold unflat. cbn [g_at]. apply (B (c * g_rows elev + r)). nia.
Qed.

Lemma profile_moderate elev d r0 c0 n : on_earth elev -> wind_line (g_rows elev) (g_cols elev) d r0 c0 n -> moderate (line_profile elev d r0 c0 n).
Proof.
  intros O (_ & _ & _ & A & _) x I. unfold line_profile in I. apply in_map_iff in I. destruct I as (t & <- & I). apply in_zrange in I. specialize (A t I).
  destruct (down_cell d t r0 c0) as [r c] eqn:E. cbn [fst snd]. specialize (O r c). unfold or_sea. destruct (g_at elev r c) as [|h].
  - vm_compute. discriminate.
  - eapply Qle_trans; [apply (O h A eq_refl)|]. vm_compute. discriminate.
Qed.

Lemma profile_short elev d r0 c0 n M : 1 <= g_rows elev <= M -> 1 <= g_cols elev <= M -> wind_line (g_rows elev) (g_cols elev) d r0 c0 n -> zlen (line_profile elev d r0 c0 n) <= M.
Proof.
  intros Hnr Hnc W. destruct (wind_path (g_rows elev) (g_cols elev) d ltac:(lia) ltac:(lia) _ _ _ W) as [S P].
  destruct (start_path M elev d Hnr Hnc _ S) as (_ & _ & L). rewrite <- (line_of_profile elev d r0 c0 n ltac:(lia) ltac:(lia) W). unfold zlen, line_of in *. rewrite map_length. apply L.
Qed.

(** Raw multipliers of cells off the limits. *)
Lemma raw_near elev d ds raw raw0 r c : on_earth elev -> 1 <= g_rows elev <= 2 ^ 50 -> 1 <= g_cols elev <= 2 ^ 50 -> (0 < ds)%Q -> (rnd53 ds == ds)%Q ->
  along_lines (fun l => multiplier_calc rnd53 l ds) elev d raw -> along_lines (fun l => multiplier_calc (fun x => x) l ds) elev d raw0 ->
  inside (g_rows elev) (g_cols elev) (r, c) = true -> clear_cell elev d ds r c -> (Qabs (g_at raw r c - g_at raw0 r c) <= 256 * U)%Q.
Proof.
  intros O Hnr Hnc Hd Hds A A0 I C. destruct (cell_on_line (g_rows elev) (g_cols elev) d ltac:(lia) ltac:(lia) r c I) as (r0 & c0 & n & t & W & Ht & E).
  destruct (C r0 c0 n t W Ht E) as [Ht' Off]. destruct (A _ _ _ W) as (m & Em & At). destruct (A0 _ _ _ W) as (m0 & Em0 & At0). specialize (At t Ht). specialize (At0 t Ht).
  rewrite E in At, At0. cbn [fst snd] in At, At0. rewrite At, At0.
  destruct (C93_line (line_profile elev d r0 c0 n) ds (profile_moderate elev d r0 c0 n O W) (profile_short elev d r0 c0 n _ Hnr Hnc W) Hd Hds) as (x & x0 & Ex & Ex0 & _ & N).
  assert (x = m) by congruence. assert (x0 = m0) by congruence. subst x x0. assert (E5 : (256 * U == Qpower 2 (-45))%Q) by reflexivity. rewrite E5.
  assert (LN : zlen (line_profile elev d r0 c0 n) = n) by (apply profile_len; lia). apply N; [unfold last_pt; lia|exact Off].
Qed.

(** ** The stage *)
Lemma spacing_eq fl s c d : spacing fl s c d = neighbour_dist c (fl (c * s)%Q) d.
Proof. destruct d; reflexivity. Qed.

Section St.
Variables (p : Z) (elr sgl : Q -> Q) (conv : grid Q -> grid Q) (eta sqrt2 cellsize x_left y_upper : Q) (elev : grid num) (d : dir).
Hypothesis Bp : binary p elr.
Hypothesis Hp : 24 <= p.
Hypothesis Av : averages eta conv.
Hypothesis He : (0 <= eta <= Qpower 2 (-40))%Q.
Hypothesis Hs : (0 < sqrt2)%Q.
Hypothesis Hc : (0 < cellsize)%Q.
Hypothesis Hcd : (rnd53 cellsize == cellsize)%Q.
Hypothesis Hnr : 1 <= g_rows elev <= 2 ^ 50.
Hypothesis Hnc : 1 <= g_cols elev <= 2 ^ 50.
Hypothesis O : on_earth elev.
Notation ds := (neighbour_dist cellsize (rnd53 (cellsize * sqrt2)%Q) d).
Notation field raw q := (remove_conservatism (g_at raw (fst q) (snd q)) * tas_factor (Qltb 143 x_left && Qltb 40 y_upper) (g_at elev (fst q) (snd q)))%Q.

Lemma ds_pos : (0 < ds)%Q.
Proof. assert (K : (0 < rnd53 (cellsize * sqrt2))%Q) by (apply (f_pos rnd53 _ line_53); apply Qmult_lt_0_compat; assumption). destruct d; assumption. Qed.
Lemma ds_double : (rnd53 ds == ds)%Q.
Proof.
  assert (K : forall x, (rnd53 (rnd53 x) == rnd53 x)%Q).
  { intros x. destruct (bin_format _ _ rnd53_double x) as (k & e & Hk & E). rewrite (bin_proper _ _ rnd53_double _ _ E), (bin_exact _ _ rnd53_double k e Hk). symmetry. exact E. }
  destruct d; cbn; try exact Hcd; apply K.
Qed.

(** Smoothed field, before the cast. *)
Lemma stage_fl : exists raw raw0 o, along_lines (fun l => multiplier_calc (fun x => x) l ds) elev d raw0 /\
  along_lines (fun l => multiplier_calc rnd53 l ds) elev d raw /\
  topo_dir_fl rnd53 elr sgl conv sqrt2 cellsize x_left y_upper elev d = Ok o /\
  g_rows o = g_rows elev /\ g_cols o = g_cols elev /\
  (forall r c, g_at elev r c = NaN -> g_at o r c = NaN) /\
  (forall r c h, inside (g_rows elev) (g_cols elev) (r, c) = true -> g_at elev r c = Num h -> exists z, g_at o r c = Num (sgl z) /\
    (forall q, In q (around (g_rows elev) (g_cols elev) r c) -> (1 <= g_at raw (fst q) (snd q) <= 1711#1000)%Q /\ (1 <= g_at raw0 (fst q) (snd q) <= 1711#1000)%Q) /\
    (Qltb 143 x_left && Qltb 40 y_upper = false -> (Qabs (z - total (map (fun q => remove_conservatism (g_at raw (fst q) (snd q))) (around (g_rows elev) (g_cols elev) r c)) / 9) <= 16 * U + eta * 2)%Q) /\
    ((forall q, In q (around (g_rows elev) (g_cols elev) r c) -> clear_cell elev d ds (fst q) (snd q)) ->
       (Qabs (z - total (map (fun q => field raw0 q) (around (g_rows elev) (g_cols elev) r c)) / 9) <= 10 * V + eta * 4)%Q /\
       (Qltb 143 x_left && Qltb 40 y_upper = false -> (Qabs (z - total (map (fun q => field raw0 q) (around (g_rows elev) (g_cols elev) r c)) / 9) <= 272 * U + eta * 2)%Q))).
Proof.
  assert (H53 : 2 ^ 50 <= 2 ^ 53) by (apply Z.pow_le_mono_r; lia).
  destruct (raw_along rnd53 (2 ^ 53) elev d ds line_53 ltac:(lia) ltac:(lia) ds_pos) as (a & Ea & A & B).
  destruct (raw_along (fun x => x) (2 ^ 53) elev d ds (fl_line_id _) ltac:(lia) ltac:(lia) ds_pos) as (a0 & _ & A0 & B0).
  set (nr := g_rows elev) in *. set (nc := g_cols elev) in *.
  exists (unflat nr nc a), (unflat nr nc a0). unfold topo_dir_fl. fold nr nc. change (match d with NE | NW | SE | SW => _ | _ => _ end) with ds. rewrite Ea. cbn [bind].
  eexists. split; [exact A0|]. split; [exact A|]. split; [reflexivity|]. cbn [g_rows g_cols g_at]. do 2 (split; [reflexivity|]). split; [intros r c ->; reflexivity|].
  intros r c h I Eh. rewrite Eh. eexists. split; [reflexivity|].
  set (raw := unflat nr nc a) in *. set (raw0 := unflat nr nc a0) in *.
  assert (R171 : (rnd53 (171#100) <= 1711#1000)%Q) by (vm_compute; discriminate).
  assert (IN : forall q, In q (around nr nc r c) -> inside nr nc (fst q, snd q) = true) by (intros q Hq; apply in_around in Hq; apply inside_ins; exact Hq).
  assert (BR : forall i j, inside nr nc (i, j) = true -> (1 <= g_at raw i j <= 1711#1000)%Q) by (intros i j Hij; specialize (B i j Hij); lra).
  assert (BR0 : forall i j, inside nr nc (i, j) = true -> (1 <= g_at raw0 i j <= 1711#1000)%Q) by (intros i j Hij; specialize (B0 i j Hij); lra).
  pose proof U_pos as UP. pose proof V_pos as VP. pose proof UV as EUV.
  assert (U1 : (U <= 1#1000000)%Q) by (vm_compute; discriminate).
  assert (CB : forall i j, inside nr nc (i, j) = true -> (Qabs (cons_fl rnd53 (g_at raw i j) - remove_conservatism (g_at raw i j)) <= 16 * U)%Q /\ (0 <= cons_fl rnd53 (g_at raw i j) <= 156#100)%Q).
  { intros i j Hij. specialize (BR i j Hij). pose proof (cons_err (g_at raw i j) ltac:(lra)) as K. split; [exact K|]. apply abs_two in K.
    pose proof (cons_mono 1 _ (proj1 BR)) as M1. pose proof (cons_mono _ _ (proj2 BR)) as M2.
    assert (E1 : (remove_conservatism 1 == 1)%Q) by reflexivity. assert (E2 : (remove_conservatism (1711#1000) == 15399#10000)%Q) by reflexivity. rewrite E1 in M1. rewrite E2 in M2. lra. }
  split; [intros q Hq; split; [apply BR|apply BR0]; apply IN; exact Hq|]. unfold in_tasmania. split.
  - intros Box. rewrite Box. set (mh := gmap (cons_fl rnd53) raw).
    assert (Bmh : forall i j, inside (g_rows mh) (g_cols mh) (i, j) = true -> (Qabs (g_at mh i j) <= 2)%Q).
    { intros i j Hij. destruct (CB i j Hij) as [_ K]. unfold mh. cbn [gmap g_at]. apply abs_le; lra. }
    pose proof (Av mh 2%Q r c Bmh I) as K. apply abs_two in K. change (g_rows mh) with nr in K. change (g_cols mh) with nc in K.
    pose proof (mean_err (fun q => g_at mh (fst q) (snd q)) (fun q => remove_conservatism (g_at raw (fst q) (snd q))) (around nr nc r c) (16 * U)%Q ltac:(lra) (around_most nr nc r c)) as ME.
    specialize (ME (fun q Hq => proj1 (CB _ _ (IN q Hq)))). apply abs_two in ME. apply abs_le; lra.
  - intros Cl.
    assert (CE : forall q, In q (around nr nc r c) -> (Qabs (cons_fl rnd53 (g_at raw (fst q) (snd q)) - remove_conservatism (g_at raw0 (fst q) (snd q))) <= 272 * U)%Q).
    { intros q Hq. specialize (IN q Hq). pose proof (raw_near elev d ds raw raw0 _ _ O Hnr Hnc ds_pos ds_double A A0 IN (Cl q Hq)) as N.
      pose proof (cons_lip (g_at raw (fst q) (snd q)) (g_at raw0 (fst q) (snd q))) as Lp. destruct (CB _ _ IN) as [K _].
      assert (Lp2 : (Qabs (remove_conservatism (g_at raw (fst q) (snd q)) - remove_conservatism (g_at raw0 (fst q) (snd q))) <= 256 * U)%Q) by lra.
      apply abs_two in Lp2, K. apply abs_le; lra. }
    assert (BoxF : Qltb 143 x_left && Qltb 40 y_upper = false -> (Qabs (g_at (conv (if Qltb 143 x_left && Qltb 40 y_upper then Grid nr nc (fun r0 c0 => tas_fl rnd53 elr (g_at (gmap (cons_fl rnd53) raw) r0 c0) (g_at elev r0 c0)) else gmap (cons_fl rnd53) raw)) r c
        - total (map (fun q => field raw0 q) (around nr nc r c)) / 9) <= 272 * U + eta * 2)%Q).
    { intros Box. rewrite Box. set (mh := gmap (cons_fl rnd53) raw).
      assert (Bmh : forall i j, inside (g_rows mh) (g_cols mh) (i, j) = true -> (Qabs (g_at mh i j) <= 2)%Q).
      { intros i j Hij. destruct (CB i j Hij) as [_ K]. unfold mh. cbn [gmap g_at]. apply abs_le; lra. }
      pose proof (Av mh 2%Q r c Bmh I) as K. apply abs_two in K. change (g_rows mh) with nr in K. change (g_cols mh) with nc in K.
      pose proof (mean_err (fun q => g_at mh (fst q) (snd q)) (fun q => (remove_conservatism (g_at raw0 (fst q) (snd q)) * tas_factor false (g_at elev (fst q) (snd q)))%Q) (around nr nc r c) (272 * U)%Q ltac:(lra) (around_most nr nc r c)) as ME.
      assert (T1 : forall e, tas_factor false e = 1%Q) by (intros [|e]; reflexivity).
      assert (ME' := ME). clear ME. cbv beta in ME'.
      assert (HX : forall x, In x (around nr nc r c) -> (Qabs (g_at mh (fst x) (snd x) - remove_conservatism (g_at raw0 (fst x) (snd x)) * tas_factor false (g_at elev (fst x) (snd x))) <= 272 * U)%Q).
      { intros q Hq. rewrite T1. specialize (CE q Hq). apply abs_two in CE. unfold mh. cbn [gmap g_at]. apply abs_le; lra. }
      specialize (ME' HX). apply abs_two in ME'. apply abs_le; lra. }
    split; [|exact BoxF]. destruct (Qltb 143 x_left && Qltb 40 y_upper) eqn:Box.
    + set (mh := Grid nr nc (fun r0 c0 => tas_fl rnd53 elr (g_at (gmap (cons_fl rnd53) raw) r0 c0) (g_at elev r0 c0))).
      assert (TE : forall i j x0, inside nr nc (i, j) = true -> (Qabs (cons_fl rnd53 (g_at raw i j) - x0) <= 272 * U)%Q ->
        (Qabs (g_at mh i j - x0 * tas_factor true (g_at elev i j)) <= 10 * V)%Q /\ (Qabs (g_at mh i j) <= 4)%Q).
      { intros i j x0 Hij Hx. destruct (CB i j Hij) as [_ K]. apply (tas_err p elr Bp Hp _ _ _ (272 * U)%Q K Hx); [lra|]. intros hh Eq. apply (O i j hh Hij Eq). }
      assert (Bmh : forall i j, inside (g_rows mh) (g_cols mh) (i, j) = true -> (Qabs (g_at mh i j) <= 4)%Q).
      { intros i j Hij. apply (TE i j (cons_fl rnd53 (g_at raw i j)) Hij). apply abs_le; lra. }
      pose proof (Av mh 4%Q r c Bmh I) as K. apply abs_two in K. change (g_rows mh) with nr in K. change (g_cols mh) with nc in K.
      pose proof (mean_err (fun q => g_at mh (fst q) (snd q)) (fun q => (remove_conservatism (g_at raw0 (fst q) (snd q)) * tas_factor true (g_at elev (fst q) (snd q)))%Q) (around nr nc r c) (10 * V)%Q ltac:(lra) (around_most nr nc r c)) as ME.
      specialize (ME (fun q Hq => proj1 (TE _ _ _ (IN q Hq) (CE q Hq)))). apply abs_two in ME. apply abs_le; lra.
    + specialize (BoxF eq_refl). apply abs_two in BoxF. apply abs_le; lra.
Qed.
End St.
