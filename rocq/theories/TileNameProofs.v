From Verif Require Import Base BaseLemmas TileModel TileSpec TileProofs ClipModel ClipProofs PyStr NameModel NameSpec NameProofs.
From Coq Require Import ZifyBool ZifyNat Qfield.
Open Scope Z_scope.

Lemma fixed_no_s s d c : fixed_notation s d -> is_digit c = false -> c <> dot -> c <> "-"%char -> ~ In c s.
Proof.
  intros (sg & D & F & -> & HD & HF & _ & _ & _ & Hs) Hc Hd Hm C.
  rewrite !in_app_iff in C.
  assert (N : forall D, forallb is_digit D = true -> ~ In c D).
  { intros D0 H0 C0. rewrite forallb_forall in H0. apply H0 in C0. congruence. }
  destruct C as [C|[C|[[C|[]]|C]]].
  - destruct Hs as [[-> _]|[-> _]]; simpl in C; [contradiction|]. destruct C as [C|[]]. congruence.
  - exact (N D HD C).
  - congruence.
  - exact (N F HF C).
Qed.

Lemma notin_take c n s : ~ In c s -> ~ In c (take n s).
Proof.
  intros H C. apply H. unfold take in C. rewrite <- (firstn_skipn n s). apply in_app_iff. left. exact C.
Qed.

Lemma printed show B b q : prints_floats show -> printable B q -> (B + 1 <= b)%Q -> (B <= 1000000)%Q ->
  exists d, fixed_notation (show q) d /\ (Qabs (d - q) <= 1 # 1000000)%Q /\ (Qabs d < b)%Q.
Proof.
  intros P [Z Hb] Hbb HB.
  destruct (P q) as (d & Hd & E).
  - destruct Z as [Z|Z]; [left; exact Z|right; split; [exact Z|lra]].
  - exists d. split; [exact Hd|].
    assert (E2 : (Qabs (d - q) <= 1 # 1000000)%Q).
    { rewrite u53_val in E. pose proof (Qabs_nonneg q). lra. }
    split; [exact E2|].
    pose proof (Qabs_triangle q (d - q)) as T.
    setoid_replace (q + (d - q))%Q with d in T by ring. lra.
Qed.

Lemma take_close show B n q q' : prints_floats show -> printable B q -> printable B q' ->
  (B + 1 <= inject_Z (10 ^ (Z.of_nat n - 3)))%Q -> (B <= 1000000)%Q -> (4 <= n)%nat ->
  take n (show q) = take n (show q') -> (Qabs (q - q') <= 1 # 5)%Q.
Proof.
  intros P H H' HB HB2 Hn E.
  destruct (printed show B _ q P H HB HB2) as (d & F & E1 & B1).
  destruct (printed show B _ q' P H' HB HB2) as (d' & F' & E1' & B1').
  pose proof (prefix_close _ _ _ _ n F F' B1 B1' Hn E) as C.
  apply Qabs_le_iff in C. apply Qabs_le_iff in E1. apply Qabs_le_iff in E1'. apply Qabs_le_iff.
  destruct C, E1, E1'. split; lra.
Qed.

Lemma lim1_start_sep i i' step buf dim :
  0 < dim -> 0 < step -> 0 <= buf -> 0 <= i < blocks dim step -> 0 <= i' < blocks dim step ->
  (buf < step \/ blocks dim step <= 1) -> i < i' ->
  fst (lim1 i step buf dim) + step <= fst (lim1 i' step buf dim).
Proof.
  intros Hd Hs Hb Hi Hi' Hc Hl.
  rewrite (proj1 (lim1_cases i step buf dim Hd Hs Hb Hi)), (proj1 (lim1_cases i' step buf dim Hd Hs Hb Hi')).
  assert (buf < step) by lia.
  assert (i * step + step <= i' * step) by nia.
  assert (0 <= i * step) by nia.
  destruct (i * step - buf <=? 0) eqn:E1; destruct (i' * step - buf <=? 0) eqn:E2; lia.
Qed.

Section sep.
  Variable fl : Q -> Q.
  Hypothesis FL : fl_ok fl.

  Lemma coord_sep x0 p n m N step : (0 < p)%Q -> 0 <= n -> n + step <= m -> m <= N -> 0 < step ->
    (Qabs x0 + inject_Z N * p <= 1099511627776 * p)%Q ->
    ((1 - u53) / p <= inject_Z step)%Q ->
    ((1 # 2) <= fl (x0 + fl (inject_Z m * p)) - fl (x0 + fl (inject_Z n * p)))%Q.
  Proof.
    intros Hp Hn Hm HN Hs HB HS.
    pose proof (edge_diff fl x0 p m n N FL Hp ltac:(lia) ltac:(lia) HB) as E.
    apply Qabs_le_iff in E. destruct E as [E _].
    assert (S1 : (inject_Z step * p <= inject_Z (m - n) * p)%Q).
    { apply Qmult_le_compat_r; [apply inject_Z_le; lia|lra]. }
    assert (S2 : (p <= inject_Z step * p)%Q).
    { setoid_replace p with (1 * p)%Q at 1 by ring. apply Qmult_le_compat_r; [apply (inject_Z_le 1); lia|lra]. }
    assert (S3 : (1 - u53 <= inject_Z step * p)%Q).
    { setoid_replace (1 - u53)%Q with ((1 - u53) / p * p)%Q by (field; lra).
      apply Qmult_le_compat_r; lra. }
    rewrite u53_val in S3.
    assert (P1 : (p / 1024 == (1#1024) * p)%Q) by field. rewrite P1 in E.
    lra.
  Qed.
End sep.

Section C07.
  Variables (fl : Q -> Q) (show : Q -> str) (upwind : Q) (ds : raster) (tg : tilegrid).
  Hypothesis FL : fl_ok fl.
  Hypothesis GR : good_raster upwind ds.
  Hypothesis MK : mk_tilegrid fl upwind ds = Ok tg.

  Lemma startcord_eq k : 0 <= k < num_tiles tg ->
    get_startcord fl tg k = Ok
      (fl (gt0 ds + fl (inject_Z (fst (lim1 (k / subset_maxrows tg) (x_step tg) (x_buffer tg) (x_dim tg))) * gt1 ds))%Q,
       fl (- gt3 ds + fl (inject_Z (fst (lim1 (k mod subset_maxrows tg) (y_step tg) (y_buffer tg) (y_dim tg))) * - gt5 ds))%Q).
  Proof.
    intros Hk. unfold get_startcord. rewrite (get_gridlimit_eq fl upwind ds tg k FL GR MK Hk).
    cbn [bind].
    destruct (mk_tilegrid_inv fl upwind ds tg FL GR MK) as (_ & _ & -> & -> & -> & -> & _). reflexivity.
  Qed.

  Lemma tilename_eq k x y : get_startcord fl tg k = Ok (x, y) ->
    get_tilename fl show tg k = Ok (lit "e" ++ take 8 (show x) ++ lit "s" ++ take 7 (show y)).
  Proof. intros E. unfold get_tilename. rewrite E. reflexivity. Qed.

  Hypothesis SHOW : prints_floats show.
  Hypothesis CP : coords_printable fl tg.

  Lemma names_coords k k' x y x' y' n : 0 <= k < num_tiles tg -> 0 <= k' < num_tiles tg ->
    get_startcord fl tg k = Ok (x, y) -> get_startcord fl tg k' = Ok (x', y') ->
    get_tilename fl show tg k = Ok n -> get_tilename fl show tg k' = Ok n ->
    (Qabs (x - x') <= 1 # 5 /\ Qabs (y - y') <= 1 # 5)%Q.
  Proof.
    intros Hk Hk' E E' N N'.
    rewrite (tilename_eq k x y E) in N. rewrite (tilename_eq k' x' y' E') in N'.
    destruct (CP k x y Hk E) as [P1 P2]. destruct (CP k' x' y' Hk' E') as [P1' P2'].
    assert (EQ : lit "e" ++ take 8 (show x) ++ lit "s" ++ take 7 (show y) = lit "e" ++ take 8 (show x') ++ lit "s" ++ take 7 (show y')) by congruence.
    apply app_inv_head in EQ. change (lit "s") with ["s"%char] in EQ. cbn [app] in EQ.
    assert (NS : forall x, printable 99999 x -> ~ In "s"%char (take 8 (show x))).
    { intros x0 H0. destruct (printed show 99999 100000 x0 SHOW H0 ltac:(lra) ltac:(lra)) as (d & F & _).
      apply notin_take. eapply fixed_no_s; [exact F|reflexivity|discriminate|discriminate]. }
    apply split_unique in EQ; [|apply NS; assumption|apply NS; assumption].
    destruct EQ as [EQ1 EQ2]. split.
    - refine (take_close show 99999 8 x x' SHOW P1 P1' _ _ _ EQ1); [|lra|lia].
      change (10 ^ (Z.of_nat 8 - 3)) with 100000. unfold inject_Z. lra.
    - refine (take_close show 9999 7 y y' SHOW P2 P2' _ _ _ EQ2); [|lra|lia].
      change (10 ^ (Z.of_nat 7 - 3)) with 10000. unfold inject_Z. lra.
  Qed.

  Hypothesis CO : coords_ok ds.

  Lemma names_distinct_iff :
    names_distinct fl show tg <->
    (x_buffer tg < x_step tg \/ subset_maxcols tg = 1) /\ (y_buffer tg < y_step tg \/ subset_maxrows tg = 1).
  Proof.
    destruct (mk_tilegrid_inv fl upwind ds tg FL GR MK) as
      (XD & YD & XL & YU & PW & PH & XS & YS & XB & YB & XS0 & YS0 & XB0 & YB0 & MC & MR & NT & _).
    pose proof (tile_sizes fl upwind ds tg FL GR MK) as (_ & (SX & _) & (SY & _) & _).
    pose proof GR as (GX & GY & G1 & G5 & GU).
    destruct (blocks_spec (r_xsize ds) (x_step tg) ltac:(lia) XS0) as [BX _].
    destruct (blocks_spec (r_ysize ds) (y_step tg) ltac:(lia) YS0) as [BY _].
    split.
    - intros D. split.
      + destruct (Z_lt_le_dec (x_buffer tg) (x_step tg)) as [|L]; [left; assumption|right].
        destruct (Z.eq_dec (subset_maxcols tg) 1) as [|Ne]; [assumption|exfalso].
        assert (K0 : 0 <= 0 < num_tiles tg) by nia.
        assert (K1 : 0 <= subset_maxrows tg < num_tiles tg) by nia.
        pose proof (startcord_eq 0 K0) as E0. pose proof (startcord_eq _ K1) as E1.
        rewrite Z.div_0_l, Z.mod_0_l in E0 by lia. rewrite Z.div_same, Z.mod_same in E1 by lia.
        rewrite (proj1 (lim1_cases 0 (x_step tg) (x_buffer tg) (x_dim tg) ltac:(lia) XS0 XB0 ltac:(rewrite XD; lia))) in E0.
        rewrite (proj1 (lim1_cases 1 (x_step tg) (x_buffer tg) (x_dim tg) ltac:(lia) XS0 XB0 ltac:(rewrite XD; lia))) in E1.
        replace (0 * x_step tg - x_buffer tg <=? 0) with true in E0 by lia.
        replace (1 * x_step tg - x_buffer tg <=? 0) with true in E1 by lia.
        pose proof (D 0 (subset_maxrows tg) _ _ K0 K1 (tilename_eq _ _ _ E0) (tilename_eq _ _ _ E1) eq_refl). lia.
      + destruct (Z_lt_le_dec (y_buffer tg) (y_step tg)) as [|L]; [left; assumption|right].
        destruct (Z.eq_dec (subset_maxrows tg) 1) as [|Ne]; [assumption|exfalso].
        assert (K0 : 0 <= 0 < num_tiles tg) by nia.
        assert (K1 : 0 <= 1 < num_tiles tg) by nia.
        pose proof (startcord_eq 0 K0) as E0. pose proof (startcord_eq _ K1) as E1.
        rewrite Z.div_0_l, Z.mod_0_l in E0 by lia.
        rewrite (Z.div_small 1), (Z.mod_small 1) in E1 by lia.
        rewrite (proj1 (lim1_cases 0 (y_step tg) (y_buffer tg) (y_dim tg) ltac:(lia) YS0 YB0 ltac:(rewrite YD; lia))) in E0.
        rewrite (proj1 (lim1_cases 1 (y_step tg) (y_buffer tg) (y_dim tg) ltac:(lia) YS0 YB0 ltac:(rewrite YD; lia))) in E1.
        replace (0 * y_step tg - y_buffer tg <=? 0) with true in E0 by lia.
        replace (1 * y_step tg - y_buffer tg <=? 0) with true in E1 by lia.
        pose proof (D 0 1 _ _ K0 K1 (tilename_eq _ _ _ E0) (tilename_eq _ _ _ E1) eq_refl). lia.
    - intros [HX HY].
      assert (W : forall k k' n, 0 <= k < num_tiles tg -> 0 <= k' < num_tiles tg ->
        get_tilename fl show tg k = Ok n -> get_tilename fl show tg k' = Ok n ->
        ~ (k / subset_maxrows tg < k' / subset_maxrows tg) /\ ~ (k mod subset_maxrows tg < k' mod subset_maxrows tg)).
      { intros k k' n Hk Hk' N N'.
        pose proof (startcord_eq k Hk) as E. pose proof (startcord_eq k' Hk') as E'.
        destruct (names_coords k k' _ _ _ _ n Hk Hk' E E' N N') as [C1 C2].
        destruct (tile_index_range fl upwind ds tg k FL GR MK Hk) as (_ & R1 & R2).
        destruct (tile_index_range fl upwind ds tg k' FL GR MK Hk') as (_ & R1' & R2').
        rewrite <- XD in R1, R1'. rewrite <- YD in R2, R2'.
        split; intros L.
        - pose proof (lim1_start_sep _ _ (x_step tg) (x_buffer tg) (x_dim tg) ltac:(lia) XS0 XB0 R1 R1'
            ltac:(destruct HX; [left; lia|right; rewrite XD; lia]) L) as S.
          pose proof (lim1_in_dim _ (x_step tg) (x_buffer tg) (x_dim tg) ltac:(lia) XS0 XB0 R1) as I1.
          pose proof (lim1_in_dim _ (x_step tg) (x_buffer tg) (x_dim tg) ltac:(lia) XS0 XB0 R1') as I2.
          assert (T := coord_sep fl FL (gt0 ds) (gt1 ds) _ _ (r_xsize ds) (x_step tg) G1 (proj1 (proj1 I1)) S
             ltac:(rewrite XD in I2 |- *; lia) XS0 (proj1 CO) SX).
          apply Qabs_le_iff in C1. lra.
        - pose proof (lim1_start_sep _ _ (y_step tg) (y_buffer tg) (y_dim tg) ltac:(lia) YS0 YB0 R2 R2'
            ltac:(destruct HY; [left; lia|right; rewrite YD; lia]) L) as S.
          pose proof (lim1_in_dim _ (y_step tg) (y_buffer tg) (y_dim tg) ltac:(lia) YS0 YB0 R2) as I1.
          pose proof (lim1_in_dim _ (y_step tg) (y_buffer tg) (y_dim tg) ltac:(lia) YS0 YB0 R2') as I2.
          assert (P5 : (0 < - gt5 ds)%Q) by lra.
          assert (T := coord_sep fl FL (- gt3 ds) (- gt5 ds) _ _ (r_ysize ds) (y_step tg) P5 (proj1 (proj1 I1)) S
             ltac:(rewrite YD in I2 |- *; lia) YS0 (y_bound ds CO) SY).
          apply Qabs_le_iff in C2. lra. }
      intros k k' n n' Hk Hk' N N' En. subst n'.
      destruct (W k k' n Hk Hk' N N') as [W1 W2]. destruct (W k' k n Hk' Hk N' N) as [W3 W4].
      assert (k / subset_maxrows tg = k' / subset_maxrows tg) by lia.
      assert (k mod subset_maxrows tg = k' mod subset_maxrows tg) by lia.
      rewrite (Z.div_mod k (subset_maxrows tg)), (Z.div_mod k' (subset_maxrows tg)) by lia. congruence.
  Qed.

  (** Names never contain '/' or '_' and start with 'e'. *)
  Lemma tilename_good k : 0 <= k < num_tiles tg ->
    exists n, get_tilename fl show tg k = Ok n /\ good_tile n.
  Proof.
    intros Hk. destruct (get_startcord fl tg k) as [[x y]|e] eqn:E.
    2:{ rewrite (startcord_eq k Hk) in E. discriminate. }
    exists (lit "e" ++ take 8 (show x) ++ lit "s" ++ take 7 (show y)).
    split; [apply tilename_eq; assumption|].
    destruct (CP k x y Hk E) as [P1 P2].
    destruct (printed show 99999 100000 x SHOW P1 ltac:(lra) ltac:(lra)) as (dx & Fx & _).
    destruct (printed show 9999 10000 y SHOW P2 ltac:(lra) ltac:(lra)) as (dy & Fy & _).
    assert (NI : forall c, is_digit c = false -> c <> dot -> c <> "-"%char -> c <> "e"%char -> c <> "s"%char ->
      ~ In c (lit "e" ++ take 8 (show x) ++ lit "s" ++ take 7 (show y))).
    { intros c H1 H2 H3 H4 H5. repeat apply notin_app.
      - intros [C|[]]. congruence.
      - apply notin_take. eapply fixed_no_s; eauto.
      - intros [C|[]]. congruence.
      - apply notin_take. eapply fixed_no_s; eauto. }
    split; [|split].
    - apply NI; [reflexivity|discriminate..].
    - apply NI; [reflexivity|discriminate..].
    - eexists _, _. split; [reflexivity|]. discriminate.
  Qed.
End C07.

(** ** A concrete printer *)
Definition dchr (n : Z) : ascii := ascii_of_nat (Z.to_nat (48 + n)).

Lemma dchr_ok n : 0 <= n <= 9 -> is_digit (dchr n) = true /\ digit_val (dchr n) = n.
Proof.
  intros H. assert (n = 0 \/ n = 1 \/ n = 2 \/ n = 3 \/ n = 4 \/ n = 5 \/ n = 6 \/ n = 7 \/ n = 8 \/ n = 9) as C by lia.
  repeat destruct C as [->|C]; [..|subst n]; split; reflexivity.
Qed.

Fixpoint zdig (fuel : nat) (n : Z) : str :=
  match fuel with
  | O => []
  | S f => if n <? 10 then [dchr n] else zdig f (n / 10) ++ [dchr (n mod 10)]
  end.

Lemma zdig_ok fuel n : 0 <= n < 10 ^ (Z.of_nat (S fuel)) ->
  int_val (zdig (S fuel) n) = n /\ forallb is_digit (zdig (S fuel) n) = true /\ zdig (S fuel) n <> [] /\
  (forall c D', zdig (S fuel) n = c :: D' -> (n = 0 -> D' = []) /\ (n <> 0 -> digit_val c <> 0)).
Proof.
  revert n. induction fuel as [|fuel IH]; intros n H.
  - change (10 ^ Z.of_nat 1) with 10 in H. cbn [zdig]. replace (n <? 10) with true by lia.
    destruct (dchr_ok n ltac:(lia)) as [D1 D2].
    unfold int_val. cbn [fold_left forallb]. rewrite D1, D2. repeat split; try lia; try discriminate.
    + inversion H0. reflexivity.
    + inversion H0. subst. lia.
  - remember (S fuel) as f eqn:Ef. cbn [zdig]. destruct (n <? 10) eqn:L.
    + destruct (dchr_ok n ltac:(lia)) as [D1 D2].
      unfold int_val. cbn [fold_left forallb]. rewrite D1, D2. repeat split; try lia; try discriminate.
      * inversion H0. reflexivity.
      * inversion H0. subst. lia.
    + rewrite Nat2Z.inj_succ, Z.pow_succ_r in H by lia.
      assert (H10 : 0 <= n / 10 < 10 ^ Z.of_nat f).
      { split; [apply Z.div_pos; lia|]. apply Z.div_lt_upper_bound; lia. }
      destruct (IH (n / 10) H10) as (I1 & I2 & I3 & I4).
      assert (M : 0 <= n mod 10 <= 9) by (pose proof (Z.mod_pos_bound n 10); lia).
      destruct (dchr_ok (n mod 10) M) as [D1 D2].
      rewrite int_val_app, I1. cbn [fold_left]. rewrite D2.
      assert (N0 : n / 10 <> 0). { intros C. rewrite (Z.div_mod n 10) in L by lia. lia. }
      repeat split.
      * pose proof (Z.div_mod n 10). lia.
      * rewrite forallb_app, I2. cbn [forallb]. rewrite D1. reflexivity.
      * intros C. apply app_eq_nil in C. destruct C. discriminate.
      * intros ->. lia.
      * intros _. destruct (zdig f (n / 10)) as [|c0 D0] eqn:E0; [contradiction|].
        cbn [app] in H0. inversion H0; subst c0. exact (proj2 (I4 c D0 eq_refl) N0).
Qed.

Fixpoint fdig (k : nat) (f : Q) : str :=
  match k with
  | O => []
  | S k => let d := Qfloor (10 * f) in dchr d :: fdig k (10 * f - inject_Z d)%Q
  end.

Fixpoint tenth (k : nat) : Q := match k with O => 1 | S k => ((1#10) * tenth k)%Q end.

Lemma fdig_ok k f : (0 <= f)%Q -> (f < 1)%Q ->
  forallb is_digit (fdig k f) = true /\ (frac_val (fdig k f) <= f)%Q /\ (f <= frac_val (fdig k f) + tenth k)%Q.
Proof.
  revert f. induction k as [|k IH]; intros f H0 H1; cbn [fdig frac_val tenth].
  - repeat split; try reflexivity; lra.
  - destruct (Qfloor_spec (10 * f)) as [F1 F2].
    assert (D : 0 <= Qfloor (10 * f) <= 9).
    { assert (A : (inject_Z (-1) < inject_Z (Qfloor (10 * f)))%Q) by (unfold inject_Z at 1; lra).
      assert (B : (inject_Z (Qfloor (10 * f)) < inject_Z 10)%Q) by (unfold inject_Z at 2; lra).
      apply inject_Z_lt_inv in A. apply inject_Z_lt_inv in B. lia. }
    destruct (dchr_ok _ D) as [D1 D2].
    destruct (IH (10 * f - inject_Z (Qfloor (10 * f)))%Q ltac:(lra) ltac:(lra)) as (I1 & I2 & I3).
    cbn [forallb]. rewrite D1, D2, I1. split; [reflexivity|].
    remember (Qfloor (10 * f)) as z. remember (fdig k (10 * f - inject_Z z)%Q) as g.
    setoid_replace ((inject_Z z + frac_val g) / 10)%Q with ((1#10) * inject_Z z + (1#10) * frac_val g)%Q by field.
    split; lra.
Qed.

(** Truncated decimal with 22 digits after the point. *)
Definition show22 (q : Q) : str :=
  (if Qltb q 0 then lit "-" else []) ++ zdig 20 (Qfloor (Qabs q)) ++ [dot] ++ fdig 22 (Qabs q - inject_Z (Qfloor (Qabs q)))%Q.

Lemma show22_prints : prints_floats show22.
Proof.
  intros q Hq.
  pose proof (Qabs_nonneg q) as A0.
  assert (A1 : (Qabs q < 10000000000000000)%Q).
  { destruct Hq as [Z|[_ Z]]; [|exact Z]. rewrite Z. reflexivity. }
  destruct (Qfloor_spec (Qabs q)) as [F1 F2].
  assert (D : 0 <= Qfloor (Qabs q) < 10 ^ Z.of_nat 20).
  { assert (A : (inject_Z (-1) < inject_Z (Qfloor (Qabs q)))%Q) by (unfold inject_Z at 1; lra).
    assert (B : (inject_Z (Qfloor (Qabs q)) < inject_Z 10000000000000000)%Q) by (unfold inject_Z at 2; lra).
    apply inject_Z_lt_inv in A. apply inject_Z_lt_inv in B.
    change (10 ^ Z.of_nat 20) with 100000000000000000000. lia. }
  destruct (zdig_ok 19 _ D) as (Z1 & Z2 & Z3 & Z4).
  destruct (fdig_ok 22 (Qabs q - inject_Z (Qfloor (Qabs q)))%Q ltac:(lra) ltac:(lra)) as (G1 & G2 & G3).
  set (fr := fdig 22 (Qabs q - inject_Z (Qfloor (Qabs q)))%Q) in *.
  set (di := zdig 20 (Qfloor (Qabs q))) in *.
  assert (T22 : (tenth 22 <= u53 * (1#10000))%Q) by (rewrite u53_val; vm_compute; discriminate).
  assert (TOL : (tenth 22 <= u53 * Qabs q)%Q \/ (q == 0)%Q).
  { destruct Hq as [Z|[Z _]]; [right; exact Z|left]. rewrite u53_val in *. lra. }
  assert (FR0 : (q == 0)%Q -> (frac_val fr == 0)%Q /\ Qfloor (Qabs q) = 0).
  { intros Z. assert (E : (Qabs q == 0)%Q) by (rewrite Z; reflexivity).
    assert (W : Qfloor (Qabs q) = 0) by (apply Qfloor_unique; rewrite E; lra || (unfold inject_Z; lra)).
    split; [|exact W].
    rewrite W in G2. pose proof (frac_val_range _ G1) as [P _]. unfold inject_Z in G2. lra. }
  exists (if Qltb q 0 then (- (inject_Z (int_val di) + frac_val fr))%Q else (inject_Z (int_val di) + frac_val fr)%Q).
  split.
  - exists (if Qltb q 0 then lit "-" else []), di, fr.
    split; [reflexivity|]. split; [exact Z2|]. split; [exact G1|]. split; [exact Z3|].
    split; [subst fr; discriminate|]. split.
    + intros c D' E Ne. destruct (Z4 c D' E) as [Za Zb].
      destruct (Z.eq_dec (Qfloor (Qabs q)) 0) as [W|W]; [exfalso; apply Ne; auto|auto].
    + destruct (Qltb q 0); [right|left]; split; reflexivity.
  - rewrite Z1.
    assert (E : (Qabs (inject_Z (Qfloor (Qabs q)) + frac_val fr - Qabs q) <= u53 * Qabs q)%Q).
    { apply Qabs_le_iff. destruct TOL as [TOL|Z].
      - split; lra.
      - destruct (FR0 Z) as [E1 E2]. rewrite E2, E1. rewrite Z. vm_compute. split; discriminate. }
    apply Qabs_le_iff in E. destruct E as [E1 E2]. apply Qabs_le_iff.
    destruct (Qltb q 0) eqn:L.
    + apply Qltb_lt in L. assert (AN : (Qabs q == - q)%Q) by (apply Qabs_neg; lra). clear - E1 E2 AN. rewrite u53_val in *. split; lra.
    + apply Qltb_ge in L. assert (AN : (Qabs q == q)%Q) by (apply Qabs_pos; lra). clear - E1 E2 AN. rewrite u53_val in *. split; lra.
Qed.
