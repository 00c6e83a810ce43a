(** * An even slope longer than any buffer (C80). *)
From Verif Require Import Base BaseLemmas Rounding NameModel TerrSpec TopoModel TopoSpec TopoLineProofs TopoMhProofs TopoCalcProofs TopoHillProofs TopoPathProofs TopoRunProofs TopoStageProofs TopoProps TcutSpec TcutProofs TcutGridProofs.
Open Scope Z_scope.

(** The multiplier on a slope of total height [P], at distance [x] before its crest. *)
Definition slope_value (P x : Q) : Q := (1 + Qmin ((P - (10#16) * x) / (35 + (14#10) * P)) (71#100))%Q.

Lemma frac_mono P P' x : (0 <= P)%Q -> (P <= P')%Q -> (0 <= x)%Q -> ((P - x) / (35 + (14#10) * P) <= (P' - x) / (35 + (14#10) * P'))%Q.
Proof.
  intros H0 H1 H2. apply Qle_shift_div_r; [lra|]. setoid_replace ((P' - x) / (35 + (14#10) * P') * (35 + (14#10) * P))%Q with ((P' - x) * (35 + (14#10) * P) / (35 + (14#10) * P'))%Q by (field; lra).
  apply Qle_shift_div_l; [lra|]. assert (K : (0 <= (P' - P) * (35 + (14#10) * x))%Q) by (apply Qmult_le_0_compat; lra). lra.
Qed.
Lemma frac_strict P P' x : (0 <= P)%Q -> (P < P')%Q -> (0 <= x)%Q -> ((P - x) / (35 + (14#10) * P) < (P' - x) / (35 + (14#10) * P'))%Q.
Proof.
  intros H0 H1 H2. apply Qlt_shift_div_r; [lra|]. setoid_replace ((P' - x) / (35 + (14#10) * P') * (35 + (14#10) * P))%Q with ((P' - x) * (35 + (14#10) * P) / (35 + (14#10) * P'))%Q by (field; lra).
  apply Qlt_shift_div_l; [lra|]. assert (K : (0 < (P' - P) * (35 + (14#10) * x))%Q) by (apply Qmult_lt_0_compat; lra). lra.
Qed.
Lemma slope_mono P P' x : (0 <= P)%Q -> (P <= P')%Q -> (0 <= x)%Q -> (slope_value P x <= slope_value P' x)%Q.
Proof.
  intros. unfold slope_value. pose proof (frac_mono P P' ((10#16) * x) ltac:(assumption) ltac:(assumption) ltac:(lra)) as F. apply Qplus_le_r. apply Q.min_le_compat_r. exact F.
Qed.
Lemma slope_strict P P' x : (0 <= P)%Q -> (P < P')%Q -> ((1#64) * P <= x)%Q -> (slope_value P x < slope_value P' x)%Q.
Proof.
  intros H0 H1 H2. unfold slope_value. pose proof (frac_strict P P' ((10#16) * x) ltac:(assumption) ltac:(assumption) ltac:(lra)) as F. apply Qplus_lt_r.
  assert (G : ((P - (10#16) * x) / (35 + (14#10) * P) < 71#100)%Q) by (apply Qlt_shift_div_r; lra).
  eapply Qle_lt_trans; [apply Q.le_min_l|]. apply Q.min_glb_lt; assumption.
Qed.

Section Ramp.
Context (L : list Q) (a s N : Z) (ds : Q).
Hypothesis HL : zlen L = N + 2.
Hypothesis HF : floors L = L.
Hypothesis HE : forall i, 0 <= i <= N -> elev_at L i = inject_Z (a + i * s).
Hypothesis HT : elev_at L (N + 1) = 0%Q.
Hypothesis Ha : 0 <= a.
Hypothesis Hs : 1 <= s.
Hypothesis HN : 2 <= N.
Hypothesis HNs : 10 <= N * s.
Hypothesis Hd : (0 < ds)%Q.
Hypothesis Hds : (ds <= inject_Z s)%Q.

Lemma ramp_run : rising_run L 0 N.
Proof.
  unfold rising_run, last_pt. rewrite HL. split; [lia|]. split; [lia|]. split; [|split; [left; reflexivity|right]].
  - intros k Hk. rewrite !HE by lia. rewrite <- Zlt_Qlt. lia.
  - rewrite HT, HE by lia. change 0%Q with (inject_Z 0). rewrite <- Zle_Qle. lia.
Qed.
Lemma ramp_only v r : rising_run L v r -> v = 0 /\ r = N.
Proof.
  intros R. pose proof ramp_run as R0. destruct (Z.eq_dec v 0) as [->|Nv]; [split; [reflexivity|exact (run_fun L 0 r N R R0)]|]. exfalso.
  assert (A : 0 <= v < r) by apply R. pose proof (runs_ordered L 0 N v r R0 R ltac:(lia)) as X. assert (B : r <= last_pt L) by apply R. unfold last_pt in B. rewrite HL in B.
  assert (r <= N + 1) by lia. lia.
Qed.
Lemma ramp_height : (elev_at L N - elev_at L 0 == inject_Z (N * s))%Q.
Proof. rewrite !HE by lia. unfold Qminus. rewrite <- inject_Z_opp, <- inject_Z_plus. replace (a + N * s + - (a + 0 * s)) with (N * s) by lia. reflexivity. Qed.

Lemma ramp_significant : ~ negligible L 0 N ds.
Proof.
  unfold negligible. rewrite !ramp_height. rewrite Z.sub_0_r. intros [H|[H|H]].
  - change 10%Q with (inject_Z 10) in H. rewrite <- Zlt_Qlt in H. lia.
  - lia.
  - apply Qlt_not_le in H. apply H. pose proof (inj_pos N ltac:(lia)) as P. rewrite inject_Z_mult. setoid_replace (inject_Z N * inject_Z s / (inject_Z N * ds))%Q with (inject_Z s / ds)%Q by (field; split; lra).
    apply Qle_trans with 1%Q; [discriminate|]. apply Qle_shift_div_l; [exact Hd|lra].
Qed.

Lemma ramp_value k : 0 <= k <= N -> (inject_Z (N - k) * ds < (16#10) * inject_Z (N * s))%Q ->
  exists m, multiplier_calc (fun x => x) L ds = Ok m /\ (nth (Z.to_nat k) m 0 == slope_value (inject_Z (N * s)) (inject_Z (N - k) * ds))%Q.
Proof.
  intros Hk Hx. destruct (C40_line L ds Hd) as (m & Em & _ & P). exists m. split; [exact Em|]. rewrite HF in P. unfold last_pt in P. rewrite HL in P.
  destruct (P k ltac:(lia)) as (P1 & P2 & P3). specialize (P2 0 N ramp_run ramp_significant).
  assert (HV : (hill_at L 0 N ds k == slope_value (inject_Z (N * s)) (inject_Z (N - k) * ds))%Q).
  { unfold hill_at. set (P0 := inject_Z (N * s)). set (x := (inject_Z (N - k) * ds)%Q) in *.
    assert (E1 : (Qmax ((36#100) * (inject_Z (N - 0) * ds / 2)) ((4#10) * (elev_at L N - elev_at L 0)) == (4#10) * P0)%Q).
    { rewrite ramp_height. fold P0. apply Q.max_r. rewrite Z.sub_0_r. assert (X : (inject_Z N * ds <= P0)%Q) by (unfold P0; rewrite inject_Z_mult; apply Qmult_le_l; [apply inj_pos; lia|exact Hds]).
      assert (E2 : (inject_Z N * ds / 2 == (1#2) * (inject_Z N * ds))%Q) by field. assert (Y : (0 < P0)%Q) by (unfold P0; apply inj_pos; lia). lra. }
    rewrite (hill_proper _ P0 _ ((4#10) * P0) _ ((16#10) * P0) _ (P0 / (inject_Z (N - 0) * ds)) _ (stretch L 0 N) _ x); [|exact ramp_height|exact E1|rewrite E1; ring|rewrite ramp_height; reflexivity|reflexivity|reflexivity].
    assert (PP : (0 < P0)%Q) by (unfold P0; apply inj_pos; lia).
    assert (X0 : (0 <= x)%Q) by (unfold x; apply Qmult_le_0_compat; [change 0%Q with (inject_Z 0); rewrite <- Zle_Qle; lia|lra]).
    unfold hill. rewrite (proj2 (Qleb_le 0 x)) by exact X0. rewrite (proj2 (Qltb_lt x ((16#10) * P0))) by exact Hx. cbn [andb]. unfold capped, slope_value.
    assert (E3 : (1 + P0 / ((35#10) * (10 + (4#10) * P0)) * (1 - x / ((16#10) * P0)) == 1 + (P0 - (10#16) * x) / (35 + (14#10) * P0))%Q) by (field; split; lra).
    rewrite E3. setoid_replace (171#100)%Q with (1 + (71#100))%Q by reflexivity. apply Q.plus_min_distr_l. }
  rewrite <- HV. destruct P3 as [P3|(v & r & R & _ & E)]; [|destruct (ramp_only v r R) as [-> ->]; exact E].
  apply Qle_antisym; [|exact P2]. rewrite P3, HV. unfold slope_value. 
  assert (0 <= Qmin ((inject_Z (N * s) - (10#16) * (inject_Z (N - k) * ds)) / (35 + (14#10) * inject_Z (N * s))) (71#100))%Q; [|lra].
  assert (PP : (0 < inject_Z (N * s))%Q) by (apply inj_pos; lia). apply Q.min_glb; [|discriminate]. apply Qle_shift_div_l; lra.
Qed.
End Ramp.

Definition ramp_line (n s : Z) : list Q := map (ramp n s) (zrange (n + 2)).
Lemma nth_map_zrange (f : Z -> Q) m j : 0 <= j < m -> nth (Z.to_nat j) (map f (zrange m)) 0%Q = f j.
Proof. intros Hj. apply nth_error_nth. rewrite nth_error_map. rewrite (zrange_nth_error m j) by exact Hj. reflexivity. Qed.
Lemma ramp_floors n s : floors (ramp_line n s) = ramp_line n s.
Proof.
  unfold floors, ramp_line. rewrite map_map. apply map_ext. intros i. unfold ramp. destruct (i <=? n); [|reflexivity]. rewrite Qfloor_Z. reflexivity.
Qed.

(** A point in the middle of a long even slope: [B] points before it and more
    than [B] behind it are not enough. *)
Lemma ramp_cut B s ds k : 5 <= B -> 1 <= s -> (0 < ds)%Q -> (ds <= inject_Z s)%Q -> 2 * B - 1 <= k <= 2 * B + 1 ->
  exists m mw, multiplier_calc (fun x => x) (ramp_line (3 * B) s) ds = Ok m /\ multiplier_calc (fun x => x) (part B (3 * B + 1) (ramp_line (3 * B) s)) ds = Ok mw /\
    (1 <= nth (Z.to_nat (k - B)) mw 0)%Q /\
    (nth (Z.to_nat (k - B)) mw 0 <= nth (Z.to_nat k) m 0)%Q /\
    (k = 2 * B -> (inject_Z s <= 2 * ds)%Q -> (nth (Z.to_nat (k - B)) mw 0 < nth (Z.to_nat k) m 0)%Q).
Proof.
  intros HB Hs Hd Hds Hk. set (L := ramp_line (3 * B) s).
  assert (LL : zlen L = 3 * B + 2) by (unfold L, ramp_line, zlen; rewrite map_length, zrange_length; lia).
  assert (LW : zlen (part B (3 * B + 1) L) = 2 * B + 2) by (rewrite part_len; lia).
  assert (EL : forall i, 0 <= i <= 3 * B + 1 -> elev_at L i = ramp (3 * B) s i) by (intros i Hi; unfold elev_at, L, ramp_line; apply nth_map_zrange; lia).
  assert (XB : forall z, 0 <= z <= B + 1 -> (inject_Z z * ds < (16#10) * inject_Z (2 * B * s))%Q).
  { intros z Hz. assert (X : (inject_Z z * ds <= inject_Z z * inject_Z s)%Q). { rewrite !(Qmult_comm (inject_Z z)). apply Qmult_le_compat_r; [exact Hds|]. change 0%Q with (inject_Z 0). rewrite <- Zle_Qle. lia. }
    rewrite <- inject_Z_mult in X. eapply Qle_lt_trans; [exact X|]. assert (Y : (inject_Z (z * s) < inject_Z (2 * B * s))%Q) by (rewrite <- Zlt_Qlt; nia). assert (Z : (0 < inject_Z (2 * B * s))%Q) by (change 0%Q with (inject_Z 0); rewrite <- Zlt_Qlt; nia). lra. }
  assert (MM : (inject_Z (2 * B * s) < inject_Z (3 * B * s))%Q) by (rewrite <- Zlt_Qlt; nia).
  assert (PP : (0 < inject_Z (2 * B * s))%Q) by (change 0%Q with (inject_Z 0); rewrite <- Zlt_Qlt; nia).
  destruct (ramp_value L 0 s (3 * B) ds) with (k := k) as (m & Em & Vm); try assumption; try nia.
  { apply ramp_floors. }
  { intros i Hi. rewrite EL by lia. unfold ramp. rewrite (proj2 (Z.leb_le i (3 * B))) by lia. f_equal. }
  { rewrite EL by lia. unfold ramp. rewrite (proj2 (Z.leb_gt (3 * B + 1) (3 * B))) by lia. reflexivity. }
  { specialize (XB (3 * B - k) ltac:(lia)). lra. }
  destruct (ramp_value (part B (3 * B + 1) L) (B * s) s (2 * B) ds) with (k := k - B) as (mw & Ew & Vw); try assumption; try nia.
  { rewrite floors_part. unfold L. rewrite ramp_floors. reflexivity. }
  { intros i Hi. rewrite part_at by lia. rewrite EL by lia. unfold ramp. rewrite (proj2 (Z.leb_le (B + i) (3 * B))) by lia. f_equal. lia. }
  { rewrite part_at by lia. rewrite EL by lia. unfold ramp. rewrite (proj2 (Z.leb_gt (B + (2 * B + 1)) (3 * B))) by lia. reflexivity. }
  { replace (2 * B - (k - B)) with (3 * B - k) by lia. apply XB. lia. }
  exists m, mw. split; [exact Em|]. split; [exact Ew|]. replace (2 * B - (k - B)) with (3 * B - k) in Vw by lia.
  assert (X0 : (0 <= inject_Z (3 * B - k) * ds)%Q) by (apply Qmult_le_0_compat; [change 0%Q with (inject_Z 0); rewrite <- Zle_Qle; lia|lra]).
  split; [|split].
  - rewrite Vw. unfold slope_value. specialize (XB (3 * B - k) ltac:(lia)).
    assert (0 <= Qmin ((inject_Z (2 * B * s) - (10#16) * (inject_Z (3 * B - k) * ds)) / (35 + (14#10) * inject_Z (2 * B * s))) (71#100))%Q; [|lra].
    apply Q.min_glb; [|discriminate]. apply Qle_shift_div_l; lra.
  - rewrite Vw, Vm. apply slope_mono; lra.
  - intros Ek S2. rewrite Vw, Vm. apply slope_strict; [lra|lra|]. replace (3 * B - k) with B by lia.
    assert (Y : (inject_Z B * inject_Z s <= inject_Z B * (2 * ds))%Q). { rewrite !(Qmult_comm (inject_Z B)). apply Qmult_le_compat_r; [exact S2|]. change 0%Q with (inject_Z 0). rewrite <- Zle_Qle. lia. }
    assert (E2 : (inject_Z (2 * B * s) == 2 * (inject_Z B * inject_Z s))%Q) by (rewrite !inject_Z_mult; change (inject_Z 2) with 2%Q; ring). rewrite E2.
    assert (Z0 : (0 < inject_Z B * ds)%Q) by (apply Qmult_lt_0_compat; [apply inj_pos; lia|exact Hd]). assert (E3 : (inject_Z B * (2 * ds) == 2 * (inject_Z B * ds))%Q) by ring. lra.
Qed.

(** Lines of a raster that varies to the east only, wind from the west. *)
Lemma west_line R C r : 1 <= R -> 1 <= C -> 0 <= r < R -> wind_line R C W_ r 0 C.
Proof.
  intros H1 H2 H3. unfold wind_line. split; [apply inside_ins; unfold ins; lia|].
  assert (D : forall t, down_cell W_ t r 0 = (r, t)) by (intros t; unfold down_cell, up_pixel; cbn; f_equal; lia).
  assert (F : forall c, ~ (0 <= c < C) -> inside R C (r, c) = false).
  { intros c Hc. destruct (inside R C (r, c)) eqn:E; [|reflexivity]. apply inside_ins in E. unfold ins in E. lia. }
  split; [rewrite up_is_down, D; apply F; lia|]. split; [lia|]. split.
  - intros t Ht. rewrite D. apply inside_ins. unfold ins. lia.
  - rewrite D. apply F. lia.
Qed.
Lemma west_cell t r : down_cell W_ t r 0 = (r, t).
Proof. unfold down_cell, up_pixel. cbn. f_equal; lia. Qed.

Lemma cons_strict x y : (1 <= x)%Q -> (x < y)%Q -> (remove_conservatism x < remove_conservatism y)%Q.
Proof.
  intros H1 H2.
  assert (S : forall a b, (1 <= a)%Q -> (a < b)%Q -> (b <= 14#10)%Q -> (a * ((125#100) - (25#100) * a) < b * ((125#100) - (25#100) * b))%Q).
  { intros a b A B C. assert (P : (0 < (b - a) * ((125#100) - (25#100) * (a + b)))%Q) by (apply Qmult_lt_0_compat; lra). lra. }
  destruct (Qlt_le_dec y (14#10)) as [Y|Y].
  - rewrite (cons_shallow x), (cons_shallow y) by lra. apply S; lra.
  - rewrite (cons_steep y) by exact Y. destruct (Qlt_le_dec x (14#10)) as [X|X].
    + rewrite (cons_shallow x) by lra. specialize (S x (14#10)%Q H1 X ltac:(lra)). lra.
    + rewrite (cons_steep x) by exact X. lra.
Qed.
