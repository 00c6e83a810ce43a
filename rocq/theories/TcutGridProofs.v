(** * Cutting an elevation raster (C80). *)
From Verif Require Import Base BaseLemmas Rounding NameModel TerrSpec TopoModel TopoSpec TopoLineProofs TopoMhProofs TopoCalcProofs TopoHillProofs TopoPathProofs TopoRunProofs TopoStageProofs TopoProps TcutSpec TcutProofs.
Open Scope Z_scope.

Lemma inside_rect R C Y1 Y2 X1 X2 r c : 0 <= Y1 -> Y2 <= R -> 0 <= X1 -> X2 <= C ->
  (inside (Y2 - Y1) (X2 - X1) (r - Y1, c - X1) = true <-> in_rect Y1 Y2 X1 X2 (r, c)).
Proof. intros. rewrite inside_ins. unfold ins, in_rect. cbn [fst snd]. lia. Qed.

Lemma down_shift d t r c a b : down_cell d t (r - a) (c - b) = (fst (down_cell d t r c) - a, snd (down_cell d t r c) - b).
Proof. rewrite !down_eq. cbn [fst snd]. f_equal; lia. Qed.
Lemma down_add d s t r c : down_cell d (s + t) r c = down_cell d t (fst (down_cell d s r c)) (snd (down_cell d s r c)).
Proof. rewrite !down_eq. cbn [fst snd]. f_equal; lia. Qed.
Lemma not_rect_inside R C Y1 Y2 X1 X2 r c : 0 <= Y1 -> Y2 <= R -> 0 <= X1 -> X2 <= C ->
  inside (Y2 - Y1) (X2 - X1) (r - Y1, c - X1) = false -> ~ in_rect Y1 Y2 X1 X2 (r, c).
Proof. intros ? ? ? ? E K. rewrite (proj2 (inside_rect R C Y1 Y2 X1 X2 r c ltac:(lia) ltac:(lia) ltac:(lia) ltac:(lia)) K) in E. discriminate. Qed.

Lemma up_is_down d r c : up_pixel d 1 r c = down_cell d (-1) r c.
Proof. rewrite up_eq, down_eq. f_equal; lia. Qed.

(** Windows are convex: along a line they hold an interval. *)
Lemma rect_mid d r c Y1 Y2 X1 X2 a b t : a <= t <= b -> in_rect Y1 Y2 X1 X2 (down_cell d a r c) -> in_rect Y1 Y2 X1 X2 (down_cell d b r c) ->
  in_rect Y1 Y2 X1 X2 (down_cell d t r c).
Proof. rewrite !down_eq. unfold in_rect. cbn [fst snd]. destruct d; cbn; lia. Qed.

Section Window.
Context (elev : grid num) (d : dir) (Y1 Y2 X1 X2 : Z).
Hypothesis HY : 0 <= Y1 < Y2.
Hypothesis HY2 : Y2 <= g_rows elev.
Hypothesis HX : 0 <= X1 < X2.
Hypothesis HX2 : X2 <= g_cols elev.
Let R := g_rows elev.
Let C := g_cols elev.
Let W := window elev Y1 Y2 X1 X2.

(** The line of the window through a pixel is a part of the raster's line. *)
Lemma window_line r c : in_rect Y1 Y2 X1 X2 (r, c) ->
  exists r0 c0 n k o e, wind_line R C d r0 c0 n /\ 0 <= o <= k /\ k <= e < n /\ down_cell d k r0 c0 = (r, c) /\
    (forall t, 0 <= t < n -> (o <= t <= e <-> in_rect Y1 Y2 X1 X2 (down_cell d t r0 c0))) /\
    exists r0' c0', wind_line (Y2 - Y1) (X2 - X1) d r0' c0' (e - o + 1) /\
      line_profile W d r0' c0' (e - o + 1) = part o e (line_profile elev d r0 c0 n) /\
      down_cell d (k - o) r0' c0' = (r - Y1, c - X1).
Proof.
  intros I. assert (IW : inside (Y2 - Y1) (X2 - X1) (r - Y1, c - X1) = true) by (apply (inside_rect R C); unfold R, C; try lia; exact I).
  destruct (cell_on_line (Y2 - Y1) (X2 - X1) d ltac:(lia) ltac:(lia) _ _ IW) as (r0' & c0' & n' & t' & WL & Ht & Et).
  pose proof WL as (S0 & Su & Hn & Sin & Send).
  assert (IR : forall p, in_rect Y1 Y2 X1 X2 p -> inside R C p = true) by (intros [a b] [K1 K2]; apply inside_ins; unfold ins; cbn [fst snd] in *; unfold R, C; lia).
  assert (ZIN : forall t, 0 <= t < n' -> in_rect Y1 Y2 X1 X2 (down_cell d t (Y1 + r0') (X1 + c0'))).
  { intros t H. specialize (Sin t H). rewrite down_eq in Sin. rewrite down_eq. apply (inside_rect R C); unfold R, C; try lia.
    replace (Y1 + r0' + t * i_incr d - Y1) with (r0' + t * i_incr d) by lia. replace (X1 + c0' + t * j_incr d - X1) with (c0' + t * j_incr d) by lia. exact Sin. }
  assert (ZOUT : forall t, inside (Y2 - Y1) (X2 - X1) (down_cell d t r0' c0') = false -> ~ in_rect Y1 Y2 X1 X2 (down_cell d t (Y1 + r0') (X1 + c0'))).
  { intros t H. rewrite down_eq in *. apply (not_rect_inside R C); unfold R, C; try lia.
    replace (Y1 + r0' + t * i_incr d - Y1) with (r0' + t * i_incr d) by lia. replace (X1 + c0' + t * j_incr d - X1) with (c0' + t * j_incr d) by lia. exact H. }
  assert (I0 : inside R C (Y1 + r0', X1 + c0') = true).
  { apply IR. specialize (ZIN 0 ltac:(lia)). rewrite down_eq in ZIN. replace (Y1 + r0' + 0 * i_incr d) with (Y1 + r0') in ZIN by lia. replace (X1 + c0' + 0 * j_incr d) with (X1 + c0') in ZIN by lia. exact ZIN. }
  destruct (cell_on_line R C d ltac:(unfold R; lia) ltac:(unfold C; lia) _ _ I0) as (r0 & c0 & n & o & WR & Ho & Eo).
  assert (AD : forall t, down_cell d (o + t) r0 c0 = down_cell d t (Y1 + r0') (X1 + c0')) by (intros t; rewrite down_add, Eo; reflexivity).
  pose proof WR as (_ & _ & _ & Rin & Rend).
  assert (On : o + n' <= n).
  { destruct (Z_le_gt_dec (o + n') n) as [X|X]; [exact X|]. exfalso. specialize (ZIN (n - o) ltac:(lia)). rewrite <- AD in ZIN. replace (o + (n - o)) with n in ZIN by lia. apply IR in ZIN. congruence. }
  exists r0, c0, n, (o + t'), o, (o + n' - 1). split; [exact WR|]. split; [lia|]. split; [lia|].
  assert (Ek : down_cell d (o + t') r0 c0 = (r, c)).
  { rewrite AD. rewrite down_eq in *. injection Et as E1 E2. f_equal; lia. }
  split; [exact Ek|]. split.
  - intros t H. split.
    + intros Hb. replace t with (o + (t - o)) by lia. rewrite AD. apply ZIN. lia.
    + intros Hi. destruct (Z_lt_ge_dec t o) as [X|X].
      * exfalso. apply (ZOUT (-1)); [rewrite <- up_is_down; exact Su|]. rewrite <- AD. apply (rect_mid d r0 c0 Y1 Y2 X1 X2 t o); [lia|exact Hi|]. replace o with (o + 0) by lia. rewrite AD. apply ZIN. lia.
      * destruct (Z_le_gt_dec t (o + n' - 1)) as [X'|X']; [lia|]. exfalso. apply (ZOUT n' Send). rewrite <- AD. apply (rect_mid d r0 c0 Y1 Y2 X1 X2 o t); [lia| |exact Hi]. replace o with (o + 0) by lia. rewrite AD. apply ZIN. lia.
  - exists r0', c0'. replace (o + n' - 1 - o + 1) with n' by lia. split; [exact WL|]. split; [|replace (o + t' - o) with t' by lia; exact Et].
    apply nth_ext with (d := 0%Q) (d' := 0%Q).
    + pose proof (profile_len W d r0' c0' n' ltac:(lia)) as L1. pose proof (profile_len elev d r0 c0 n ltac:(lia)) as L2.
      pose proof (part_len o (o + n' - 1) (line_profile elev d r0 c0 n) ltac:(lia) ltac:(lia)) as L3. unfold zlen in *. lia.
    + intros i Hi. pose proof (profile_len W d r0' c0' n' ltac:(lia)) as L1. unfold zlen in L1.
      assert (Hi' : 0 <= Z.of_nat i < n') by lia.
      pose proof (part_at o (o + n' - 1) (line_profile elev d r0 c0 n) (Z.of_nat i) ltac:(lia) ltac:(lia)) as PA. unfold elev_at in PA. rewrite Nat2Z.id in PA. rewrite PA.
      assert (NM : forall (f : Z -> Q) m j, 0 <= j < m -> nth (Z.to_nat j) (map f (zrange m)) 0%Q = f j).
      { intros f m j Hj. apply nth_error_nth. rewrite nth_error_map. rewrite (zrange_nth_error m j) by exact Hj. reflexivity. }
      unfold line_profile. rewrite NM by lia. replace i with (Z.to_nat (Z.of_nat i)) at 1 by lia. rewrite NM by lia. rewrite AD.
      cbn [W window g_at]. rewrite !down_eq. cbn [fst snd]. do 2 f_equal; lia.
Qed.

Lemma around_window r c : in_rect Y1 Y2 X1 X2 (r, c) -> Y1 < r \/ Y1 = 0 -> r + 1 < Y2 \/ Y2 = R -> X1 < c \/ X1 = 0 -> c + 1 < X2 \/ X2 = C ->
  around (Y2 - Y1) (X2 - X1) (r - Y1) (c - X1) = map (fun p => (fst p - Y1, snd p - X1)) (around R C r c) /\
  forall p, In p (around R C r c) -> in_rect Y1 Y2 X1 X2 p.
Proof.
  intros [I1 I2] B1 B2 B3 B4. cbn [fst snd] in *. unfold R, C in *.
  assert (K : forall p, In p [(r - 1, c - 1); (r - 1, c); (r - 1, c + 1); (r, c - 1); (r, c); (r, c + 1); (r + 1, c - 1); (r + 1, c); (r + 1, c + 1)] ->
    (0 <=? fst p) && (fst p <? g_rows elev) && ((0 <=? snd p) && (snd p <? g_cols elev)) = true <-> in_rect Y1 Y2 X1 X2 p).
  { intros p Hp. unfold in_rect. rewrite !andb_true_iff, !Z.leb_le, !Z.ltb_lt. cbn [In] in Hp. repeat (destruct Hp as [<-|Hp]; [cbn [fst snd]; lia|]). destruct Hp. }
  split.
  - unfold around. match goal with |- _ = map ?g (filter ?f ?l) => set (F := f); set (L := l) end.
    transitivity (filter (fun p => (0 <=? fst p) && (fst p <? Y2 - Y1) && ((0 <=? snd p) && (snd p <? X2 - X1))) (map (fun p => (fst p - Y1, snd p - X1)) L)).
    { f_equal. unfold L. cbn [map fst snd]. do 9 (apply f_equal2; [apply f_equal2; lia|]). reflexivity. }
    assert (G : forall l, incl l L -> filter (fun p => (0 <=? fst p) && (fst p <? Y2 - Y1) && ((0 <=? snd p) && (snd p <? X2 - X1))) (map (fun p => (fst p - Y1, snd p - X1)) l)
                = map (fun p => (fst p - Y1, snd p - X1)) (filter F l)).
    { induction l as [|p l IH]; intros H; [reflexivity|]. cbn [map filter fst snd]. rewrite IH by (intros q Hq; apply H; right; exact Hq).
      specialize (K p (H p (or_introl eq_refl))). fold (F p) in K. assert (E : (0 <=? fst p - Y1) && (fst p - Y1 <? Y2 - Y1) && ((0 <=? snd p - X1) && (snd p - X1 <? X2 - X1)) = F p).
      { apply eq_true_iff_eq. rewrite K. unfold in_rect. rewrite !andb_true_iff, !Z.leb_le, !Z.ltb_lt. clear. split; intros; lia. }
      rewrite E. destruct (F p); reflexivity. }
    apply G. apply incl_refl.
  - intros p Hp. unfold around in Hp. apply filter_In in Hp. destruct Hp as [Hp E]. apply K; assumption.
Qed.

(** One direction. *)
Lemma window_value sqrt2 cellsize xl yu xl' yu' : (0 < sqrt2)%Q -> (0 < cellsize)%Q -> in_tasmania xl yu = in_tasmania xl' yu' ->
  exists whole cut, topo_dir (fun x => x) sqrt2 cellsize xl yu elev d = Ok whole /\ topo_dir (fun x => x) sqrt2 cellsize xl' yu' W d = Ok cut /\
    g_rows cut = Y2 - Y1 /\ g_cols cut = X2 - X1 /\
    forall r c, in_rect Y1 Y2 X1 X2 (r, c) -> Y1 < r \/ Y1 = 0 -> r + 1 < Y2 \/ Y2 = R -> X1 < c \/ X1 = 0 -> c + 1 < X2 \/ X2 = C ->
      (forall p, In p (around R C r c) -> line_enough elev d Y1 Y2 X1 X2 (spacing (fun x => x) sqrt2 cellsize d) p) ->
      same_num (g_at cut (r - Y1) (c - X1)) (g_at whole r c).
Proof.
  intros Hs Hc Box. set (M := Z.max R C).
  destruct (stage_dir (fun x => x) M sqrt2 cellsize xl yu elev d (fl_line_id M) Hs Hc ltac:(unfold M, R; lia) ltac:(unfold M, C; lia)) as (raw & whole & E & _ & _ & L & _ & N & V).
  destruct (stage_dir (fun x => x) M sqrt2 cellsize xl' yu' W d (fl_line_id M) Hs Hc ltac:(cbn; unfold M, R; lia) ltac:(cbn; unfold M, C; lia)) as (raw' & cut & E' & R' & C' & L' & _ & N' & V').
  exists whole, cut. split; [exact E|]. split; [exact E'|]. split; [exact R'|]. split; [exact C'|].
  intros r c I B1 B2 B3 B4 H. destruct (around_window r c I B1 B2 B3 B4) as [EA IA].
  assert (EW : g_at W (r - Y1) (c - X1) = g_at elev r c) by (cbn; f_equal; lia).
  destruct (g_at elev r c) as [|h] eqn:Eh.
  { rewrite (N' _ _ EW), (N _ _ Eh). exact Logic.I. }
  destruct (V _ _ _ Eh) as (q & -> & Eq). destruct (V' _ _ _ EW) as (q' & -> & Eq'). cbn [same_num]. rewrite Eq, Eq'. apply Qdiv_comp; [|reflexivity].
  change (g_rows W) with (Y2 - Y1). change (g_cols W) with (X2 - X1). fold R C. rewrite EA, map_map. apply total_ext. intros p Hp. cbn [fst snd]. specialize (IA p Hp). specialize (H p Hp).
  unfold box_field. rewrite <- Box. apply Qmult_comp.
  - destruct p as [pr pc]. cbn [fst snd].
    destruct (window_line pr pc IA) as (r0 & c0 & n & k & o & e & WR & Hk1 & Hk2 & Ek & Int & r0' & c0' & WW & Prof & Ek').
    destruct (H r0 c0 n k o e WR Hk1 Hk2 Ek Int) as [Hke En].
    assert (LL : zlen (line_profile elev d r0 c0 n) = n) by (apply profile_len; lia).
    assert (Hds : (0 < spacing (fun x => x) sqrt2 cellsize d)%Q) by (unfold spacing; destruct d; try exact Hc; apply Qmult_lt_0_compat; assumption).
    destruct (cut_line (line_profile elev d r0 c0 n) (spacing (fun x => x) sqrt2 cellsize d) o e k Hds ltac:(lia) ltac:(unfold last_pt; lia) ltac:(lia) En) as (m & mw & Em & Emw & Ev).
    destruct (L _ _ _ WR) as (m1 & Em1 & _ & At). destruct (L' _ _ _ WW) as (m2 & Em2 & _ & At'). rewrite Prof in Em2.
    assert (m1 = m) as -> by congruence. assert (m2 = mw) as -> by congruence. specialize (At k ltac:(lia)). specialize (At' (k - o) ltac:(lia)).
    rewrite Ek in At. rewrite Ek' in At'. cbn [fst snd] in At, At'.
    assert (Q : (g_at raw' (pr - Y1) (pc - X1) == g_at raw pr pc)%Q) by (rewrite At, At'; exact Ev).
    apply Qle_antisym; apply cons_mono; rewrite Q; apply Qle_refl.
  - assert (g_at W (fst p - Y1) (snd p - X1) = g_at elev (fst p) (snd p)) as -> by (cbn; f_equal; lia). reflexivity.
Qed.
End Window.
