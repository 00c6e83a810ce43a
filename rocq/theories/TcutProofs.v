(** * Cutting a line of elevations (C80). *)
From Verif Require Import Base BaseLemmas Rounding NameModel TerrSpec TopoModel TopoSpec TopoLineProofs TopoMhProofs TopoCalcProofs TopoHillProofs TopoPathProofs TopoRunProofs TopoStageProofs TopoProps TcutSpec.
Open Scope Z_scope.

Lemma part_len {A} o e (l : list A) : 0 <= o <= e -> e < zlen l -> zlen (part o e l) = e - o + 1.
Proof. intros H1 H2. unfold part, zlen in *. rewrite firstn_length, skipn_length. lia. Qed.
Lemma nth_firstn {A} (d : A) : forall n i l, (i < n)%nat -> nth i (firstn n l) d = nth i l d.
Proof. induction n as [|n IH]; intros i l H; [lia|]. destruct l as [|x l]; [reflexivity|]. destruct i as [|i]; [reflexivity|]. cbn. apply IH. lia. Qed.
Lemma nth_skipn {A} (d : A) : forall o i l, nth i (skipn o l) d = nth (o + i) l d.
Proof. induction o as [|o IH]; intros i l; [reflexivity|]. destruct l as [|x l]; [destruct i; reflexivity|]. cbn. apply IH. Qed.
Lemma part_at o e y i : 0 <= o -> 0 <= i <= e - o -> elev_at (part o e y) i = elev_at y (o + i).
Proof. intros H1 H2. unfold elev_at, part. rewrite nth_firstn by lia. rewrite nth_skipn. f_equal. lia. Qed.
Lemma floors_part o e line : floors (part o e line) = part o e (floors line).
Proof. unfold floors, part. rewrite <- firstn_map, <- skipn_map. reflexivity. Qed.

(** Every rising piece belongs to a maximal one. *)
Lemma extend y a b : 0 <= a < b -> b <= last_pt y -> (forall k, a <= k < b -> (elev_at y k < elev_at y (k + 1))%Q) ->
  exists v r, rising_run y v r /\ v <= a /\ b <= r /\
    (a = 0 \/ (elev_at y a <= elev_at y (a - 1))%Q -> v = a) /\ (b = last_pt y \/ (elev_at y (b + 1) <= elev_at y b)%Q -> r = b).
Proof.
  intros Hab Hb U.
  destruct (rise_up y (b - 1) ltac:(lia)) as (r & Hr & Ur & Er); [apply U; lia|].
  destruct (rise_down y (a + 1) ltac:(lia)) as (v & Hv & Uv & Ev); [replace (a + 1 - 1) with a by lia; apply U; lia|].
  exists v, r. split; [|split; [lia|split; [lia|split]]].
  - split; [lia|]. split; [lia|]. split; [|auto]. intros k Hk. destruct (Z_lt_ge_dec k (a + 1)); [apply Uv; lia|]. destruct (Z_lt_ge_dec k (b - 1)); [apply U; lia|apply Ur; lia].
  - intros C. destruct (Z.eq_dec v a); [assumption|]. exfalso. destruct C as [C|C]; [lia|]. specialize (Uv (a - 1) ltac:(lia)). replace (a - 1 + 1) with a in Uv by lia. lra.
  - intros C. destruct (Z.eq_dec r b); [assumption|]. exfalso. destruct C as [C|C]; [lia|]. specialize (Ur b ltac:(lia)). lra.
Qed.

Lemma rising_le y v r a b : rising_run y v r -> v <= a -> a <= b -> b <= r -> (elev_at y a <= elev_at y b)%Q.
Proof.
  intros (A & _ & C & _) Ha Hab Hb. assert (G : forall n, a + Z.of_nat n <= r -> (elev_at y a <= elev_at y (a + Z.of_nat n))%Q).
  { induction n as [|n IH]; intros Hr; [rewrite Z.add_0_r; lra|]. replace (a + Z.of_nat (S n)) with (a + Z.of_nat n + 1) by lia. pose proof (C (a + Z.of_nat n) ltac:(lia)). specialize (IH ltac:(lia)). lra. }
  specialize (G (Z.to_nat (b - a)) ltac:(lia)). replace (a + Z.of_nat (Z.to_nat (b - a))) with b in G by lia. exact G.
Qed.

Lemma stretch_hi y v r : (stretch y v r <= 3)%Q.
Proof.
  unfold stretch. destruct (_ =? _); [lra|]. unfold clamp. apply Q.max_lub; [lra|]. apply Q.le_min_l.
Qed.

Lemma reach_pos y v r ds : v < r -> (0 < ds)%Q -> (0 < hill_reach y v r ds)%Q.
Proof.
  intros H D. unfold hill_reach. pose proof (inj_pos (r - v) ltac:(lia)) as P. assert (X : (0 < inject_Z (r - v) * ds)%Q) by (apply Qmult_lt_0_compat; assumption).
  set (z := (inject_Z (r - v) * ds)%Q) in *. set (w := ((4#10) * (elev_at y r - elev_at y v))%Q).
  assert (Y : ((36#100) * (z / 2) <= Qmax ((36#100) * (z / 2)) w)%Q) by apply Q.le_max_l. assert (Z : (z / 2 == (1#2) * z)%Q) by field. lra.
Qed.

Section Cut.
Context (y : list Q) (ds : Q) (o e : Z).
Hypothesis Hd : (0 < ds)%Q.
Hypothesis Ho : 0 <= o <= e.
Hypothesis He : e <= last_pt y.
Let w := part o e y.

Lemma w_last : last_pt w = e - o.
Proof. unfold last_pt in *. unfold w. rewrite part_len; lia. Qed.
Lemma w_at i : 0 <= i <= e - o -> elev_at w i = elev_at y (o + i).
Proof. intros H. apply part_at; lia. Qed.

Lemma w_run v r : rising_run y v r -> o <= v -> r <= e -> rising_run w (v - o) (r - o).
Proof.
  intros (A & B & C & D & E) Hv Hr. unfold rising_run. rewrite w_last. split; [lia|]. split; [lia|]. split; [|split].
  - intros k Hk. rewrite !w_at by lia. replace (o + (k + 1)) with (o + k + 1) by lia. apply C. lia.
  - destruct (Z.eq_dec v o) as [->|N]; [left; lia|]. destruct D as [D|D]; [left; lia|]. right. rewrite !w_at by lia. replace (o + (v - o)) with v by lia. replace (o + (v - o - 1)) with (v - 1) by lia. exact D.
  - destruct (Z.eq_dec r e) as [->|N]; [left; lia|]. destruct E as [E|E]; [left; lia|]. right. rewrite !w_at by lia. replace (o + (r - o)) with r by lia. replace (o + (r - o + 1)) with (r + 1) by lia. exact E.
Qed.

Lemma w_negligible v r : o <= v -> v < r -> r <= e -> (negligible w (v - o) (r - o) ds <-> negligible y v r ds).
Proof.
  intros H1 H2 H3. unfold negligible. rewrite !w_at by lia. replace (o + (r - o)) with r by lia. replace (o + (v - o)) with v by lia.
  replace (r - o - (v - o)) with (r - v) by lia. tauto.
Qed.

Lemma w_stretch v r : kept y o e v r -> 0 <= v < r -> r <= last_pt y -> r <= e /\ stretch w (v - o) (r - o) = stretch y v r.
Proof.
  intros [K1 K2] H1 H2. assert (R : r <= e) by lia. split; [exact R|]. unfold stretch. rewrite w_last.
  replace (Z.min (e - o) (r - o + (r - o - (v - o)))) with (Z.min (last_pt y) (r + (r - v)) - o) by lia.
  set (b := Z.min (last_pt y) (r + (r - v))) in *. replace (b - o =? r - o) with (b =? r) by (destruct (Z.eqb_spec b r), (Z.eqb_spec (b - o) (r - o)); lia).
  destruct (b =? r) eqn:E; [reflexivity|]. rewrite !w_at by lia. replace (o + (r - o)) with r by lia. replace (o + (v - o)) with v by lia. replace (o + (b - o)) with b by lia.
  replace (r - o - (v - o)) with (r - v) by lia. replace (b - o - (r - o)) with (b - r) by lia. reflexivity.
Qed.

Lemma w_hill v r k : kept y o e v r -> 0 <= v < r -> r <= last_pt y -> hill_at w (v - o) (r - o) ds (k - o) = hill_at y v r ds k.
Proof.
  intros K H1 H2. destruct (w_stretch v r K H1 H2) as [R S]. destruct K as [K1 K2]. unfold hill_at. rewrite S, !w_at by lia.
  replace (o + (r - o)) with r by lia. replace (o + (v - o)) with v by lia. replace (r - o - (v - o)) with (r - v) by lia. replace (r - o - (k - o)) with (r - k) by lia. reflexivity.
Qed.

(** What is left of a hill reaches no further than the hill. *)
Lemma reach_le v r v' r' : rising_run y v r -> v <= o + v' -> 0 <= v' -> v' < r' -> o + r' <= r -> r' <= e - o ->
  (hill_reach w v' r' ds <= hill_reach y v r ds)%Q /\ (elev_at w r' - elev_at w v' <= elev_at y r - elev_at y v)%Q.
Proof.
  intros R H1 H0 H2 H3 H4. rewrite (w_at r'), (w_at v') by lia. pose proof (rising_le y v r v (o + v') R ltac:(lia) ltac:(lia) ltac:(lia)) as A. pose proof (rising_le y v r (o + r') r R ltac:(lia) ltac:(lia) ltac:(lia)) as B.
  split; [|lra]. unfold hill_reach. rewrite (w_at r'), (w_at v') by lia.
  assert (C : (inject_Z (r' - v') * ds <= inject_Z (r - v) * ds)%Q) by (apply Qmult_le_compat_r; [rewrite <- Zle_Qle; lia|lra]).
  set (p := (inject_Z (r' - v') * ds)%Q) in *. set (q := (inject_Z (r - v) * ds)%Q) in *.
  assert (E1 : (p / 2 == (1#2) * p)%Q) by field. assert (E2 : (q / 2 == (1#2) * q)%Q) by field.
  apply Qmult_le_l; [reflexivity|]. apply Q.max_le_compat; lra.
Qed.

(** Outside three times its reach a hill contributes 1. *)
Lemma hill_far z v r k : 0 <= v < r -> (elev_at z v < elev_at z r)%Q ->
  (inject_Z (r - k) * ds <= - (3 * hill_reach z v r ds))%Q \/ (hill_reach z v r ds <= inject_Z (r - k) * ds)%Q -> (hill_at z v r ds k == 1)%Q.
Proof.
  intros Hv Hz H. apply C40_outside; [lia|exact Hd|exact Hz|]. destruct H as [H|H]; [right|left; exact H].
  pose proof (stretch_hi z v r) as S. pose proof (reach_pos z v r ds ltac:(lia) Hd) as P.
  assert (X : (stretch z v r * hill_reach z v r ds <= 3 * hill_reach z v r ds)%Q) by (apply Qmult_le_compat_r; lra). lra.
Qed.

Lemma cut_value m mw k : o <= k < e ->
  (forall j, 0 <= j < last_pt y -> (1 <= nth (Z.to_nat j) m 0)%Q /\
    (forall v r, rising_run y v r -> ~ negligible y v r ds -> (hill_at y v r ds j <= nth (Z.to_nat j) m 0)%Q) /\
    ((nth (Z.to_nat j) m 0 == 1)%Q \/ exists v r, rising_run y v r /\ ~ negligible y v r ds /\ (nth (Z.to_nat j) m 0 == hill_at y v r ds j)%Q)) ->
  (forall j, 0 <= j < last_pt w -> (1 <= nth (Z.to_nat j) mw 0)%Q /\
    (forall v r, rising_run w v r -> ~ negligible w v r ds -> (hill_at w v r ds j <= nth (Z.to_nat j) mw 0)%Q) /\
    ((nth (Z.to_nat j) mw 0 == 1)%Q \/ exists v r, rising_run w v r /\ ~ negligible w v r ds /\ (nth (Z.to_nat j) mw 0 == hill_at w v r ds j)%Q)) ->
  enough y o e ds k -> (nth (Z.to_nat (k - o)) mw 0 == nth (Z.to_nat k) m 0)%Q.
Proof.
  intros Hk P PW N. destruct (P k ltac:(lia)) as (P1 & P2 & P3). destruct (PW (k - o) ltac:(rewrite w_last; lia)) as (W1 & W2 & W3).
  apply Qle_antisym.
  - destruct W3 as [W3|(v' & r' & R' & N' & E')]; [rewrite W3; exact P1|]. rewrite E'.
    pose proof R' as (A & B & C & D & F). rewrite w_last in B, F.
    destruct (extend y (o + v') (o + r')) as (v & r & R & Lv & Lr & Ev & Er); [lia|lia| |].
    { intros j Hj. specialize (C (j - o) ltac:(lia)). rewrite !w_at in C by lia. replace (o + (j - o)) with j in C by lia. replace (o + (j - o + 1)) with (j + 1) in C by lia. exact C. }
    pose proof (run_climbs w v' r' R') as Cl'. destruct (reach_le v r v' r' R Lv ltac:(lia) ltac:(lia) Lr ltac:(lia)) as [RL HL].
    assert (Sv : o <= v -> v = o + v').
    { intros X. destruct (Z.eq_dec v' 0) as [->|Nz]; [lia|]. apply Ev. right. destruct D as [D|D]; [lia|]. rewrite !w_at in D by lia. replace (o + (v' - 1)) with (o + v' - 1) in D by lia. exact D. }
    assert (Sr : r <= e -> r = o + r').
    { intros X. destruct (Z.eq_dec r' (e - o)) as [->|Nz]; [lia|]. apply Er. right. destruct F as [F|F]; [lia|]. rewrite !w_at in F by lia. replace (o + (r' + 1)) with (o + r' + 1) in F by lia. exact F. }
    assert (Sr2 : r > e -> o + r' = e).
    { intros X. destruct (Z.eq_dec r' (e - o)) as [->|Nz]; [lia|]. exfalso. destruct F as [F|F]; [lia|]. rewrite !w_at in F by lia. replace (o + (r' + 1)) with (o + r' + 1) in F by lia. rewrite (Er (or_intror F)) in X. lia. }
    assert (Rr : r <= last_pt y) by apply R. assert (V0 : 0 <= v < r) by apply R.
    destruct (N v r R) as [K|[K|[K1 K2]]].
    + destruct (w_stretch v r K V0 Rr) as [Re _]. pose proof (w_hill v r k K V0 Rr) as HH. rewrite (Sv (proj1 K)), (Sr Re) in HH. replace (o + v' - o) with v' in HH by lia. replace (o + r' - o) with r' in HH by lia.
      rewrite HH. apply P2; [rewrite <- (Sr Re), <- (Sv (proj1 K)); exact R|]. intros X. apply N'.
      pose proof (w_negligible (o + v') (o + r') ltac:(lia) ltac:(lia) ltac:(lia)) as Y. replace (o + v' - o) with v' in Y by lia. replace (o + r' - o) with r' in Y by lia. apply Y. exact X.
    + assert (hill_at w v' r' ds (k - o) == 1)%Q as ->; [|exact P1]. apply hill_far; [lia|exact Cl'|].
      pose proof (reach_pos y v r ds ltac:(lia) Hd) as RP. pose proof (reach_pos w v' r' ds ltac:(lia) Hd) as RP'.
      destruct K as [K|[K1 K2]].
      * left. assert (r < k). { destruct (Z_lt_ge_dec r k) as [X|X]; [exact X|]. exfalso. assert (0 <= inject_Z (r - k) * ds)%Q by (apply Qmult_le_0_compat; [change 0%Q with (inject_Z 0); rewrite <- Zle_Qle; lia|lra]). lra. }
        replace (r' - (k - o)) with (r - k) by (rewrite (Sr ltac:(lia)); lia). lra.
      * right. destruct (Z_le_gt_dec r e) as [X|X].
        -- replace (r' - (k - o)) with (r - k) by (rewrite (Sr X); lia). lra.
        -- specialize (Sr2 X). specialize (K2 ltac:(lia)). replace (r' - (k - o)) with (e - k) by lia. lra.
    + exfalso. apply N'. destruct (Z_lt_ge_dec v o) as [X|X]; [left; assert (elev_at y r - elev_at y v < 10)%Q by (apply K2; left; lia); lra|].
      destruct (Z_le_gt_dec r e) as [X'|X']; [|left; assert (elev_at y r - elev_at y v < 10)%Q by (apply K2; right; lia); lra].
      pose proof (w_negligible (o + v') (o + r') ltac:(lia) ltac:(lia) ltac:(lia)) as Y. replace (o + v' - o) with v' in Y by lia. replace (o + r' - o) with r' in Y by lia. apply Y.
      rewrite <- (Sv ltac:(lia)), <- (Sr X'). exact K1.
  - destruct P3 as [P3|(v & r & R & N' & E')]; [rewrite P3; exact W1|]. rewrite E'.
    assert (Rr : r <= last_pt y) by apply R. assert (V0 : 0 <= v < r) by apply R.
    destruct (N v r R) as [K|[K|[K1 _]]]; [| |contradiction].
    + destruct (w_stretch v r K V0 Rr) as [Re _]. rewrite <- (w_hill v r k K V0 Rr). apply W2; [apply w_run; [exact R|apply K|exact Re]|]. rewrite w_negligible; [exact N'|apply K|lia|exact Re].
    + assert (hill_at y v r ds k == 1)%Q as ->; [|exact W1]. apply hill_far; [lia|exact (run_climbs y v r R)|]. destruct K as [K|[K _]]; [left; exact K|right; exact K].
Qed.
End Cut.

Lemma cut_line line ds o e k : (0 < ds)%Q -> 0 <= o <= e -> e <= last_pt line -> o <= k < e -> enough (floors line) o e ds k ->
  exists m mw, multiplier_calc (fun x => x) line ds = Ok m /\ multiplier_calc (fun x => x) (part o e line) ds = Ok mw /\ (nth (Z.to_nat (k - o)) mw 0 == nth (Z.to_nat k) m 0)%Q.
Proof.
  intros Hd Ho He Hk N. destruct (C40_line line ds Hd) as (m & Em & _ & P). destruct (C40_line (part o e line) ds Hd) as (mw & Ew & _ & PW).
  exists m, mw. split; [exact Em|]. split; [exact Ew|]. rewrite floors_part in PW.
  assert (LP : last_pt (floors line) = last_pt line) by (unfold last_pt; rewrite floors_len; reflexivity).
  assert (LW : last_pt (part o e line) = last_pt (part o e (floors line))) by (rewrite <- floors_part; unfold last_pt; rewrite floors_len; reflexivity).
  apply (cut_value (floors line) ds o e Hd Ho ltac:(lia) m mw k Hk); [rewrite LP; exact P|rewrite <- LW; exact PW|exact N].
Qed.
