(** * The topographic stage (C41-C45). *)
From Coq Require Import Permutation Sorted.
From Verif Require Import Base BaseLemmas NameModel TerrSpec TopoModel TopoSpec TopoLineProofs TopoMhProofs TopoCalcProofs TopoPathProofs.
Open Scope Z_scope.

(** ** Writing a line back *)
Lemma fancy_set_spec (path : list Z) : forall (m a : list Q), NoDup path -> (forall k, In k path -> 0 <= k < zlen a) -> length path = length m ->
  exists a', foldM (fun a km => pyset a (fst km) (snd km)) (combine path m) a = Ok a' /\ zlen a' = zlen a /\
    (forall t k, nth_error path t = Some k -> q_at a' k = nth t m 0%Q) /\ (forall i, 0 <= i -> ~ In i path -> q_at a' i = q_at a i).
Proof.
  induction path as [|k path IH]; intros m a ND R L.
  - exists a. split; [reflexivity|]. split; [reflexivity|]. split; [intros [|t]; discriminate|reflexivity].
  - destruct m as [|v m]; [discriminate|]. cbn [combine foldM fst snd]. destruct (pyset_at a k v (R k (or_introl eq_refl))) as (a1 & -> & L1 & A1). cbn [bind].
    inversion ND as [|? ? Nk ND']; subst. destruct (IH m a1 ND') as (a' & E & L' & At & O).
    + intros x Hx. rewrite L1. apply R. right. exact Hx.
    + cbn in L. lia.
    + exists a'. split; [exact E|]. split; [lia|]. split.
      * intros [|t] x Hx; cbn in Hx.
        -- injection Hx as <-. rewrite O; [|apply R; left; reflexivity|exact Nk]. rewrite A1 by (apply R; left; reflexivity). rewrite Z.eqb_refl. reflexivity.
        -- cbn. apply At. exact Hx.
      * intros i Hi NI. rewrite O by (try assumption; intros X; apply NI; right; exact X). rewrite A1 by exact Hi.
        destruct (Z.eqb_spec i k) as [->|]; [destruct NI; left; reflexivity|reflexivity].
Qed.

Lemma mapM_pyget {A} (data : list A) dflt path : (forall k, In k path -> 0 <= k < zlen data) ->
  mapM (pyget data) path = Ok (map (fun k => nth (Z.to_nat k) data dflt) path).
Proof.
  induction path as [|k path IH]; intros H; [reflexivity|]. cbn [mapM map]. pose proof (H k (or_introl eq_refl)) as Hk.
  rewrite (pyget_nth data k (nth (Z.to_nat k) data dflt)) by (try exact Hk; apply nth_error_nth'; unfold zlen in Hk; lia). cbn [bind].
  rewrite IH by (intros; apply H; right; assumption). reflexivity.
Qed.

Section Stage.
Variables (fl : Q -> Q) (M : Z).
Hypothesis Hfl : fl_line fl M.
Variable elev : grid num.
Variable d : dir.
Variable ds : Q.
Notation nr := (g_rows elev).
Notation nc := (g_cols elev).
Hypothesis Hnr : 1 <= nr <= M.
Hypothesis Hnc : 1 <= nc <= M.
Hypothesis Hds : (0 < ds)%Q.

(** Elevations along the line starting at cell index [s]; missing counts as 0. *)
Definition elev_idx (k : Z) : Q := nan_to_zero (g_at elev (k mod nr) (k / nr)).
Definition line_of (s : Z) : list Q := map elev_idx (make_path nr nc s d).

Lemma flat_len : zlen (flat elev) = nr * nc.
Proof. unfold zlen, flat. rewrite map_length, zrange_length. nia. Qed.
Lemma flat_at k : 0 <= k < nr * nc -> nth (Z.to_nat k) (flat elev) NaN = g_at elev (k mod nr) (k / nr).
Proof.
  intros H. unfold flat. rewrite (nth_indep _ NaN (g_at elev (0 mod nr) (0 / nr))) by (rewrite map_length, zrange_length; lia).
  rewrite (map_nth (fun l => g_at elev (l mod nr) (l / nr)) (zrange (nr * nc)) 0). rewrite zrange_nth by exact H. reflexivity.
Qed.

Lemma start_path s : In s (starts nr nc d) -> NoDup (make_path nr nc s d) /\ (forall k, In k (make_path nr nc s d) -> 0 <= k < nr * nc) /\
  1 <= zlen (make_path nr nc s d) <= M.
Proof.
  intros H. apply in_starts in H; try lia. destruct H as (r & c & I & -> & _). split; [apply path_NoDup; try lia; exact I|]. split.
  - intros k Hk. apply path_in in Hk; try lia; try exact I. destruct Hk as (t & Ht & A & ->). apply idx_range; [lia|]. apply A. lia.
  - destruct (make_path_spec nr nc ltac:(lia) ltac:(lia) d r c I) as (len & L1 & -> & B & _). unfold zlen. rewrite map_length, zrange_length. split; [lia|].
    pose proof (B (len - 1) ltac:(lia)) as Z1. destruct I as [I1 I2], Z1 as [Z1 Z2]. destruct (step_bounds d) as [[B1 B2] [N|N]].
    + assert (i_incr d = 1 \/ i_incr d = -1) as [E|E] by lia; rewrite E in Z1; lia.
    + assert (j_incr d = 1 \/ j_incr d = -1) as [E|E] by lia; rewrite E in Z2; lia.
Qed.

Lemma topo_line_spec s a : In s (starts nr nc d) -> zlen a = nr * nc ->
  exists m a', multiplier_calc fl (line_of s) ds = Ok m /\ zlen m = zlen (line_of s) /\
    (forall i, 0 <= i < zlen m -> (1 <= q_at m i <= fl (171#100))%Q) /\
    topo_line fl nr nc d ds (flat elev) a s = Ok a' /\ zlen a' = zlen a /\
    (forall t k, nth_error (make_path nr nc s d) t = Some k -> q_at a' k = nth t m 0%Q) /\
    (forall i, 0 <= i -> ~ In i (make_path nr nc s d) -> q_at a' i = q_at a i).
Proof.
  intros Hs La. destruct (start_path s Hs) as (ND & R & HL).
  assert (LL : zlen (line_of s) = zlen (make_path nr nc s d)) by (unfold zlen, line_of; rewrite map_length; reflexivity).
  destruct (multiplier_calc_spec fl M Hfl ltac:(lia) (line_of s) ds Hds ltac:(lia)) as (m & Em & Lm & _ & B).
  unfold topo_line. rewrite (mapM_pyget (flat elev) NaN) by (rewrite flat_len; exact R). cbn [bind]. rewrite map_map.
  assert (EL : map (fun k => nan_to_zero (nth (Z.to_nat k) (flat elev) NaN)) (make_path nr nc s d) = line_of s).
  { unfold line_of. apply map_ext_in. intros k Hk. rewrite flat_at by (apply R; exact Hk). reflexivity. }
  rewrite EL, Em. cbn [bind]. unfold fancy_set. rewrite (proj2 (Z.eqb_eq (zlen (make_path nr nc s d)) (zlen m))) by congruence.
  destruct (fancy_set_spec (make_path nr nc s d) m a ND) as (a' & E & L' & At & O).
  - rewrite La. exact R.
  - unfold zlen in *. lia.
  - exists m, a'. split; [reflexivity|]. split; [exact Lm|]. split; [intros i Hi; apply B; lia|]. auto.
Qed.

Lemma topo_lines_spec (L : list Z) : forall a, NoDup L -> (forall s, In s L -> In s (starts nr nc d)) -> zlen a = nr * nc ->
  exists a', foldM (topo_line fl nr nc d ds (flat elev)) L a = Ok a' /\ zlen a' = zlen a /\
    (forall s, In s L -> exists m, multiplier_calc fl (line_of s) ds = Ok m /\ zlen m = zlen (line_of s) /\ (forall i, 0 <= i < zlen m -> (1 <= q_at m i <= fl (171#100))%Q) /\
        forall t k, nth_error (make_path nr nc s d) t = Some k -> q_at a' k = nth t m 0%Q) /\
    (forall i, 0 <= i -> (forall s, In s L -> ~ In i (make_path nr nc s d)) -> q_at a' i = q_at a i).
Proof.
  induction L as [|s L IH]; intros a ND HS La.
  - exists a. split; [reflexivity|]. split; [reflexivity|]. split; [intros s []|reflexivity].
  - inversion ND as [|? ? Ns ND']; subst. destruct (topo_line_spec s a (HS s (or_introl eq_refl)) La) as (m & a1 & Em & Lm & Bm & E1 & L1 & At1 & O1).
    cbn [foldM]. rewrite E1. cbn [bind]. destruct (IH a1 ND' (fun x H => HS x (or_intror H)) ltac:(lia)) as (a' & E & L' & At & O).
    exists a'. split; [exact E|]. split; [lia|]. split.
    + intros x [<-|Hx]; [|apply At; exact Hx]. exists m. split; [exact Em|]. split; [exact Lm|]. split; [exact Bm|]. intros t k Hk. rewrite <- (At1 t k Hk).
      assert (Ik : In k (make_path nr nc s d)) by (eapply nth_error_In; eauto).
      apply O; [apply (start_path s (HS s (or_introl eq_refl))); exact Ik|]. intros s' Hs' Ik'. apply Ns.
      pose proof (HS s (or_introl eq_refl)) as J. pose proof (HS s' (or_intror Hs')) as J'. apply in_starts in J, J'; try lia.
      destruct J as (r & c & J & -> & Ed), J' as (r' & c' & J' & -> & Ed').
      destruct (lines_disjoint nr nc ltac:(lia) ltac:(lia) d r c r' c' k J J' Ed Ed' Ik Ik') as [-> ->]. exact Hs'.
    + intros i Hi NI. rewrite O by (try assumption; intros; apply NI; right; assumption). apply O1; [exact Hi|]. apply NI. left. reflexivity.
Qed.

(** The raw line multipliers of the whole raster. *)
Lemma raw_spec : exists a, foldM (topo_line fl nr nc d ds (flat elev)) (starts nr nc d) (ones (zlen (flat elev))) = Ok a /\ zlen a = nr * nc /\
  (forall s, In s (starts nr nc d) -> exists m, multiplier_calc fl (line_of s) ds = Ok m /\ zlen m = zlen (line_of s) /\
      forall t k, nth_error (make_path nr nc s d) t = Some k -> q_at a k = nth t m 0%Q) /\
  (forall i, 0 <= i < nr * nc -> (1 <= q_at a i <= fl (171#100))%Q).
Proof.
  assert (P : 0 <= nr * nc) by nia. rewrite flat_len.
  destruct (topo_lines_spec (starts nr nc d) (ones (nr * nc)) (starts_NoDup nr nc d) (fun s H => H) (ones_len _ P)) as (a & E & L & At & _).
  rewrite ones_len in L by exact P. exists a. split; [exact E|]. split; [exact L|]. split.
  - intros s Hs. destruct (At s Hs) as (m & A & B & _ & C). exists m. auto.
  - intros i Hi. assert (I : In i (flat_map (fun s => make_path nr nc s d) (starts nr nc d))).
    { eapply Permutation_in; [apply Permutation_sym, partition; lia|]. apply in_zrange. exact Hi. }
    apply in_flat_map in I. destruct I as (s & Hs & I). destruct (At s Hs) as (m & _ & Lm & Bm & C). apply In_nth_error in I. destruct I as (t & Ht).
    rewrite (C t i Ht). assert (T : (t < length (make_path nr nc s d))%nat) by (apply nth_error_Some; congruence).
    unfold zlen, line_of in Lm. rewrite map_length in Lm. specialize (Bm (Z.of_nat t)). unfold q_at in Bm. rewrite Nat2Z.id in Bm. apply Bm. unfold zlen. lia.
Qed.
End Stage.

(** ** Pointwise functions *)
Lemma cons_id x : (x <= 1)%Q -> remove_conservatism x = x.
Proof.
  intros H. unfold remove_conservatism. rewrite (proj2 (Qltb_ge 1 x)) by lra. rewrite (proj2 (Qleb_gt (14#10) x)) by lra. reflexivity.
Qed.
Lemma cons_shallow x : (1 <= x <= 14#10)%Q -> (remove_conservatism x == x * ((125#100) - (25#100) * x))%Q.
Proof.
  intros H. unfold remove_conservatism. destruct (Qltb 1 x) eqn:A; [apply Qltb_lt in A|apply Qltb_ge in A].
  - destruct (Qltb x (14#10)) eqn:B; [reflexivity|apply Qltb_ge in B]. assert (E : (x == 14#10)%Q) by lra. cbn [andb].
    rewrite (proj2 (Qleb_le (14#10) x)) by lra. rewrite E. reflexivity.
  - assert (E : (x == 1)%Q) by lra. cbn [andb]. rewrite (proj2 (Qleb_gt (14#10) x)) by lra. rewrite E. reflexivity.
Qed.
Lemma cons_steep x : (14#10 <= x)%Q -> (remove_conservatism x == x * (9#10))%Q.
Proof.
  intros H. unfold remove_conservatism. rewrite (proj2 (Qltb_ge x (14#10))) by lra. rewrite andb_false_r. rewrite (proj2 (Qleb_le (14#10) x)) by lra. reflexivity.
Qed.
Lemma cons_mono x y : (x <= y)%Q -> (remove_conservatism x <= remove_conservatism y)%Q.
Proof.
  intros H.
  assert (S : forall a b, (1 <= a)%Q -> (a <= b)%Q -> (b <= 14#10)%Q -> (a * ((125#100) - (25#100) * a) <= b * ((125#100) - (25#100) * b))%Q).
  { intros a b H1 H2 H3. assert (P : (0 <= (b - a) * ((125#100) - (25#100) * (a + b)))%Q) by (apply Qmult_le_0_compat; lra). lra. }
  assert (K1 : (1 * ((125#100) - (25#100) * 1) == 1)%Q) by reflexivity.
  assert (K2 : ((14#10) * ((125#100) - (25#100) * (14#10)) == (14#10) * (9#10))%Q) by reflexivity.
  destruct (Qlt_le_dec x 1) as [X1|X1]; [rewrite (cons_id x) by lra|].
  - destruct (Qlt_le_dec y 1) as [Y1|Y1]; [rewrite (cons_id y) by lra; exact H|]. destruct (Qlt_le_dec y (14#10)) as [Y2|Y2].
    + rewrite (cons_shallow y) by lra. pose proof (S 1%Q y ltac:(lra) Y1 ltac:(lra)). lra.
    + rewrite (cons_steep y) by lra. lra.
  - destruct (Qlt_le_dec x (14#10)) as [X2|X2].
    + rewrite (cons_shallow x) by lra. destruct (Qlt_le_dec y (14#10)) as [Y2|Y2].
      * rewrite (cons_shallow y) by lra. apply S; lra.
      * rewrite (cons_steep y) by lra. pose proof (S x (14#10) X1 ltac:(lra) ltac:(lra)). lra.
    + rewrite (cons_steep x), (cons_steep y) by lra. lra.
Qed.
Lemma cons_reduces x : (0 <= x)%Q -> (remove_conservatism x <= x)%Q.
Proof.
  intros H. destruct (Qlt_le_dec x 1) as [X1|X1]; [rewrite (cons_id x) by lra; lra|]. destruct (Qlt_le_dec x (14#10)) as [X2|X2].
  - rewrite (cons_shallow x) by lra. assert (P : (0 <= x * (x - 1))%Q) by (apply Qmult_le_0_compat; lra). lra.
  - rewrite (cons_steep x) by lra. lra.
Qed.

Lemma tasmania_eq x e : (tasmania x e == x * tas_factor true e)%Q.
Proof. destruct e as [|h]; cbn; [ring|]. destruct (Qltb 500 h); ring. Qed.

(** ** Smoothing *)
Lemma smooth_eq g r c :
  (g_at (smooth g) r c == total (map (fun p => g_at g (fst p) (snd p)) (around (g_rows g) (g_cols g) r c)) / 9)%Q.
Proof.
  unfold smooth, around. cbn [g_at]. 
  set (F := fun o : Z * Z => (r + fst o, c + snd o)). set (I := fun p : Z * Z => (0 <=? fst p) && (fst p <? g_rows g) && ((0 <=? snd p) && (snd p <? g_cols g))).
  assert (G : forall l : list (Z * Z), (fold_right (fun o s => qget g (r + fst o)%Z (c + snd o)%Z * (1 / 9) + s) 0 l ==
    total (map (fun p => g_at g (fst p) (snd p)) (filter I (map F l))) / 9)%Q).
  { induction l as [|o l IH]; [reflexivity|]. cbn [fold_right map filter]. rewrite IH. unfold qget. change ((0 <=? r + fst o) && (r + fst o <? g_rows g) && ((0 <=? c + snd o) && (c + snd o <? g_cols g))) with (I (F o)).
    destruct (I (F o)); cbn [map total fold_right fst snd F]; fold (total (map (fun p => g_at g (fst p) (snd p)) (filter I (map F l)))); field. }
  rewrite G. unfold F. cbn [map fst snd]. rewrite !Z.add_0_r. reflexivity.
Qed.
Lemma total_bounds l lo hi : (forall x, In x l -> (lo <= x <= hi)%Q) -> (inject_Z (zlen l) * lo <= total l <= inject_Z (zlen l) * hi)%Q.
Proof.
  induction l as [|x l IH]; intros H; [unfold zlen; cbn [length Z.of_nat total fold_right]; change (inject_Z 0) with 0%Q; split; lra|]. specialize (IH (fun y K => H y (or_intror K))). pose proof (H x (or_introl eq_refl)) as Hx.
  cbn [total fold_right]. fold (total l). assert (E : (inject_Z (zlen (x :: l)) == 1 + inject_Z (zlen l))%Q).
  { replace (zlen (x :: l)) with (1 + zlen l) by (unfold zlen; cbn [length]; lia). rewrite inject_Z_plus. reflexivity. }
  rewrite E. lra.
Qed.
Lemma around_interior rows cols r c : 0 < r < rows - 1 -> 0 < c < cols - 1 -> zlen (around rows cols r c) = 9.
Proof.
  intros Hr Hc. unfold around. cbn [filter fst snd].
  repeat match goal with |- context [?a <=? ?b] => rewrite (proj2 (Z.leb_le a b)) by lia | |- context [?a <? ?b] => rewrite (proj2 (Z.ltb_lt a b)) by lia end. reflexivity.
Qed.
Lemma around_least rows cols r c : 2 <= rows -> 2 <= cols -> 0 <= r < rows -> 0 <= c < cols -> 4 <= zlen (around rows cols r c) <= 9.
Proof.
  intros H1 H2 Hr Hc.
  assert (R : (0 <= r - 1) \/ (r + 1 < rows)) by lia. assert (C : (0 <= c - 1) \/ (c + 1 < cols)) by lia.
  unfold around. cbn [filter fst snd].
  rewrite (proj2 (Z.leb_le 0 r)), (proj2 (Z.ltb_lt r rows)), (proj2 (Z.leb_le 0 c)), (proj2 (Z.ltb_lt c cols)) by lia.
  rewrite (proj2 (Z.ltb_lt (r - 1) rows)), (proj2 (Z.ltb_lt (c - 1) cols)), (proj2 (Z.leb_le 0 (r + 1))), (proj2 (Z.leb_le 0 (c + 1))) by lia.
  destruct (Z.leb_spec 0 (r - 1)), (Z.ltb_spec (r + 1) rows), (Z.leb_spec 0 (c - 1)), (Z.ltb_spec (c + 1) cols); cbn; try lia.
Qed.
Lemma in_around rows cols r c p : In p (around rows cols r c) -> 0 <= fst p < rows /\ 0 <= snd p < cols.
Proof. unfold around. rewrite filter_In, !andb_true_iff, !Z.leb_le, !Z.ltb_lt. tauto. Qed.

(** ** One direction and the whole stage *)
Definition spacing (fl : Q -> Q) (sqrt2 cellsize : Q) (d : dir) : Q :=
  match d with NE | NW | SE | SW => fl (cellsize * sqrt2)%Q | _ => cellsize end.
Definition box_field (x_left y_upper : Q) (elev : grid num) (raw : grid Q) (r c : Z) : Q :=
  (remove_conservatism (g_at raw r c) * tas_factor (in_tasmania x_left y_upper) (g_at elev r c))%Q.

Lemma total_ext {A} (f g : A -> Q) l : (forall x, In x l -> (f x == g x)%Q) -> (total (map f l) == total (map g l))%Q.
Proof. induction l as [|x l IH]; intros H; [reflexivity|]. cbn. rewrite (H x (or_introl eq_refl)). unfold total in IH. rewrite IH; [reflexivity|]. intros. apply H. right. assumption. Qed.

Lemma topo_dir_spec fl M sqrt2 cellsize x_left y_upper elev d : fl_line fl M -> (0 < sqrt2)%Q -> (0 < cellsize)%Q ->
  1 <= g_rows elev <= M -> 1 <= g_cols elev <= M ->
  exists raw o, topo_dir fl sqrt2 cellsize x_left y_upper elev d = Ok o /\
    g_rows raw = g_rows elev /\ g_cols raw = g_cols elev /\ g_rows o = g_rows elev /\ g_cols o = g_cols elev /\
    (forall s, In s (starts (g_rows elev) (g_cols elev) d) -> exists m,
        multiplier_calc fl (line_of elev d s) (spacing fl sqrt2 cellsize d) = Ok m /\ zlen m = zlen (line_of elev d s) /\
        forall t k, nth_error (make_path (g_rows elev) (g_cols elev) s d) t = Some k -> g_at raw (k mod g_rows elev) (k / g_rows elev) = nth t m 0%Q) /\
    (forall r c, 0 <= r < g_rows elev -> 0 <= c < g_cols elev -> (1 <= g_at raw r c <= fl (171#100))%Q) /\
    (forall r c, g_at elev r c = NaN -> g_at o r c = NaN) /\
    (forall r c h, g_at elev r c = Num h -> exists q, g_at o r c = Num q /\
        (q == total (map (fun p => box_field x_left y_upper elev raw (fst p) (snd p)) (around (g_rows elev) (g_cols elev) r c)) / 9)%Q).
Proof.
  intros Hfl Hs Hc Hnr Hnc.
  assert (HM : 1 <= M) by lia.
  assert (Hds : (0 < spacing fl sqrt2 cellsize d)%Q).
  { assert (K : (0 < fl (cellsize * sqrt2))%Q) by (apply (f_pos fl M Hfl); apply Qmult_lt_0_compat; assumption). unfold spacing. destruct d; assumption. }
  destruct (raw_spec fl M Hfl elev d (spacing fl sqrt2 cellsize d) Hnr Hnc Hds) as (a & Ea & La & Ls & B).
  set (nr := g_rows elev) in *. set (nc := g_cols elev) in *.
  unfold topo_dir. fold nr nc. change (match d with NE | NW | SE | SW => _ | _ => _ end) with (spacing fl sqrt2 cellsize d). rewrite Ea. cbn [bind].
  exists (unflat nr nc a). eexists. split; [reflexivity|]. cbn [g_rows g_cols g_at]. do 4 (split; [reflexivity|]). split; [|split; [|split]].
  - intros s Hs'. destruct (Ls s Hs') as (m & Em & Lm & At). exists m. split; [exact Em|]. split; [exact Lm|]. intros t k Hk. rewrite <- (At t k Hk). unfold unflat, q_at. cbn [g_at].
    f_equal. f_equal. pose proof (Z.div_mod k nr ltac:(lia)). lia.
  - intros r c Hr Hc'. unfold unflat. cbn [g_at]. apply (B (c * nr + r)). nia.
  - intros r c ->. reflexivity.
  - intros r c h ->. eexists. split; [reflexivity|]. rewrite smooth_eq.
    destruct (in_tasmania x_left y_upper) eqn:ET; cbn [g_rows g_cols g_at gmap unflat].
    + apply Qdiv_comp; [|reflexivity]. apply total_ext. intros p _. unfold box_field. rewrite ET. rewrite tasmania_eq. cbn [gmap unflat g_at]. reflexivity.
    + apply Qdiv_comp; [|reflexivity]. apply total_ext. intros p _. unfold box_field. rewrite ET.
      destruct (g_at elev (fst p) (snd p)); cbn [tas_factor andb unflat g_at]; ring.
Qed.
