(** * The shielding multiplier of turned rasters. *)
From Coq Require Import Permutation.
From Verif Require Import Base BaseLemmas NameModel TerrSpec TerrModel TerrProofs ShldModel ShldSpec ShldProofs ShldKernProofs ShldRunProofs ShldProps
  SlopeSpec SlopeProofs TurnSpec TurnProofs TurnTopoProofs.
From Coq Require Import Lia Lqa.
Open Scope Z_scope.

Lemma lin_shield s d k p : In p (shield_cells d k) <-> In (lin s p) (shield_cells (turn_dir s d) k).
Proof.
  rewrite !in_shield. destruct p as [x y], s as [v h e]. unfold lin. cbn [rows_reversed cols_reversed exchanged fst snd].
  destruct v, h, e, d; cbn [fst snd turn_dir rows_reversed cols_reversed exchanged north_for_south east_for_west north_for_west P_]; unfold in_card, in_diag;
    rewrite ?orb_true_iff, !andb_true_iff, !Z.leb_le, ?Z.ltb_lt, ?Z.eqb_eq; lia.
Qed.
Lemma lin_inj s p q : lin s p = lin s q -> p = q.
Proof.
  destruct s as [v h e], p as [a b], q as [a' b']. unfold lin. cbn [rows_reversed cols_reversed exchanged fst snd].
  destruct v, h, e; intros E; injection E; intros; f_equal; lia.
Qed.
Lemma shield_turned s d k : 1 <= k -> Permutation (shield_cells (turn_dir s d) k) (map (lin s) (shield_cells d k)).
Proof.
  intros Hk. symmetry. apply NoDup_Permutation_bis.
  - apply FinFun.Injective_map_NoDup; [intros p q; apply lin_inj|apply shield_NoDup].
  - rewrite map_length. pose proof (shield_length d k Hk) as A. pose proof (shield_length (turn_dir s d) k Hk) as B. rewrite turn_dir_diagonal in B. unfold zlen in *. lia.
  - intros q Hq. apply in_map_iff in Hq. destruct Hq as (p & <- & Hp). apply lin_shield. exact Hp.
Qed.

Lemma seen_turned s im im' p : turned s im im' -> let q := place s (g_rows im) (g_cols im) p in seen im' (fst q) (snd q) = seen im (fst p) (snd p).
Proof.
  intros T. cbn zeta. unfold seen. rewrite <- !surjective_pairing, (turned_inside eq s im im' p T). destruct (inside _ _ p) eqn:I; [|reflexivity].
  destruct T as (_ & _ & H). destruct p as [r c]. symmetry. exact (H r c I).
Qed.
Lemma mean_turned s d k im im' i j : 1 <= k -> turned s im im' -> let q := place s (g_rows im) (g_cols im) (i, j) in
  same_num (num_mean (map (fun p => seen im' (fst q + fst p) (snd q + snd p)) (shield_cells (turn_dir s d) k)))
           (num_mean (map (fun p => seen im (i + fst p) (j + snd p)) (shield_cells d k))).
Proof.
  intros Hk T. cbn zeta. set (q := place s (g_rows im) (g_cols im) (i, j)). eapply same_num_trans.
  - apply num_mean_perm. apply Permutation_map. apply (shield_turned s d k Hk).
  - rewrite map_map. erewrite map_ext; [apply same_num_refl|]. intros o. cbv beta.
    pose proof (place_lin s (g_rows im) (g_cols im) i j o) as P. cbn zeta in P. fold q in P.
    pose proof (seen_turned s im im' (i + fst o, j + snd o) T) as S. cbn zeta in S. rewrite P in S. exact S.
Qed.

(** ** Slope and aspect *)
Lemma border_rev n k : 1 <= n -> border n (n - 1 - k) = n - 1 - border n k.
Proof. unfold border. lia. Qed.
Lemma border_inside n m p : 1 <= n -> 1 <= m -> inside n m (border n (fst p), border m (snd p)) = true.
Proof. intros. apply inside_iff. cbn. unfold border. lia. Qed.
Lemma at_turned s g g' p : 1 <= g_rows g -> 1 <= g_cols g -> turned s g g' ->
  let q := place s (g_rows g) (g_cols g) p in at_border g' (fst q) (snd q) = at_border g (fst p) (snd p).
Proof.
  intros Hr Hc (E1 & E2 & H). cbn zeta. unfold at_border. pose proof (H _ _ (border_inside (g_rows g) (g_cols g) p Hr Hc)) as K. cbn zeta in K. rewrite K. f_equal;
    rewrite ?E1, ?E2; destruct s as [v h e], p as [a b]; unfold place; cbn [rows_reversed cols_reversed exchanged fst snd];
    destruct v, h, e; cbn [fst snd]; rewrite ?border_rev by lia; reflexivity.
Qed.

Definition sign (b : bool) : Q := if b then (-1)%Q else 1%Q.
Ltac nan_away := repeat match goal with
  | |- context [nadd ?x NaN] => replace (nadd x NaN) with NaN by (destruct x; reflexivity)
  | |- context [nadd NaN ?x] => change (nadd NaN x) with NaN
  | |- context [nscale ?k NaN] => change (nscale k NaN) with NaN end.

Lemma sobel_turned s g g' r c : inside (g_rows g) (g_cols g) (r, c) = true -> turned s g g' ->
  let p := place s (g_rows g) (g_cols g) (r, c) in
  same_num (sobel_x g' (fst p) (snd p)) (if exchanged s then nscale (sign (rows_reversed s)) (sobel_y g r c) else nscale (sign (cols_reversed s)) (sobel_x g r c)) /\
  same_num (sobel_y g' (fst p) (snd p)) (if exchanged s then nscale (sign (cols_reversed s)) (sobel_x g r c) else nscale (sign (rows_reversed s)) (sobel_y g r c)).
Proof.
  intros I T. cbn zeta. pose proof (turned_inside eq s g g' (r, c) T) as I'. rewrite I in I'.
  set (p := place s (g_rows g) (g_cols g) (r, c)) in *. apply inside_iff in I'. apply inside_iff in I. cbn [fst snd] in I.
  assert (W : forall o, at_border g' (fst p + fst (lin s o)) (snd p + snd (lin s o)) = at_border g (r + fst o) (c + snd o)).
  { intros o. pose proof (at_turned s g g' (r + fst o, c + snd o)) as A. cbn zeta in A. cbn [fst snd] in A. rewrite <- A; [|lia|lia|exact T].
    pose proof (place_lin s (g_rows g) (g_cols g) r c o) as P. cbn zeta in P. fold p in P. rewrite P. reflexivity. }
  rewrite (sobel_x_nine g' (fst p) (snd p)), (sobel_y_nine g' (fst p) (snd p)) by lia. rewrite (sobel_x_nine g r c), (sobel_y_nine g r c) by lia. cbv zeta.
  set (F' := fun i j => at_border g' (fst p + i) (snd p + j)) in *. set (F := fun i j => at_border g (r + i) (c + j)) in *.
  assert (A' : forall i j, at_border g' (fst p + i) (snd p + j) = F' i j) by reflexivity.
  assert (A : forall i j, at_border g (r + i) (c + j) = F i j) by reflexivity.
  assert (W1 : forall i j, F' (fst (lin s (i, j))) (snd (lin s (i, j))) = F i j) by (intros i j; exact (W (i, j))).
  assert (X : forall z, z - 1 = z + -1) by (intros; lia).
  assert (A0 : forall i, at_border g' (fst p + i) (snd p) = F' i 0) by (intros; unfold F'; rewrite Z.add_0_r; reflexivity).
  assert (A1 : forall j, at_border g' (fst p) (snd p + j) = F' 0 j) by (intros; unfold F'; rewrite Z.add_0_r; reflexivity).
  assert (A2 : at_border g' (fst p) (snd p) = F' 0 0) by (unfold F'; rewrite !Z.add_0_r; reflexivity).
  assert (B0 : forall i, at_border g (r + i) c = F i 0) by (intros; unfold F; rewrite Z.add_0_r; reflexivity).
  assert (B1 : forall j, at_border g r (c + j) = F 0 j) by (intros; unfold F; rewrite Z.add_0_r; reflexivity).
  assert (B2 : at_border g r c = F 0 0) by (unfold F; rewrite !Z.add_0_r; reflexivity).
  rewrite !X, !A', !A, !A0, !A1, !A2, !B0, !B1, !B2. clearbody F F'. clear - W1.
  destruct s as [v h e]. unfold lin in W1. cbn [rows_reversed cols_reversed exchanged fst snd] in W1.
  pose proof (W1 (-1) (-1)) as E1. pose proof (W1 (-1) 0) as E2. pose proof (W1 (-1) 1) as E3. pose proof (W1 0 (-1)) as E4. pose proof (W1 0 0) as E5.
  pose proof (W1 0 1) as E6. pose proof (W1 1 (-1)) as E7. pose proof (W1 1 0) as E8. pose proof (W1 1 1) as E9. clear W1.
  destruct v, h, e; cbn [rows_reversed cols_reversed exchanged fst snd Z.opp] in *; rewrite E1, E2, E3, E4, E5, E6, E7, E8, E9; clear;
    (destruct (F (-1) (-1)); [nan_away; split; exact Logic.I|]); (destruct (F (-1) 0); [nan_away; split; exact Logic.I|]); (destruct (F (-1) 1); [nan_away; split; exact Logic.I|]);
    (destruct (F 0 (-1)); [nan_away; split; exact Logic.I|]); (destruct (F 0 0); [nan_away; split; exact Logic.I|]); (destruct (F 0 1); [nan_away; split; exact Logic.I|]);
    (destruct (F 1 (-1)); [nan_away; split; exact Logic.I|]); (destruct (F 1 0); [nan_away; split; exact Logic.I|]); (destruct (F 1 1); [nan_away; split; exact Logic.I|]);
    cbn [nadd nscale same_num sign]; split; ring.
Qed.

Lemma class_not_dir x d : reclassify_aspect x = dire_aspect d -> exists a, x = Num a /\ (0 <= a <= 360)%Q.
Proof.
  intros H. destruct x as [|a]; [destruct (C28_no_direction NaN Logic.I) as [E N]; rewrite E in H; destruct (N d (eq_sym H))|].
  exists a. split; [reflexivity|]. split; apply Qnot_lt_le; intros L; destruct (C28_no_direction (Num a)) as [E N]; cbn; auto; rewrite E in H; exact (N d (eq_sym H)).
Qed.
Lemma weight_comp x y : (x == y)%Q -> (slope_weight x == slope_weight y)%Q.
Proof.
  intros E. unfold slope_weight. destruct (Qleb x (327#100)) eqn:A, (Qleb y (327#100)) eqn:B;
    first [apply Qleb_le in A|apply Qleb_gt in A]; first [apply Qleb_le in B|apply Qleb_gt in B]; try reflexivity; try (exfalso; lra).
  destruct (Qleb (1230#100) x) eqn:C, (Qleb (1230#100) y) eqn:D;
    first [apply Qleb_le in C|apply Qleb_gt in C]; first [apply Qleb_le in D|apply Qleb_gt in D]; try reflexivity; try (exfalso; lra). rewrite E. reflexivity.
Qed.
Lemma conservative_comp x y : (x == y)%Q -> (less_conservative x == less_conservative y)%Q.
Proof.
  intros E. unfold less_conservative. destruct (Qltb x (9#10)) eqn:A, (Qltb y (9#10)) eqn:B;
    first [apply Qltb_lt in A|apply Qltb_ge in A]; first [apply Qltb_lt in B|apply Qltb_ge in B]; try (exfalso; lra); rewrite E; reflexivity.
Qed.

Lemma slope_turned s slope_fn aspect_fn nodata dem dem' px py px' py' xm ym xm' ym' r c :
  inside (g_rows dem) (g_cols dem) (r, c) = true -> turned s dem dem' -> even_handed s slope_fn aspect_fn ->
  let p := place s (g_rows dem) (g_cols dem) (r, c) in
  (if exchanged s then px' = py /\ py' = px /\ g_at xm' (fst p) (snd p) = g_at ym r c /\ g_at ym' (fst p) (snd p) = g_at xm r c
   else px' = px /\ py' = py /\ g_at xm' (fst p) (snd p) = g_at xm r c /\ g_at ym' (fst p) (snd p) = g_at ym r c) ->
  let '(slope, aspect) := get_slope_aspect slope_fn aspect_fn nodata dem px py xm ym in
  let '(slope', aspect') := get_slope_aspect slope_fn aspect_fn nodata dem' px' py' xm' ym' in
  same_num (g_at slope' (fst p) (snd p)) (g_at slope r c) /\
  forall q d, g_at slope r c = Num q -> (327#100 < q)%Q -> (g_at aspect' (fst p) (snd p) = dire_aspect (turn_dir s d) <-> g_at aspect r c = dire_aspect d).
Proof.
  intros I T EH. cbn zeta. set (p := place s (g_rows dem) (g_cols dem) (r, c)). intros S.
  unfold get_slope_aspect. cbv zeta. cbn [g_at].
  assert (Tm : turned s (mask_nodata nodata dem) (mask_nodata nodata dem')) by (apply turned_gmap; exact T).
  destruct (sobel_turned s (mask_nodata nodata dem) (mask_nodata nodata dem') r c I Tm) as [Sx Sy]. cbn [mask_nodata gmap g_rows g_cols] in Sx, Sy. fold (mask_nodata nodata dem) (mask_nodata nodata dem') in Sx, Sy. fold p in Sx, Sy.
  pose proof Tm as (_ & _ & Hm). specialize (Hm r c I). cbn zeta in Hm. cbn [mask_nodata gmap g_rows g_cols] in Hm. fold p in Hm. fold (mask_nodata nodata dem) (mask_nodata nodata dem') in Hm.
  rewrite <- Hm. clear Hm Tm.
  set (sx := sobel_x (mask_nodata nodata dem) r c) in *. set (sy := sobel_y (mask_nodata nodata dem) r c) in *.
  set (sx' := sobel_x (mask_nodata nodata dem') (fst p) (snd p)) in *. set (sy' := sobel_y (mask_nodata nodata dem') (fst p) (snd p)) in *.
  clearbody sx sy sx' sy'.
  set (x := g_at xm r c) in *. set (y := g_at ym r c) in *. set (x' := g_at xm' (fst p) (snd p)) in *. set (y' := g_at ym' (fst p) (snd p)) in *. clearbody x y x' y'.
  assert (Z : forall a b a' b', sx = Num a -> sy = Num b -> sx' = Num a' -> sy' = Num b' ->
     (px' / x' * (1 / (8 * px') * a') == fst (turn_gradient s (px / x * (1 / (8 * px) * a), py / y * (1 / (8 * py) * b))) /\
      py' / y' * (1 / (8 * py') * b') == snd (turn_gradient s (px / x * (1 / (8 * px) * a), py / y * (1 / (8 * py) * b))))%Q).
  { intros a b a' b' -> -> -> ->. destruct s as [v h e]. unfold turn_gradient. cbn [rows_reversed cols_reversed exchanged fst snd] in *.
    destruct e; destruct S as (-> & -> & -> & ->); cbn [same_num nscale] in Sx, Sy; rewrite Sx, Sy; destruct v, h; cbn [sign fst snd]; split; ring. }
  assert (N : (sx = NaN \/ sy = NaN) <-> (sx' = NaN \/ sy' = NaN)).
  { destruct s as [v h e]. cbn [rows_reversed cols_reversed exchanged] in Sx, Sy. clear - Sx Sy. destruct e; destruct sx, sy, sx', sy'; cbn in Sx, Sy; try contradiction; intuition congruence. }
  destruct sx as [|a].
  { assert (X : sx' = NaN \/ sy' = NaN) by (apply N; left; reflexivity). cbn [nscale]. destruct (g_at (mask_nodata nodata dem) r c).
    - split; [exact Logic.I|]. intros ? ? E. discriminate.
    - destruct X as [-> | ->]; cbn [nscale]; [|destruct (nscale _ (nscale _ sx'))]; (split; [exact Logic.I|]); intros ? ? E; discriminate. }
  destruct sy as [|b].
  { assert (X : sx' = NaN \/ sy' = NaN) by (apply N; right; reflexivity). cbn [nscale]. destruct (g_at (mask_nodata nodata dem) r c).
    - split; [exact Logic.I|]. intros ? ? E. discriminate.
    - destruct X as [-> | ->]; cbn [nscale]; [|destruct (nscale _ (nscale _ sx'))]; (split; [exact Logic.I|]); intros ? ? E; discriminate. }
  destruct sx' as [|a']; [exfalso; destruct N as [_ N]; destruct (N (or_introl eq_refl)); discriminate|].
  destruct sy' as [|b']; [exfalso; destruct N as [_ N]; destruct (N (or_intror eq_refl)); discriminate|].
  destruct (Z a b a' b' eq_refl eq_refl eq_refl eq_refl) as [Z1 Z2]. cbn [nscale].
  destruct (EH _ _ _ _ Z1 Z2) as [EH1 EH2].
  destruct (g_at (mask_nodata nodata dem) r c); [split; [exact Logic.I|intros q d E; discriminate]|]. cbn [same_num]. split; [exact EH1|].
  intros q0 d E L. injection E as <-. destruct (EH2 L) as (R1 & R2 & K). rewrite !aspect_class by assumption. symmetry. apply K.
Qed.

Lemma shield_turned_all s slope_fn aspect_fn fl cast table tnd terr terr' dnd dem dem' px py px' py' xm ym xm' ym' gw :
  fl_ok fl -> (0 < gw)%Q -> (gw <= 100)%Q -> even_handed s slope_fn aspect_fn ->
  turned s terr terr' -> turned s dem dem' -> g_rows dem = g_rows terr -> g_cols dem = g_cols terr ->
  (forall r c, inside (g_rows terr) (g_cols terr) (r, c) = true -> let p := place s (g_rows terr) (g_cols terr) (r, c) in
     if exchanged s then px' = py /\ py' = px /\ g_at xm' (fst p) (snd p) = g_at ym r c /\ g_at ym' (fst p) (snd p) = g_at xm r c
     else px' = px /\ py' = py /\ g_at xm' (fst p) (snd p) = g_at xm r c /\ g_at ym' (fst p) (snd p) = g_at ym r c) ->
  turned_results s (shield slope_fn aspect_fn fl cast table tnd terr dnd dem px py xm ym gw)
                   (shield slope_fn aspect_fn fl cast table tnd terr' dnd dem' px' py' xm' ym' gw).
Proof.
  intros Hf Hg Hw EH Tt Td Er Ec P.
  pose proof (C31_tile slope_fn aspect_fn fl cast table tnd terr dnd dem px py xm ym gw Hf Hg Hw) as C.
  pose proof (C31_tile slope_fn aspect_fn fl cast table tnd terr' dnd dem' px' py' xm' ym' gw Hf Hg Hw) as C'.
  assert (ST : forall r c, inside (g_rows terr) (g_cols terr) (r, c) = true -> let p := place s (g_rows terr) (g_cols terr) (r, c) in
    let '(slope, aspect) := get_slope_aspect slope_fn aspect_fn dnd dem px py xm ym in
    let '(slope', aspect') := get_slope_aspect slope_fn aspect_fn dnd dem' px' py' xm' ym' in
    same_num (g_at slope' (fst p) (snd p)) (g_at slope r c) /\
    forall q d, g_at slope r c = Num q -> (327#100 < q)%Q -> (g_at aspect' (fst p) (snd p) = dire_aspect (turn_dir s d) <-> g_at aspect r c = dire_aspect d)).
  { intros r c I. cbn zeta. rewrite <- Er, <- Ec in *. apply (slope_turned s); try assumption. exact (P r c I). }
  destruct (get_slope_aspect slope_fn aspect_fn dnd dem px py xm ym) as [slope aspect].
  destruct (get_slope_aspect slope_fn aspect_fn dnd dem' px' py' xm' ym') as [slope' aspect'].
  cbv zeta in C, C'. destruct C as [ND C], C' as [_ C']. intros d o I.
  destruct (C d) as (o1 & I1 & R & Cc & V). assert (o1 = o) as ->.
  { clear - ND I I1. revert ND I I1. generalize (shield slope_fn aspect_fn fl cast table tnd terr dnd dem px py xm ym gw) as l. induction l as [|[d0 o0] l IH]; cbn [map In fst]; [tauto|].
    intros ND I I1. inversion ND as [|? ? N1 N2]; subst. destruct I as [I|I], I1 as [I1|I1]; try congruence; try (apply IH; assumption).
    - injection I as -> ->. destruct N1. apply in_map_iff. exists (d, o1). auto.
    - injection I1 as -> ->. destruct N1. apply in_map_iff. exists (d, o). auto. }
  destruct (C' (turn_dir s d)) as (o' & I' & R' & Cc' & V'). exists o'. split; [exact I'|].
  pose proof Tt as (E1 & E2 & H). split; [rewrite R', E1, R, Cc; reflexivity|]. split; [rewrite Cc', E2, R, Cc; reflexivity|].
  rewrite R, Cc. intros r c Irc. cbn zeta. set (p := place s (g_rows terr) (g_cols terr) (r, c)) in *.
  pose proof (ST r c Irc) as [St1 St2]. fold p in St1, St2.
  assert (Ti : turned s (class2ms cast tnd table terr) (class2ms cast tnd table terr')) by (apply turned_gmap, turned_gmap; exact Tt).
  pose proof (mean_turned s d (kernel_size fl gw) _ _ r c (kernel_size_fine fl gw Hf Hg Hw) Ti) as M. cbn zeta in M. cbn [class2ms gmap g_rows g_cols] in M.
  fold (class2ms cast tnd table terr) (class2ms cast tnd table terr') in M. fold p in M.
  eapply same_num_trans; [apply V|]. apply same_num_sym. eapply same_num_trans; [apply V'|].
  destruct (num_mean (map (fun q => seen (class2ms cast tnd table terr') _ _) _)) as [|v'];
    destruct (num_mean (map (fun q => seen (class2ms cast tnd table terr) _ _) _)) as [|v]; cbn in M; try contradiction; [exact Logic.I|].
  cbn [same_num]. apply conservative_comp. destruct (g_at slope r c) as [|q].
  - destruct (g_at slope' (fst p) (snd p)); [|destruct St1]. destruct (_ =? _), (_ =? _); rewrite M; ring.
  - destruct (g_at slope' (fst p) (snd p)) as [|q']; [destruct St1|]. cbn in St1. pose proof (weight_comp _ _ St1) as Wc. destruct (Qleb q (327#100)) eqn:L.
    + assert (W0 : (slope_weight q == 0)%Q) by (unfold slope_weight; rewrite L; reflexivity). rewrite W0 in Wc. destruct (_ =? _), (_ =? _); rewrite ?Wc, ?W0, M; ring.
    + apply Qleb_gt in L. specialize (St2 q d eq_refl L).
      assert (B : (g_at aspect' (fst p) (snd p) =? dire_aspect (turn_dir s d)) = (g_at aspect r c =? dire_aspect d)).
      { apply Bool.eq_iff_eq_true. rewrite !Z.eqb_eq. exact St2. }
      rewrite B. destruct (g_at aspect r c =? dire_aspect d); rewrite ?Wc, M; reflexivity.
Qed.
