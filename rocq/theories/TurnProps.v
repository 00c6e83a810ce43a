(** * C83: no direction is special - turned or mirrored inputs give turned or
    mirrored results. *)
From Verif Require Import Base BaseLemmas Rounding NameModel ClipProofs TerrModel TerrSpec TerrProofs TerrRunProofs ShldModel ShldSpec ShldProofs ShldProps TopoModel TopoSpec TopoProps
  TurnSpec TurnProofs TurnTopoProofs TurnShldProofs.
From Coq Require Import Lia Lqa.
Open Scope Z_scope.

(** Terrain: mirrored or half-turned tiles always give the mirrored results
    (including a skipped tile, or the exception); tiles turned onto their side
    do when they are square or not smaller than about 700 metres each way. *)
Theorem C83_terrain fl table data data' gw s : fl_ok fl -> (0 < gw)%Q -> 1 <= g_rows data -> 1 <= g_cols data -> turned s data data' ->
  (exchanged s = false \/ g_rows data = g_cols data \/
   (701 + gw <= inject_Z (g_rows data) * gw /\ 701 + gw <= inject_Z (g_cols data) * gw)%Q) ->
  match terrain fl table data gw, terrain fl table data' gw with
  | Ok None, Ok None => True
  | Ok (Some l), Ok (Some l') => turned_results s l l'
  | Err e, Err e' => e = e'
  | _, _ => False
  end.
Proof.
  intros Hf Hg Hr Hc T W. apply terrain_turned; try assumption. pose proof T as (E1 & _ & _).
  destruct W as [W|[W|(W1 & W2)]]; [left; rewrite W in E1; exact E1|left; destruct (exchanged s); lia|right].
  assert (B : forall d n, (701 + gw <= inject_Z n * gw)%Q -> fst (widths fl gw d) + snd (widths fl gw d) <= n).
  { intros d n Hn. pose proof (widths_metres fl gw Hf Hg d) as M. cbv zeta in M. destruct (widths_nonneg fl gw Hf Hg d) as [N1 N2].
    set (a := fst (widths fl gw d)) in *. set (l := snd (widths fl gw d)) in *.
    assert (K : (inject_Z (a + l) * gw < inject_Z n * gw + gw)%Q).
    { rewrite inject_Z_plus. set (x := inject_Z a) in *. set (y := inject_Z l) in *. rewrite u53_val in M.
      assert (Px : (0 <= x)%Q) by (unfold x; change 0%Q with (inject_Z 0); rewrite <- Zle_Qle; exact N1).
      assert (Py : (0 <= y)%Q) by (unfold y; change 0%Q with (inject_Z 0); rewrite <- Zle_Qle; exact N2).
      destruct (is_cardinal d).
      - destruct M as [M1 M2]. apply Qabs_Qle_condition in M1. apply Qabs_Qle_condition in M2.
        assert (Es : ((x + y) * gw == x * gw + y * gw)%Q) by ring. rewrite Es. set (xg := (x * gw)%Q) in *. set (yg := (y * gw)%Q) in *.
        assert (Eh : (gw / 2 == (1#2) * gw)%Q) by field. rewrite Eh in M1, M2. set (ng := (inject_Z n * gw)%Q) in *. clearbody xg yg ng. clear - M1 M2 Hn Hg. lra.
      - destruct M as (M1 & _ & M2 & _). pose proof (Qmult_le_0_compat x gw Px ltac:(lra)) as P1. pose proof (Qmult_le_0_compat y gw Py ltac:(lra)) as P2.
        set (xg := (x * gw)%Q) in *. set (yg := (y * gw)%Q) in *.
        assert (Ex : (x * (gw * (1414 # 1000)) == xg * (1414#1000))%Q) by (unfold xg; ring).
        assert (Ey : (y * (gw * (1414 # 1000)) == yg * (1414#1000))%Q) by (unfold yg; ring).
        assert (Es : ((x + y) * gw == xg + yg)%Q) by (unfold xg, yg; ring). rewrite Ex in M1. rewrite Ey in M2. rewrite Es. lra. }
    assert (L : (inject_Z (a + l) < inject_Z (n + 1))%Q).
    { apply (Qmult_lt_r _ _ gw Hg). eapply Qlt_le_trans; [exact K|]. rewrite inject_Z_plus. change (inject_Z 1) with 1%Q. rewrite Qmult_plus_distr_l, Qmult_1_l. apply Qle_refl. }
    rewrite <- Zlt_Qlt in L. lia. }
  intros d. rewrite E1. split; [apply B; exact W1|]. destruct (exchanged s); apply B; assumption.
Qed.
Print Assumptions C83_terrain.

Definition strip : grid Z := Grid 1 12 (fun _ c => if c <? 4 then 2 else 1).
Definition strip' : grid Z := Grid 12 1 (fun r _ => if r <? 4 then 2 else 1).
Definition classes : list (Z * num) := [(1, Num 1); (2, Num (1#2))].

(** A strip narrower than that does not: lying on its side it gives other
    multipliers than standing (the reach of every direction, also along the
    rows, is cut by the number of rows). *)
Theorem C83_terrain_strip_refuted : exists s l l', turned s strip strip' /\
  terrain (fun x => x) classes strip 100 = Ok (Some l) /\ terrain (fun x => x) classes strip' 100 = Ok (Some l') /\ ~ turned_results s l l'.
Proof.
  exists (Turn false false true).
  destruct (terrain (fun x => x) classes strip 100) as [[l|]|] eqn:E; [|vm_compute in E; discriminate|vm_compute in E; discriminate].
  destruct (terrain (fun x => x) classes strip' 100) as [[l'|]|] eqn:E'; [|vm_compute in E'; discriminate|vm_compute in E'; discriminate].
  exists l, l'. split; [|split; [reflexivity|split; [reflexivity|]]].
  { split; [reflexivity|]. split; [reflexivity|]. intros r c I. apply inside_iff in I. cbn in I. reflexivity. }
  intros H.
  destruct (terrain_skip_or_run _ _ _ _ _ E) as [X|(l0 & X & Dl & Vl)]; [discriminate|]. injection X as <-.
  destruct (terrain_skip_or_run _ _ _ _ _ E') as [X|(l0 & X & Dl' & Vl')]; [discriminate|]. injection X as <-.
  assert (J : In W_ (map fst l)) by (rewrite Dl; cbn; tauto). apply in_map_iff in J. destruct J as ((d & o) & Ed & J). cbn in Ed. subst d.
  destruct (H W_ o J) as (o' & J' & _ & _ & V). apply Vl in J. apply Vl' in J'.
  assert (R : g_rows o = 1 /\ g_cols o = 12 /\ g_at o 0 8 = Num 1 /\ exists q, g_at o' 8 0 = Num q /\ (q < 1)%Q).
  { vm_compute in J. injection J as <-. vm_compute in J'. injection J' as <-. split; [reflexivity|]. split; [reflexivity|]. split; [reflexivity|].
    eexists. split; [vm_compute; reflexivity|]. reflexivity. }
  destruct R as (R1 & R2 & R3 & q & R4 & R5). specialize (V 0 8). rewrite R1, R2 in V. specialize (V eq_refl). cbn zeta in V.
  change (fst (place _ _ _ _)) with 8 in V. change (snd (place _ _ _ _)) with 0 in V. rewrite R3, R4 in V. cbn in V. lra.
Qed.
Print Assumptions C83_terrain_strip_refuted.

(** The topographic multiplier, whatever the shape of the raster. *)
Theorem C83_topographic fl M sqrt2 cellsize x_left y_upper nodata s dem dem' : fl_line fl M -> (0 < sqrt2)%Q -> (0 < cellsize)%Q ->
  1 <= g_rows dem <= M -> 1 <= g_cols dem <= M -> turned s dem dem' ->
  exists outs outs', topomult fl sqrt2 cellsize x_left y_upper nodata dem = Ok outs /\ topomult fl sqrt2 cellsize x_left y_upper nodata dem' = Ok outs' /\
    turned_results s outs outs'.
Proof. intros Hfl Hs Hc Hr Hco T. exact (topo_turned fl M sqrt2 cellsize x_left y_upper nodata Hfl Hs Hc s dem dem' Hr Hco T). Qed.
Print Assumptions C83_topographic.

(** Shielding, on pixels up to 100 metres: the pixel sizes turn as well. *)
Theorem C83_shielding s slope_fn aspect_fn fl cast table tnd terr terr' dnd dem dem' px py xm ym xm' ym' gw :
  fl_ok fl -> (0 < gw)%Q -> (gw <= 100)%Q -> even_handed s slope_fn aspect_fn ->
  g_rows dem = g_rows terr -> g_cols dem = g_cols terr ->
  g_rows xm = g_rows terr -> g_cols xm = g_cols terr -> g_rows ym = g_rows terr -> g_cols ym = g_cols terr ->
  turned s terr terr' -> turned s dem dem' ->
  turned s (if exchanged s then ym else xm) xm' -> turned s (if exchanged s then xm else ym) ym' ->
  turned_results s (shield slope_fn aspect_fn fl cast table tnd terr dnd dem px py xm ym gw)
    (shield slope_fn aspect_fn fl cast table tnd terr' dnd dem' (if exchanged s then py else px) (if exchanged s then px else py) xm' ym' gw).
Proof.
  intros Hf Hg Hw EH A1 A2 A3 A4 A5 A6 T1 T2 (_ & _ & T3) (_ & _ & T4). apply shield_turned_all; try assumption.
  intros r c I. cbn zeta. specialize (T3 r c). specialize (T4 r c). destruct (exchanged s); (split; [reflexivity|]); (split; [reflexivity|]); cbn zeta in T3, T4;
    rewrite ?A3, ?A4, ?A5, ?A6 in T3; rewrite ?A3, ?A4, ?A5, ?A6 in T4; (split; symmetry; [exact (T3 I)|exact (T4 I)]).
Qed.
Print Assumptions C83_shielding.

(** On coarser pixels it is not so: a half turn of a flat, uniform tile, which
    leaves it as it was, exchanges west and east - but their results differ. *)
Theorem C83_shielding_coarse_refuted : exists s terr dem m l, turned s terr terr /\ turned s dem dem /\ turned s m m /\ exchanged s = false /\
  l = shield (fun _ _ => 0%Q) (fun _ _ => 0%Q) (fun x => x) (fun z => z) [(1, 80%Q)] None terr None dem 1 1 m m 200 /\ ~ turned_results s l l.
Proof.
  exists (Turn true true false), (Grid 1 1 (fun _ _ => 1)), (Grid 1 1 (fun _ _ => Num 0)), (Grid 1 1 (fun _ _ => 25%Q)). eexists.
  split; [split; [reflexivity|]; split; [reflexivity|]; intros; reflexivity|].
  split; [split; [reflexivity|]; split; [reflexivity|]; intros; reflexivity|].
  split; [split; [reflexivity|]; split; [reflexivity|]; intros; reflexivity|]. split; [reflexivity|]. split; [reflexivity|].
  intros H. destruct (H W_ _ (or_introl eq_refl)) as (o' & I & _ & _ & V). cbn [turn_dir rows_reversed cols_reversed exchanged north_for_south east_for_west] in I.
  specialize (V 0 0 eq_refl).
  cbn -[combine] in I. repeat match type of I with _ \/ _ => destruct I as [I|I] end; try discriminate I; try contradiction. injection I as <-. vm_compute in V. discriminate V.
Qed.
Print Assumptions C83_shielding_coarse_refuted.

(** ** The hypotheses can be met.  An even-handed pair of functions: the slope
    grows with the length of the gradient, the aspect is the centre of the
    sector that the true downhill direction (towards the east [- x], towards
    the north [y]) lies in, decided exactly: |e| < (sqrt 2 - 1) |n| iff
    (|e| + |n|)^2 < 2 n^2. *)
Definition sector (p1 p2 se sn : bool) : dir :=
  if p1 then (if sn then N_ else S_) else if p2 then (if se then E_ else W_)
  else if sn then (if se then NE else NW) else (if se then SE else SW).
Definition faces (x y : Q) : dir :=
  let e := (- x)%Q in
  let m := ((Qabs e + Qabs y) * (Qabs e + Qabs y))%Q in
  sector (Qltb m (2 * (y * y))) (Qltb m (2 * (e * e))) (Qltb 0 e) (Qltb 0 y).
Definition ex_slope (x y : Q) : Q := (10 * (x * x + y * y))%Q.
Definition ex_aspect (x y : Q) : Q := bearing (faces x y).

Lemma Qabs_sq x : (Qabs x * Qabs x == x * x)%Q.
Proof. rewrite <- Qabs_Qmult. apply Qabs_pos. destruct (Qlt_le_dec 0 x); nra. Qed.
Lemma in_own_sector d d0 : in_sector d (bearing d0) <-> d = d0.
Proof.
  assert (R : (0 <= bearing d0 <= 360)%Q) by (destruct d0; cbn; split; discriminate). rewrite <- C28_sector by exact R.
  split; [|intros ->; destruct d0; reflexivity]. destruct d, d0; vm_compute; intros X; congruence.
Qed.
Lemma faces_turn s x y x' y' : (x' == fst (turn_gradient s (x, y)))%Q -> (y' == snd (turn_gradient s (x, y)))%Q -> (~ (x == 0) \/ ~ (y == 0))%Q ->
  faces x' y' = turn_dir s (faces x y).
Proof.
  intros Ex Ey N. unfold faces.
  set (m := ((Qabs (- x) + Qabs y) * (Qabs (- x) + Qabs y))%Q). set (m' := ((Qabs (- x') + Qabs y') * (Qabs (- x') + Qabs y'))%Q).
  assert (Z0 : forall q, (~ (q == 0) -> 0 < q * q)%Q) by (intros q Hq; destruct (Qlt_le_dec 0 q); nra).
  assert (Em : (m == x * x + y * y + 2 * Qabs (x * y))%Q).
  { unfold m. rewrite Qabs_Qmult, Qabs_opp. pose proof (Qabs_sq x) as A. pose proof (Qabs_sq y) as B. rewrite <- A, <- B. ring. }
  assert (Em' : (m' == m)%Q).
  { unfold m, m'. rewrite Ex, Ey. destruct s as [v h e]. unfold turn_gradient. cbn [rows_reversed cols_reversed exchanged fst snd].
    destruct v, h, e; cbn [fst snd]; rewrite ?Qabs_opp; ring. }
  rewrite (Qltb_comp m' m (2 * (y' * y')) (2 * (y' * y')) Em' (Qeq_refl _)), (Qltb_comp m' m (2 * (- x' * - x')) (2 * (- x' * - x')) Em' (Qeq_refl _)).
  pose proof (Qabs_nonneg (x * y)) as Pn.
  assert (X0 : (x == 0)%Q -> Qltb m (2 * (y * y)) = true).
  { intros E0. apply Qltb_lt. rewrite Em, E0. setoid_replace (0 * y)%Q with 0%Q by ring. change (Qabs 0) with 0%Q.
    assert (Ny : ~ (y == 0)%Q) by tauto. specialize (Z0 y Ny). lra. }
  assert (Y0 : (y == 0)%Q -> Qltb m (2 * (- x * - x)) = true).
  { intros E0. apply Qltb_lt. rewrite Em, E0. setoid_replace (x * 0)%Q with 0%Q by ring. change (Qabs 0) with 0%Q.
    assert (Nx : ~ (x == 0)%Q) by tauto. specialize (Z0 x Nx). lra. }
  assert (Ex2 : Qltb m (2 * (y * y)) = true -> Qltb m (2 * (- x * - x)) = false).
  { intros A. apply Qltb_lt in A. apply Qltb_ge. rewrite Em in *. lra. }
  assert (SX : forall q, (~ (q == 0))%Q -> Qltb 0 (- q) = negb (Qltb 0 q)).
  { intros q Nq. destruct (Qltb 0 q) eqn:A; [apply Qltb_lt in A; apply Qltb_ge; lra|apply Qltb_ge in A; apply Qltb_lt].
    destruct (Qeq_dec q 0) as [C|C]; [tauto|]. apply Qnot_le_lt. intros D. apply C. lra. }
  assert (Cx : forall u w, (u == w)%Q -> Qltb 0 u = Qltb 0 w) by (intros u w E; apply Qltb_comp; [reflexivity|exact E]).
  assert (Cm : forall u w, (u == w)%Q -> Qltb m u = Qltb m w) by (intros u w E; apply Qltb_comp; [reflexivity|exact E]).
  destruct s as [v h e]. unfold turn_gradient in Ex, Ey. cbn [rows_reversed cols_reversed exchanged fst snd] in Ex, Ey.
  set (p1 := Qltb m (2 * (y * y))) in *. set (p2 := Qltb m (2 * (- x * - x))) in *.
  assert (Fx : forall q, Qltb 0 q = Qltb 0 (- - q)) by (intros q; apply Cx; ring).
  destruct (Qeq_dec x 0) as [Qx|Qx].
  { specialize (X0 Qx). specialize (Ex2 X0). rewrite X0, Ex2. assert (Ny : ~ (y == 0)%Q) by tauto.
    destruct v, h, e; cbn [fst snd] in Ex, Ey;
      first [
        replace (Qltb m (2 * (y' * y'))) with p1 by (unfold p1; symmetry; apply Cm; rewrite Ey; ring); rewrite X0; cbn [sector];
        rewrite (Cx _ _ Ey), ?(SX y Ny); destruct (Qltb 0 y); reflexivity
      | replace (Qltb m (2 * (y' * y'))) with p2 by (unfold p2; symmetry; apply Cm; rewrite Ey; ring);
        replace (Qltb m (2 * (- x' * - x'))) with p1 by (unfold p1; symmetry; apply Cm; rewrite Ex; ring); rewrite X0, Ex2; cbn [sector];
        rewrite (Cx (- x')%Q _ (Qopp_comp _ _ Ex)), <- ?Fx, ?(SX y Ny); destruct (Qltb 0 y); reflexivity ]. }
  destruct (Qeq_dec y 0) as [Qy|Qy].
  { specialize (Y0 Qy). assert (P1 : p1 = false) by (destruct p1; [rewrite Ex2 in Y0 by reflexivity; discriminate|reflexivity]). rewrite Y0, P1.
    destruct v, h, e; cbn [fst snd] in Ex, Ey;
      first [
        replace (Qltb m (2 * (y' * y'))) with p1 by (unfold p1; symmetry; apply Cm; rewrite Ey; ring);
        replace (Qltb m (2 * (- x' * - x'))) with p2 by (unfold p2; symmetry; apply Cm; rewrite Ex; ring); rewrite P1, Y0; cbn [sector];
        rewrite (Cx (- x')%Q _ (Qopp_comp _ _ Ex)), <- ?Fx, ?(SX x Qx); destruct (Qltb 0 x); reflexivity
      | replace (Qltb m (2 * (y' * y'))) with p2 by (unfold p2; symmetry; apply Cm; rewrite Ey; ring); rewrite Y0; cbn [sector];
        rewrite (Cx _ _ Ey), ?(SX x Qx); destruct (Qltb 0 x); reflexivity ]. }
  destruct v, h, e; cbn [fst snd] in Ex, Ey;
    first [
      replace (Qltb m (2 * (y' * y'))) with p1 by (unfold p1; symmetry; apply Cm; rewrite Ey; ring);
      replace (Qltb m (2 * (- x' * - x'))) with p2 by (unfold p2; symmetry; apply Cm; rewrite Ex; ring);
      rewrite (Cx (- x')%Q _ (Qopp_comp _ _ Ex)), (Cx _ _ Ey), <- ?Fx, ?(SX x Qx), ?(SX y Qy);
      destruct p1; [rewrite (Ex2 eq_refl)|destruct p2]; destruct (Qltb 0 x), (Qltb 0 y); reflexivity
    | replace (Qltb m (2 * (y' * y'))) with p2 by (unfold p2; symmetry; apply Cm; rewrite Ey; ring);
      replace (Qltb m (2 * (- x' * - x'))) with p1 by (unfold p1; symmetry; apply Cm; rewrite Ex; ring);
      rewrite (Cx (- x')%Q _ (Qopp_comp _ _ Ex)), (Cx _ _ Ey), <- ?Fx, ?(SX x Qx), ?(SX y Qy);
      destruct p1; [rewrite (Ex2 eq_refl)|destruct p2]; destruct (Qltb 0 x), (Qltb 0 y); reflexivity ].
Qed.
Theorem C83_even_handed s : even_handed s ex_slope ex_aspect.
Proof.
  intros x y x' y' Ex Ey. split.
  - unfold ex_slope. rewrite Ex, Ey. destruct s as [v h e]. unfold turn_gradient. cbn [rows_reversed cols_reversed exchanged fst snd].
    destruct v, h, e; cbn [fst snd]; ring.
  - intros L. assert (N : (~ (x == 0) \/ ~ (y == 0))%Q).
    { destruct (Qeq_dec x 0) as [X|X]; [|auto]. destruct (Qeq_dec y 0) as [Y|Y]; [|auto]. exfalso. unfold ex_slope in L. rewrite X, Y in L. discriminate L. }
    assert (R : forall d, (0 <= bearing d <= 360)%Q) by (intros []; cbn; split; discriminate).
    unfold ex_aspect. split; [apply R|]. split; [apply R|]. intros d. rewrite !in_own_sector, (faces_turn s x y x' y' Ex Ey N).
    split; [intros ->; reflexivity|apply turn_dir_inj].
Qed.
Print Assumptions C83_even_handed.

(** A quarter turn (north becomes east) of a sloping raster that is not square. *)
Definition ramp : grid num := Grid 3 4 (fun r c => Num (inject_Z (60 * c + 7 * r))).
Definition ramp' : grid num := Grid 4 3 (fun r c => Num (inject_Z (60 * r + 7 * (2 - c)))).
Definition quarter : turn := Turn true false true.
Lemma quarter_ramp : turned quarter ramp ramp'.
Proof.
  split; [reflexivity|]. split; [reflexivity|]. intros r c _. change (Num (inject_Z (60 * c + 7 * r)) = Num (inject_Z (60 * c + 7 * (2 - (3 - 1 - r))))). do 2 f_equal. lia.
Qed.
Definition cell_of (d : dir) (r c : Z) (l : list (dir * grid num)) : num :=
  match find (fun p => dire_aspect (fst p) =? dire_aspect d) l with Some p => g_at (snd p) r c | None => NaN end.
Example C83_ex_quarter : turn_dir quarter N_ = E_ /\ turn_dir quarter E_ = S_ /\ turn_dir quarter NW = NE /\ place quarter 3 4 (0, 0) = (0, 2).
Proof. repeat split. Qed.
Example C83_ex_topographic :
  match topomult (fun x => x) (14#10) 25 120 30 None ramp, topomult (fun x => x) (14#10) 25 120 30 None ramp' with
  | Ok l, Ok l' => match cell_of W_ 1 1 l, cell_of N_ 1 1 l', cell_of E_ 1 1 l with
                   | Num a, Num b, Num e => Qeq_bool a b && negb (Qeq_bool a e) | _, _, _ => false end
  | _, _ => false end = true.
Proof. vm_compute. reflexivity. Qed.
Example C83_ex_shielding : let t := Grid 3 4 (fun r c => if c =? 0 then 1 else 2) in let t' := Grid 4 3 (fun r c => if r =? 0 then 1 else 2) in
  let m := Grid 3 4 (fun _ _ => 50%Q) in let m' := Grid 4 3 (fun _ _ => 50%Q) in
  turned quarter t t' /\ turned quarter m m' /\
  let run t e m := shield ex_slope ex_aspect (fun x => x) (fun z => z) [(1, 80%Q); (2, 90%Q)] None t None e 1 1 m m 50 in
  match cell_of W_ 1 1 (run t ramp m), cell_of N_ 1 1 (run t' ramp' m'), cell_of E_ 1 1 (run t ramp m) with
  | Num a, Num b, Num e => Qeq_bool a b && negb (Qeq_bool a e) | _, _, _ => false end = true.
Proof.
  cbv zeta. split; [split; [reflexivity|]; split; [reflexivity|]; intros; reflexivity|].
  split; [split; [reflexivity|]; split; [reflexivity|]; intros; reflexivity|]. vm_compute. reflexivity.
Qed.
Example C83_ex_terrain : let t := Grid 3 12 (fun r c => if c <? 4 then 2 else 1) in let t' := Grid 3 12 (fun r c => if c <? 8 then 1 else 2) in
  turned (Turn true true false) t t' /\
  match terrain (fun x => x) classes t 250, terrain (fun x => x) classes t' 250 with
  | Ok (Some l), Ok (Some l') => match cell_of W_ 1 5 l, cell_of E_ 1 6 l', cell_of E_ 1 5 l with
                   | Num a, Num b, Num e => Qeq_bool a b && negb (Qeq_bool a e) | _, _, _ => false end
  | _, _ => false end = true.
Proof.
  cbv zeta. split; [|vm_compute; reflexivity]. split; [reflexivity|]. split; [reflexivity|]. intros r c I. change ((if c <? 4 then 2 else 1) = (if 12 - 1 - c <? 8 then 1 else 2)).
  destruct (Z.ltb_spec c 4), (Z.ltb_spec (12 - 1 - c) 8); try reflexivity; lia.
Qed.
