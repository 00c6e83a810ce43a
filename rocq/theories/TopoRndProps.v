(** * C94: rounding of the whole topographic stage. *)
From Coq Require Import Qpower Qfield.
From Verif Require Import Base BaseLemmas NameModel TerrSpec Rounding FloatSpec FloatModel FloatProps TopoModel TopoSpec TopoLineProofs TopoMhProofs TopoCalcProofs TopoPathProofs TopoRunProofs TopoStageProofs TopoProps.
From Verif Require Import TopoFlSpec TopoFlProofs TopoFlEndProofs TopoFlHillProofs TopoFlProps TopoRndSpec TopoRndModel TopoRndProofs.
Open Scope Z_scope.

Lemma field_bound box e x : (1 <= x <= 1711#1000)%Q -> (forall h, e = Num h -> (Qabs h <= 10000)%Q) ->
  (0 <= remove_conservatism x * tas_factor box e <= 385#100)%Q /\ (box = false -> (1 <= remove_conservatism x * tas_factor box e <= 15399#10000)%Q).
Proof.
  intros [A B] H. pose proof (cons_mono 1 _ A) as M1. pose proof (cons_mono _ _ B) as M2.
  assert (E1 : (remove_conservatism 1 == 1)%Q) by reflexivity. assert (E2 : (remove_conservatism (1711#1000) == 15399#10000)%Q) by reflexivity. rewrite E1 in M1. rewrite E2 in M2.
  set (y := remove_conservatism x) in *. clearbody y. split.
  - assert (F : (1 <= tas_factor box e <= 25#10)%Q).
    { destruct e as [|h]; cbn; [lra|]. specialize (H h eq_refl). apply abs_two in H. destruct (box && Qltb 500 h) eqn:E; [|lra]. apply andb_prop in E. destruct E as [_ E]. apply Qltb_lt in E. lra. }
    split; [apply Qmult_le_0_compat; lra|]. apply Qle_trans with ((15399#10000) * (25#10))%Q; [apply mul_le; lra|]. vm_compute. discriminate.
  - intros ->. assert (F : tas_factor false e = 1%Q) by (destruct e; reflexivity). rewrite F. lra.
Qed.

Lemma mean_bound {A} (f : A -> Q) l lo hi : (0 <= lo)%Q -> (0 <= hi)%Q -> zlen l <= 9 -> (forall x, In x l -> (lo <= f x <= hi)%Q) -> (0 <= total (map f l) / 9 <= hi)%Q.
Proof.
  intros L0 L1 N H. destruct (total_bounds (map f l) lo hi) as [T1 T2].
  { intros x I. apply in_map_iff in I. destruct I as (y & <- & I). apply H. exact I. }
  assert (Z1 : zlen (map f l) = zlen l) by (unfold zlen; rewrite map_length; reflexivity). rewrite Z1 in *.
  assert (N0 : (0 <= inject_Z (zlen l))%Q) by (change 0%Q with (inject_Z 0); rewrite <- Zle_Qle; unfold zlen; lia).
  assert (N9 : (inject_Z (zlen l) <= 9)%Q) by (change 9%Q with (inject_Z 9); rewrite <- Zle_Qle; exact N).
  assert (P : (0 <= inject_Z (zlen l) * lo)%Q) by (apply Qmult_le_0_compat; assumption).
  assert (P2 : (inject_Z (zlen l) * hi <= 9 * hi)%Q) by (apply Qmult_le_compat_r; assumption).
  unfold Qdiv. change (/ 9)%Q with (1#9)%Q. lra.
Qed.

(** In double precision, with elevations of single precision or better and
    single-precision output, each value written differs from the one of exact
    arithmetic (line multipliers, corrections, factor, mean) by at most 2^-20,
    and by at most 2^-23 outside the Tasmanian box, unless a cell whose value
    enters the mean sits on a limit of the formula or ends its line. *)
Theorem C94_stage p elr sgl conv eta sqrt2 cellsize x_left y_upper elev d :
  binary p elr -> 24 <= p -> single sgl -> averages eta conv -> (0 <= eta <= Qpower 2 (-40))%Q ->
  (0 < sqrt2)%Q -> (0 < cellsize)%Q -> (rnd53 cellsize == cellsize)%Q ->
  1 <= g_rows elev <= 2 ^ 50 -> 1 <= g_cols elev <= 2 ^ 50 -> on_earth elev ->
  let ds := neighbour_dist cellsize (rnd53 (cellsize * sqrt2)%Q) d in
  let box := Qltb 143 x_left && Qltb 40 y_upper in
  exists raw0 o, along_lines (fun l => multiplier_calc (fun x => x) l ds) elev d raw0 /\
    topo_dir_fl rnd53 elr sgl conv sqrt2 cellsize x_left y_upper elev d = Ok o /\
    g_rows o = g_rows elev /\ g_cols o = g_cols elev /\
    (forall r c, g_at elev r c = NaN -> g_at o r c = NaN) /\
    (forall r c h, inside (g_rows elev) (g_cols elev) (r, c) = true -> g_at elev r c = Num h ->
      (forall q, In q (around (g_rows elev) (g_cols elev) r c) -> clear_cell elev d ds (fst q) (snd q)) ->
      exists v, g_at o r c = Num v /\
        let exact := (total (map (fun q => remove_conservatism (g_at raw0 (fst q) (snd q)) * tas_factor box (g_at elev (fst q) (snd q)))
                                 (around (g_rows elev) (g_cols elev) r c)) / 9)%Q in
        (Qabs (v - exact) <= Qpower 2 (-20))%Q /\ (box = false -> (Qabs (v - exact) <= Qpower 2 (-23))%Q)).
Proof.
  intros Bp Hp Bs Av He Hs Hc Hcd Hnr Hnc O ds box.
  destruct (stage_fl p elr sgl conv eta sqrt2 cellsize x_left y_upper elev d Bp Hp Av He Hs Hc Hcd Hnr Hnc O) as (raw & raw0 & o & A0 & A & E & Ro & Co & N & V0).
  exists raw0, o. split; [exact A0|]. split; [exact E|]. split; [exact Ro|]. split; [exact Co|]. split; [exact N|]. intros r c h I Eh Cl.
  destruct (V0 r c h I Eh) as (z & Ez & R & _ & S). destruct (S Cl) as [S1 S2]. exists (sgl z). split; [exact Ez|]. intros exact. fold box in S1, S2. fold exact in S1, S2.
  assert (FB : forall q, In q (around (g_rows elev) (g_cols elev) r c) ->
    (0 <= remove_conservatism (g_at raw0 (fst q) (snd q)) * tas_factor box (g_at elev (fst q) (snd q)) <= 385#100)%Q /\
    (box = false -> (1 <= remove_conservatism (g_at raw0 (fst q) (snd q)) * tas_factor box (g_at elev (fst q) (snd q)) <= 15399#10000)%Q)).
  { intros q Hq. apply field_bound; [apply R; exact Hq|]. intros hh Eq. apply (O (fst q) (snd q)); [|exact Eq]. apply in_around in Hq. apply inside_ins. exact Hq. }
  pose proof (mean_bound _ _ 0%Q (385#100)%Q ltac:(lra) ltac:(lra) (around_most (g_rows elev) (g_cols elev) r c) (fun q Hq => proj1 (FB q Hq))) as MB. fold exact in MB.
  pose proof V_pos as VP. pose proof UV as EUV. assert (V1 : (V <= 1#1000000)%Q) by (vm_compute; discriminate).
  assert (EE : (Qpower 2 (-40) <= (1#1000) * V)%Q) by (vm_compute; discriminate).
  assert (P20 : (Qpower 2 (-20) == 16 * V)%Q) by reflexivity. assert (P23 : (Qpower 2 (-23) == 2 * V)%Q) by reflexivity. rewrite P20, P23. split.
  - apply abs_two in S1. pose proof (near_p 24 sgl z (386#100) Bs ltac:(lia) ltac:(apply abs_le; lra)) as Nz. apply abs_two in Nz. apply abs_le; lra.
  - intros Box. specialize (S2 Box).
    pose proof (mean_bound _ _ 1%Q (15399#10000)%Q ltac:(lra) ltac:(lra) (around_most (g_rows elev) (g_cols elev) r c) (fun q Hq => proj2 (FB q Hq) Box)) as MB2. fold exact in MB2.
    apply abs_two in S2. pose proof (near_p 24 sgl z (155#100) Bs ltac:(lia) ltac:(apply abs_le; lra)) as Nz. apply abs_two in Nz. apply abs_le; lra.
Qed.
Print Assumptions C94_stage.

Lemma rnd24_between z lo hi : (lo <= z <= hi)%Q -> (rnd 24 lo <= rnd 24 z <= rnd 24 hi)%Q.
Proof. intros [A B]. split; apply (bin_mono 24 (rnd 24) (C87_rounding 24 ltac:(lia))); assumption. Qed.

(** Away from the edges of the raster, outside the box: every value written
    lies between 1 and 1.54, on whatever limits its lines sit, ... *)
Theorem C94_range p elr conv eta sqrt2 cellsize x_left y_upper elev d :
  binary p elr -> 24 <= p -> averages eta conv -> (0 <= eta <= Qpower 2 (-40))%Q ->
  (0 < sqrt2)%Q -> (0 < cellsize)%Q -> (rnd53 cellsize == cellsize)%Q ->
  1 <= g_rows elev <= 2 ^ 50 -> 1 <= g_cols elev <= 2 ^ 50 -> on_earth elev -> (x_left <= 143)%Q \/ (y_upper <= 40)%Q ->
  exists o, topo_dir_fl rnd53 elr (rnd 24) conv sqrt2 cellsize x_left y_upper elev d = Ok o /\
    forall r c h, 0 < r < g_rows elev - 1 -> 0 < c < g_cols elev - 1 -> g_at elev r c = Num h ->
      exists v, g_at o r c = Num v /\ (1 <= v <= 154#100)%Q.
Proof.
  intros Bp Hp Av He Hs Hc Hcd Hnr Hnc O T.
  assert (Box : Qltb 143 x_left && Qltb 40 y_upper = false) by (destruct T as [T|T]; [rewrite (proj2 (Qltb_ge 143 x_left)) by exact T; reflexivity|rewrite (proj2 (Qltb_ge 40 y_upper)) by exact T; apply andb_false_r]).
  destruct (stage_fl p elr (rnd 24) conv eta sqrt2 cellsize x_left y_upper elev d Bp Hp Av He Hs Hc Hcd Hnr Hnc O) as (raw & raw0 & o & A0 & A & E & Ro & Co & N & V0).
  exists o. split; [exact E|]. intros r c h Hr Hcc Eh.
  assert (I : inside (g_rows elev) (g_cols elev) (r, c) = true) by (apply inside_ins; split; lia).
  destruct (V0 r c h I Eh) as (z & Ez & R & S & _). specialize (S Box). exists (rnd 24 z). split; [exact Ez|].
  assert (FB : forall q, In q (around (g_rows elev) (g_cols elev) r c) -> (1 <= remove_conservatism (g_at raw (fst q) (snd q)) <= 15399#10000)%Q).
  { intros q Hq. destruct (R q Hq) as [[A1 B1] _]. pose proof (cons_mono 1 _ A1) as M1. pose proof (cons_mono _ _ B1) as M2.
    assert (E1 : (remove_conservatism 1 == 1)%Q) by reflexivity. assert (E2 : (remove_conservatism (1711#1000) == 15399#10000)%Q) by reflexivity. rewrite E1 in M1. rewrite E2 in M2. lra. }
  destruct (total_bounds (map (fun q => remove_conservatism (g_at raw (fst q) (snd q))) (around (g_rows elev) (g_cols elev) r c)) 1%Q (15399#10000)%Q) as [T1 T2].
  { intros x Ix. apply in_map_iff in Ix. destruct Ix as (y & <- & Iy). apply FB. exact Iy. }
  assert (Z1 : zlen (map (fun q => remove_conservatism (g_at raw (fst q) (snd q))) (around (g_rows elev) (g_cols elev) r c)) = 9).
  { unfold zlen. rewrite map_length. exact (around_interior _ _ r c Hr Hcc). }
  rewrite Z1 in T1, T2. change (inject_Z 9) with 9%Q in *. set (t := total _) in *. clearbody t.
  assert (EE : (Qpower 2 (-40) <= 1 # 1000000000000)%Q) by (vm_compute; discriminate). assert (U1 : (U <= 1 # 1000000000000)%Q) by (vm_compute; discriminate).
  apply abs_two in S. unfold Qdiv in S. change (/ 9)%Q with (1#9)%Q in S.
  assert (Zb : ((67108863 # 67108864) <= z <= 15399001 # 10000000)%Q) by lra. pose proof (rnd24_between _ _ _ Zb) as K.
  assert (K1 : (rnd 24 (67108863 # 67108864) == 1)%Q) by (vm_compute; reflexivity). assert (K2 : (rnd 24 (15399001 # 10000000) <= 154#100)%Q) by (vm_compute; discriminate).
  rewrite K1 in K. lra.
Qed.
Print Assumptions C94_range.

(** ... and exactly 1 where no hill acts on the nine cells. *)
Theorem C94_flat p elr conv eta sqrt2 cellsize x_left y_upper elev d raw0 :
  binary p elr -> 24 <= p -> averages eta conv -> (0 <= eta <= Qpower 2 (-40))%Q ->
  (0 < sqrt2)%Q -> (0 < cellsize)%Q -> (rnd53 cellsize == cellsize)%Q ->
  1 <= g_rows elev <= 2 ^ 50 -> 1 <= g_cols elev <= 2 ^ 50 -> on_earth elev -> (x_left <= 143)%Q \/ (y_upper <= 40)%Q ->
  let ds := neighbour_dist cellsize (rnd53 (cellsize * sqrt2)%Q) d in
  along_lines (fun l => multiplier_calc (fun x => x) l ds) elev d raw0 ->
  exists o, topo_dir_fl rnd53 elr (rnd 24) conv sqrt2 cellsize x_left y_upper elev d = Ok o /\
    forall r c h, 0 < r < g_rows elev - 1 -> 0 < c < g_cols elev - 1 -> g_at elev r c = Num h ->
      (forall i j, Z.abs (i - r) <= 1 -> Z.abs (j - c) <= 1 -> clear_cell elev d ds i j /\ (g_at raw0 i j == 1)%Q) ->
      exists v, g_at o r c = Num v /\ (v == 1)%Q.
Proof.
  intros Bp Hp Av He Hs Hc Hcd Hnr Hnc O T ds AL.
  assert (Box : Qltb 143 x_left && Qltb 40 y_upper = false) by (destruct T as [T|T]; [rewrite (proj2 (Qltb_ge 143 x_left)) by exact T; reflexivity|rewrite (proj2 (Qltb_ge 40 y_upper)) by exact T; apply andb_false_r]).
  destruct (stage_fl p elr (rnd 24) conv eta sqrt2 cellsize x_left y_upper elev d Bp Hp Av He Hs Hc Hcd Hnr Hnc O) as (raw & raw1 & o & A0 & A & E & Ro & Co & N & V0).
  exists o. split; [exact E|]. intros r c h Hr Hcc Eh F.
  assert (I : inside (g_rows elev) (g_cols elev) (r, c) = true) by (apply inside_ins; split; lia).
  destruct (V0 r c h I Eh) as (z & Ez & _ & _ & S). exists (rnd 24 z). split; [exact Ez|].
  assert (NB : forall q, In q (around (g_rows elev) (g_cols elev) r c) -> Z.abs (fst q - r) <= 1 /\ Z.abs (snd q - c) <= 1).
  { intros q Hq. unfold around in Hq. apply filter_In in Hq. destruct Hq as [Hq _]. cbn [In] in Hq. repeat (destruct Hq as [<-|Hq]; [cbn [fst snd]; lia|]). destruct Hq. }
  assert (SAME : forall q, In q (around (g_rows elev) (g_cols elev) r c) -> (g_at raw1 (fst q) (snd q) == 1)%Q).
  { intros q Hq. destruct (NB q Hq) as [N1 N2]. destruct (F _ _ N1 N2) as [_ F1]. rewrite <- F1.
    assert (Iq : inside (g_rows elev) (g_cols elev) (fst q, snd q) = true) by (apply in_around in Hq; apply inside_ins; exact Hq).
    destruct (cell_on_line (g_rows elev) (g_cols elev) d ltac:(lia) ltac:(lia) _ _ Iq) as (r0 & c0 & n & t & W & Ht & Ec).
    destruct (AL _ _ _ W) as (m & Em & At). destruct (A0 _ _ _ W) as (m' & Em' & At'). specialize (At t Ht). specialize (At' t Ht).
    rewrite Ec in At, At'. cbn [fst snd] in At, At'. assert (m' = m) as -> by (unfold ds in Em; congruence). rewrite At, At'. reflexivity. }
  destruct (S (fun q Hq => proj1 (F _ _ (proj1 (NB q Hq)) (proj2 (NB q Hq))))) as [_ S2]. specialize (S2 Box). rewrite Box in S2.
  assert (T9 : (total (map (fun q => remove_conservatism (g_at raw1 (fst q) (snd q)) * tas_factor false (g_at elev (fst q) (snd q)))%Q (around (g_rows elev) (g_cols elev) r c)) == 9)%Q).
  { assert (C1 : forall x, (x == 1)%Q -> (remove_conservatism x == 1)%Q) by (intros x Hx; rewrite cons_id by lra; exact Hx).
    rewrite (total_ext _ (fun _ => 1%Q)).
    - pose proof (around_interior _ _ r c Hr Hcc) as Z9. revert Z9. unfold zlen. generalize (around (g_rows elev) (g_cols elev) r c). intros l Z9.
      do 9 (destruct l as [|? l]; [discriminate Z9|]). destruct l; [reflexivity|cbn in Z9; lia].
    - intros q Hq. rewrite (C1 _ (SAME q Hq)). assert (F1 : tas_factor false (g_at elev (fst q) (snd q)) = 1%Q) by (destruct (g_at elev (fst q) (snd q)); reflexivity). rewrite F1. reflexivity. }
  rewrite T9 in S2. assert (E9 : (9 / 9 == 1)%Q) by reflexivity. rewrite E9 in S2. apply abs_two in S2.
  assert (EE : (Qpower 2 (-40) <= 1 # 1000000000000)%Q) by (vm_compute; discriminate). assert (U1 : (U <= 1 # 1000000000000000)%Q) by (vm_compute; discriminate).
  assert (Zb : ((67108863 # 67108864) <= z <= 67108865 # 67108864)%Q) by lra. pose proof (rnd24_between _ _ _ Zb) as K.
  assert (K1 : (rnd 24 (67108863 # 67108864) == 1)%Q) by (vm_compute; reflexivity). assert (K2 : (rnd 24 (67108865 # 67108864) == 1)%Q) by (vm_compute; reflexivity).
  rewrite K1, K2 in K. apply Qle_antisym; apply K.
Qed.
Print Assumptions C94_flat.

(** Direct sums satisfy the assumption on smoothing. *)
Theorem C94_direct_sums : averages (Qpower 2 (-47)) (conv_direct rnd53).
Proof. exact direct_averages. Qed.
Print Assumptions C94_direct_sums.

(** A slope up to a crest, crossed from the north: at the cell (3, 1), behind
    the crest, all the assumptions of [C94_stage] hold and the hill acts. *)
Definition c94_elev : grid num := Grid 6 3 (fun r _ => Num (nth (Z.to_nat r) [0; 50; 100; 100; 0; 0]%Q 0%Q)).
Lemma c94_line r0 c0 n : wind_line 6 3 N_ r0 c0 n -> r0 = 0 /\ n = 6.
Proof.
  intros (A & B & Hn & C & D). unfold down_cell, up_pixel, inside in *. cbn [upwind fst snd] in *. rewrite !andb_true_iff, !Z.leb_le, !Z.ltb_lt in A.
  assert (r0 = 0).
  { destruct (Z.eq_dec r0 0) as [H|H]; [exact H|]. exfalso. rewrite (proj2 (Z.leb_le 0 (r0 + 1 * -1))), (proj2 (Z.ltb_lt (r0 + 1 * -1) 6)), (proj2 (Z.leb_le 0 (c0 + 1 * 0))), (proj2 (Z.ltb_lt (c0 + 1 * 0) 3)) in B by lia. discriminate. }
  subst r0. split; [reflexivity|]. assert (n <= 6).
  { specialize (C (n - 1) ltac:(lia)). rewrite !andb_true_iff, !Z.leb_le, !Z.ltb_lt in C. lia. }
  destruct (Z.eq_dec n 6) as [H'|H']; [exact H'|]. exfalso. rewrite (proj2 (Z.leb_le 0 (0 + - n * -1))), (proj2 (Z.ltb_lt (0 + - n * -1) 6)), (proj2 (Z.leb_le 0 (c0 + - n * 0))), (proj2 (Z.ltb_lt (c0 + - n * 0) 3)) in D by lia. discriminate.
Qed.
Lemma c94_runs v r : rising_run (floors [0; 50; 100; 100; 0; 0]%Q) v r -> v = 0 /\ r = 2.
Proof.
  intros (A & B & C & D & E). assert (LP : last_pt (floors [0; 50; 100; 100; 0; 0]%Q) = 5) by reflexivity. rewrite LP in *.
  assert (W : forall k, v <= k < r -> k < 2).
  { intros k Hk. specialize (C k Hk). assert (0 <= k < 5) by lia. assert (k = 0 \/ k = 1 \/ k = 2 \/ k = 3 \/ k = 4) as [-> | [-> | [-> | [-> | ->]]]] by lia; try lia; vm_compute in C; discriminate. }
  assert (R2 : r <= 2) by (pose proof (W (r - 1) ltac:(lia)); lia).
  assert (v = 0) as ->.
  { destruct D as [D|D]; [exact D|]. assert (v = 0 \/ v = 1) as [-> | ->] by lia; [reflexivity|]. exfalso. apply D. reflexivity. }
  split; [reflexivity|]. assert (r = 1 \/ r = 2) as [-> | ->] by lia; [|reflexivity]. exfalso. destruct E as [E|E]; [discriminate|]. apply E. reflexivity.
Qed.
Example C94_ex : on_earth c94_elev /\ (rnd53 30 == 30)%Q /\ averages (Qpower 2 (-47)) (conv_direct rnd53) /\ (0 <= Qpower 2 (-47) <= Qpower 2 (-40))%Q /\
  binary 24 (rnd 24) /\ single (rnd 24) /\ inside 6 3 (3, 1) = true /\
  (forall q, In q (around 6 3 3 1) -> clear_cell c94_elev N_ (neighbour_dist 30 (rnd53 (30 * (14#10))%Q) N_) (fst q) (snd q)) /\
  match topo_dir_fl rnd53 (rnd 24) (rnd 24) (conv_direct rnd53) (14#10) 30 120 30 c94_elev N_ with
  | Ok o => match g_at o 3 1 with Num v => Qltb (115#100) v = true /\ Qltb v (154#100) = true | NaN => False end | Err _ => False end.
Proof.
  split; [|split; [reflexivity|split; [exact direct_averages|split; [split; vm_compute; discriminate|split; [apply C87_rounding; lia|split; [apply C87_rounding; lia|split; [reflexivity|split]]]]]]].
  - intros r c h I Eq. unfold c94_elev in I, Eq. cbn [g_rows g_cols g_at] in I, Eq. injection Eq as <-. apply inside_ins in I. destruct I as [I _].
    assert (r = 0 \/ r = 1 \/ r = 2 \/ r = 3 \/ r = 4 \/ r = 5) as [-> | [-> | [-> | [-> | [-> | ->]]]]] by lia; vm_compute; discriminate.
  - intros q Hq r0 c0 n t W Ht Ec. change (g_rows c94_elev) with 6 in *. change (g_cols c94_elev) with 3 in *. destruct (c94_line r0 c0 n W) as [-> ->].
    unfold down_cell, up_pixel in Ec. cbn [upwind fst snd] in Ec.
    assert (T : 2 <= t <= 4).
    { unfold around in Hq. apply filter_In in Hq. destruct Hq as [Hq _]. destruct q as [qr qc]. injection Ec as Er _. cbn [In fst snd] in *.
      repeat (destruct Hq as [Hq|Hq]; [injection Hq as <- _; lia|]). destruct Hq. }
    split; [lia|]. intros v w RR. change (line_profile c94_elev N_ 0 c0 6) with [0; 50; 100; 100; 0; 0]%Q in *. destruct (c94_runs v w RR) as [-> ->].
    assert (t = 2 \/ t = 3 \/ t = 4) as [-> | [-> | ->]] by lia; unfold off_limits, apart; repeat split; vm_compute; reflexivity.
  - vm_compute. split; reflexivity.
Qed.
