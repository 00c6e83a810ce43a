(** * The topographic multiplier of a turned raster. *)
From Coq Require Import Permutation.
From Verif Require Import Base BaseLemmas NameModel TerrSpec TerrProofs TopoModel TopoSpec TopoProps TurnSpec TurnProofs.
From Coq Require Import Lia.
Open Scope Z_scope.

(** How an offset turns. *)
Definition lin (s : turn) (o : Z * Z) : Z * Z :=
  let a := if rows_reversed s then - fst o else fst o in
  let b := if cols_reversed s then - snd o else snd o in
  if exchanged s then (b, a) else (a, b).
Lemma place_lin s rows cols r c o : let p := place s rows cols (r, c) in
  place s rows cols (r + fst o, c + snd o) = (fst p + fst (lin s o), snd p + snd (lin s o)).
Proof.
  cbn zeta. destruct s as [v h e], o as [a b]. unfold place, lin. cbn [rows_reversed cols_reversed exchanged fst snd].
  destruct v, h, e; cbn [fst snd]; f_equal; lia.
Qed.

Definition offs : list (Z * Z) := [(-1, -1); (-1, 0); (-1, 1); (0, -1); (0, 0); (0, 1); (1, -1); (1, 0); (1, 1)].
Lemma total_around rows cols (f : Z * Z -> Q) r c :
  Qeq (total (map f (around rows cols r c))) (total (map (fun o => if inside rows cols (r + fst o, c + snd o) then f (r + fst o, c + snd o) else 0%Q) offs)).
Proof.
  unfold around.
  assert (E : [(r - 1, c - 1); (r - 1, c); (r - 1, c + 1); (r, c - 1); (r, c); (r, c + 1); (r + 1, c - 1); (r + 1, c); (r + 1, c + 1)]
    = map (fun o => (r + fst o, c + snd o)) offs) by (cbn; repeat f_equal; lia).
  rewrite E. clear E. induction offs as [|o l IH]; [reflexivity|]. cbn [map filter].
  assert (I : forall p, (0 <=? fst p) && (fst p <? rows) && ((0 <=? snd p) && (snd p <? cols)) = inside rows cols p).
  { intros p. apply Bool.eq_iff_eq_true. rewrite inside_iff, !andb_true_iff, !Z.leb_le, !Z.ltb_lt. lia. }
  rewrite I. destruct (inside rows cols (r + fst o, c + snd o)); cbn [map total fold_right]; [|rewrite Qplus_0_l; exact IH].
  apply Qplus_comp; [reflexivity|exact IH].
Qed.
Lemma total_lin s (F F' : Z * Z -> Q) : (forall o, In o offs -> (F' (lin s o) == F o)%Q) -> (total (map F' offs) == total (map F offs))%Q.
Proof.
  intros H. assert (K : (total (map (fun o => F' (lin s o)) offs) == total (map F offs))%Q).
  { revert H. induction offs as [|o l IH]; intros H; [reflexivity|]. cbn [map total fold_right]. apply Qplus_comp; [apply H; left; reflexivity|].
    apply IH. intros; apply H; right; assumption. }
  rewrite <- K. clear K H. destruct s as [[] [] []]; cbn; ring.
Qed.

Section Topo.
Variables (fl : Q -> Q) (M : Z) (sqrt2 cellsize x_left y_upper : Q) (nodata : option Q).
Hypotheses (Hfl : fl_line fl M) (Hs : (0 < sqrt2)%Q) (Hc : (0 < cellsize)%Q).

Lemma wind_line_turned s rows cols d r0 c0 n : wind_line rows cols d r0 c0 n ->
  let p := place s rows cols (r0, c0) in wind_line (rows' s rows cols) (cols' s rows cols) (turn_dir s d) (fst p) (snd p) n.
Proof.
  intros (A & B & C & D & E). cbn zeta. unfold wind_line, down_cell. rewrite !place_up. split; [|split; [|split; [|split]]].
  - rewrite <- surjective_pairing, inside_place. exact A.
  - rewrite inside_place. exact B.
  - exact C.
  - intros t Ht. rewrite place_up, inside_place. exact (D t Ht).
  - rewrite inside_place. exact E.
Qed.
Lemma profile_turned s elev elev' d r0 c0 n : turned s elev elev' -> wind_line (g_rows elev) (g_cols elev) d r0 c0 n ->
  let p := place s (g_rows elev) (g_cols elev) (r0, c0) in
  line_profile elev' (turn_dir s d) (fst p) (snd p) n = line_profile elev d r0 c0 n.
Proof.
  intros (_ & _ & H) (_ & _ & _ & D & _). cbn zeta. unfold line_profile. apply map_ext_in. intros t Ht. apply in_zrange in Ht. unfold down_cell in *. rewrite place_up.
  specialize (D t Ht). destruct (up_pixel d (- t) r0 c0) as [r c]. cbn [fst snd]. rewrite <- (H r c D). reflexivity.
Qed.

Lemma topo_turned s dem dem' : 1 <= g_rows dem <= M -> 1 <= g_cols dem <= M -> turned s dem dem' ->
  exists outs outs', topomult fl sqrt2 cellsize x_left y_upper nodata dem = Ok outs /\ topomult fl sqrt2 cellsize x_left y_upper nodata dem' = Ok outs' /\
    turned_results s outs outs'.
Proof.
  intros Hr Hco T. pose proof T as (E1 & E2 & H).
  assert (Hr' : 1 <= g_rows dem' <= M) by (rewrite E1; destruct (exchanged s); lia).
  assert (Hc' : 1 <= g_cols dem' <= M) by (rewrite E2; destruct (exchanged s); lia).
  destruct (C45_values fl M sqrt2 cellsize x_left y_upper nodata dem Hfl Hs Hc Hr Hco) as (outs & Eo & V).
  destruct (C45_total fl M sqrt2 cellsize x_left y_upper nodata dem Hfl Hs Hc Hr Hco) as (outs2 & Eo2 & _ & G). rewrite Eo in Eo2. injection Eo2 as <-.
  destruct (C45_values fl M sqrt2 cellsize x_left y_upper nodata dem' Hfl Hs Hc Hr' Hc') as (outs' & Eo' & V').
  destruct (C45_total fl M sqrt2 cellsize x_left y_upper nodata dem' Hfl Hs Hc Hr' Hc') as (outs2 & Eo2 & Ds' & G'). rewrite Eo' in Eo2. injection Eo2 as <-.
  exists outs, outs'. split; [exact Eo|]. split; [exact Eo'|]. intros d o I.
  assert (J : In (turn_dir s d) (map fst outs')) by (rewrite Ds'; destruct (turn_dir s d); cbn; tauto).
  apply in_map_iff in J. destruct J as ((d' & o') & Ed & J). cbn in Ed. subst d'. exists o'. split; [exact J|].
  destruct (V d o I) as (elev & raw & N & K & Er & Ec & L & S). destruct (V' _ _ J) as (elev' & raw' & N' & K' & Er' & Ec' & L' & S').
  destruct (G d o I) as (Gr & Gc & Gn). destruct (G' _ _ J) as (Gr' & Gc' & Gn').
  assert (Te : turned s elev elev').
  { split; [rewrite Er', Er, Ec; exact E1|]. split; [rewrite Ec', Er, Ec; exact E2|]. intros r c Irc. cbn zeta. rewrite Er, Ec in *. pose proof (H r c Irc) as X. cbn zeta in X.
    set (p := place s (g_rows dem) (g_cols dem) (r, c)) in *. specialize (N r c). specialize (N' (fst p) (snd p)). rewrite <- X in N'.
    destruct (g_at elev r c) as [|h] eqn:Eh, (g_at elev' (fst p) (snd p)) as [|h'] eqn:Eh'.
    - reflexivity.
    - assert (Y : Num h' = NaN) by (apply N', N; reflexivity). discriminate.
    - assert (Y : Num h = NaN) by (apply N, N'; reflexivity). discriminate.
    - rewrite <- (K r c h Eh). rewrite <- (K' (fst p) (snd p) h' Eh'). exact X. }
  assert (Tr : forall r c, inside (g_rows dem) (g_cols dem) (r, c) = true -> let p := place s (g_rows dem) (g_cols dem) (r, c) in g_at raw' (fst p) (snd p) = g_at raw r c).
  { intros r c Irc. destruct (C41_each_cell_once (g_rows dem) (g_cols dem) d r c) as (r0 & c0 & n & t & (W & Ht & Et) & _); [lia|lia|exact Irc|].
    destruct (L r0 c0 n W) as (m & Em & Vm). pose proof (wind_line_turned s _ _ _ _ _ _ W) as W'. cbn zeta in W'. unfold rows', cols' in W'. rewrite <- E1, <- E2 in W'.
    destruct (L' _ _ _ W') as (m' & Em' & Vm'). rewrite <- Er, <- Ec in W. pose proof (profile_turned s elev elev' d r0 c0 n Te W) as P. cbn zeta in P. rewrite Er, Ec in P.
    rewrite P in Em'.
    assert (Y : match turn_dir s d with NE | NW | SE | SW => fl (cellsize * sqrt2)%Q | _ => cellsize end = match d with NE | NW | SE | SW => fl (cellsize * sqrt2)%Q | _ => cellsize end).
    { clear. destruct s as [[] [] []], d; reflexivity. }
    rewrite Y, Em in Em'. injection Em' as <-. cbn zeta. specialize (Vm t Ht). specialize (Vm' t Ht). rewrite Et in Vm. cbn [fst snd] in Vm. rewrite Vm.
    unfold down_cell in *. rewrite place_up, Et in Vm'. exact Vm'. }
  split; [rewrite Gr', E1, Gr, Gc; reflexivity|]. split; [rewrite Gc', E2, Gr, Gc; reflexivity|]. rewrite Gr, Gc. intros r c Irc. cbn zeta.
  set (p := place s (g_rows dem) (g_cols dem) (r, c)) in *.
  pose proof Te as (_ & _ & He). rewrite Er, Ec in He. pose proof (He r c Irc) as X. cbn zeta in X. fold p in X.
  destruct (g_at elev r c) as [|h] eqn:Eh.
  - assert (g_at o r c = NaN) as -> by (apply Gn, N, Eh). assert (g_at o' (fst p) (snd p) = NaN) as -> by (apply Gn', N'; symmetry; exact X). exact Logic.I.
  - destruct (S r c h Eh) as (q & -> & Q1). destruct (S' (fst p) (snd p) h (eq_sym X)) as (q' & -> & Q2). cbn [same_num]. rewrite Q1, Q2.
    apply Qmult_comp; [|reflexivity]. symmetry. rewrite !total_around. apply (total_lin s). intros [a b] _.
    pose proof (place_lin s (g_rows dem) (g_cols dem) r c (a, b)) as Pl. cbn zeta in Pl. fold p in Pl.
    set (z := lin s (a, b)) in *. rewrite <- Pl. cbn [fst snd]. rewrite E1, E2. fold (rows' s (g_rows dem) (g_cols dem)) (cols' s (g_rows dem) (g_cols dem)).
    rewrite inside_place. destruct (inside (g_rows dem) (g_cols dem) (r + a, c + b)) eqn:Ia; [|reflexivity].
    rewrite (Tr _ _ Ia). pose proof (He _ _ Ia) as X2. cbn zeta in X2. rewrite <- X2. reflexivity.
Qed.
End Topo.
