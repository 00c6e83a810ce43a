(** * Combined multipliers when the sizes of the inputs differ (C77). *)
From Coq Require Import Ascii.
From Verif Require Import Base BaseLemmas PyStr NameModel NameSpec NameProofs PipeSpec ConvModel ConvSpec ConvProofs.
Open Scope Z_scope.

Section Sizes.
  Context {G : Type}.
  Variables (mul : Q -> Q -> Q) (stats_ok : grid num -> bool) (f : rstore G) (path tile : str).
  Variables (W H : dir -> Z) (v : mtype -> dir -> Z -> Z -> num).
  Hypothesis Hs : stats_spec stats_ok.
  Hypothesis Hin : forall ty d, holds f (convert_nc path tile ty d) (W d) (H d) (v ty d).

  Lemma dir_result t (first : bool) out d : (first = true -> t = None) -> (first = false -> t <> None) ->
    exists b, g_rows b = H N_ /\ g_cols b = W N_ /\
      (forall r c, 0 <= r -> 0 <= c -> g_at b r c =
        if (W d <=? W N_) && (H d <=? H N_) && (r <? H d) && (c <? W d)
        then product3 mul (v Shielding d r c) (v Terrain d r c) (v Topographic d r c) else Num 0) /\
      convert_dir mul stats_ok f path tile (W N_) (H N_) (t, first, out) d =
      if stats_ok b then
        Ok ((if first then match f (convert_nc path tile Shielding d) with Some e => Some (r_geo e) | None => None end else t), false, out ++ [Band (dir_str d) b])
      else Err RuntimeError.
  Proof.
    intros Ht _. destruct (Hin Shielding d) as (d1 & b1 & r1 & E1 & B1 & X1 & Y1 & V1).
    destruct (Hin Terrain d) as (d2 & b2 & r2 & E2 & B2 & X2 & Y2 & V2).
    destruct (Hin Topographic d) as (d3 & b3 & r3 & E3 & B3 & X3 & Y3 & V3).
    unfold convert_dir, types. cbn [foldM]. unfold read_type at 1. rewrite E1. cbn [bind]. unfold read_band at 1. rewrite B1. cbn [Z.sub Z.to_nat nth_error bind Z.add Z.opp Z.pos_sub app].
    unfold read_type at 1. rewrite E2. cbn [bind]. unfold read_band at 1. rewrite B2. cbn [Z.sub Z.to_nat nth_error bind Z.add Z.opp Z.pos_sub app].
    unfold read_type at 1. rewrite E3. cbn [bind]. unfold read_band at 1. rewrite B3. cbn [Z.sub Z.to_nat nth_error bind Z.add Z.opp Z.pos_sub app].
    unfold multiply_all. cbn [foldM]. unfold np_multiply at 1. rewrite X1, X2, Y1, Y2, !bdim_same. cbn [bind].
    unfold np_multiply at 1. cbn [g_rows g_cols]. rewrite X3, Y3, !bdim_same. cbn [bind].
    match goal with |- context [write_band _ _ _ _ ?g] => set (m := g) end.
    assert (BG : forall (g : grid num) r c, 0 <= r < g_rows g -> 0 <= c < g_cols g -> bget g r c = g_at g r c) by (intros; apply bget_in; assumption).
    assert (M : forall r c, 0 <= r < H d -> 0 <= c < W d -> g_at m r c = product3 mul (v Shielding d r c) (v Terrain d r c) (v Topographic d r c)).
    { intros r c Hr Hc. unfold m. cbn [g_at]. rewrite BG by (cbn; lia). cbn [g_at]. rewrite !BG by lia. rewrite V1, V2, V3 by assumption.
      unfold product3, nmul. destruct (v Shielding d r c), (v Terrain d r c), (v Topographic d r c); reflexivity. }
    assert (Mr : g_rows m = H d) by reflexivity. assert (Mc : g_cols m = W d) by reflexivity. clearbody m.
    unfold write_band. destruct ((W d <=? W N_) && (H d <=? H N_)) eqn:L.
    - rewrite write_fits by (cbn; lia). cbn [g_rows g_cols new_band]. rewrite write_fits by (cbn; lia). cbn [g_rows g_cols g_at flip_rows].
      match goal with |- context [Ok (Band (dir_str d) ?b)] => exists b end. split; [|split; [|split]]; cycle 3.
      { destruct (stats_ok _); cbn [bind]; [|reflexivity]. destruct first; reflexivity. } all: cbn [g_rows g_cols g_at]; try reflexivity.
      intros r c Hr Hc. rewrite Mr, Mc. cbn [andb]. destruct (Z.ltb_spec r (H d)); cbn [andb]; [|reflexivity].
      destruct (Z.ltb_spec c (W d)); [|reflexivity]. apply M; lia.
    - rewrite write_too_big by (cbn; lia).
      exists (new_band (W N_) (H N_)). do 2 (split; [reflexivity|]). split.
      + intros r c _ _. cbn [andb]. reflexivity.
      + destruct (stats_ok _); cbn [bind]; [|reflexivity]. destruct first; reflexivity.
  Qed.
End Sizes.

(** The three inputs of a direction have the same size, but the directions may differ: the result has the
    size of the northern shielding file; a direction that fits is written from its north-western corner and
    filled up with 0, and a direction that is larger is 0 throughout.  No error is raised. *)
Definition padded (W H : dir -> Z) (prod : dir -> Z -> Z -> num) (d : dir) (r c : Z) : num :=
  if (W d <=? W N_) && (H d <=? H N_) && (r <? H d) && (c <? W d) then prod d r c else Num 0.

Theorem C77_directions {G} mul stats_ok (f : rstore G) path tile W H v e :
  stats_spec stats_ok ->
  (forall ty d, holds f (convert_nc path tile ty d) (W d) (H d) (v ty d)) ->
  f (convert_nc path tile Shielding E_) = Some e ->
  let prod d r c := product3 mul (v Shielding d r c) (v Terrain d r c) (v Topographic d r c) in
  (forall d, exists r c q, 0 <= r < H N_ /\ 0 <= c < W N_ /\ padded W H prod d r c = Num q) ->
  exists f' bs, process_tile mul stats_ok path tile f = Ok f' /\
    f' (pjoin (pjoin path (lit "M3")) (tile ++ lit ".tif")) = Some (Raster (r_geo e) bs) /\
    Forall2 (fun d b => is_band b (dir_str d) (W N_) (H N_) (padded W H prod d)) band_dirs bs.
Proof.
  intros Hs Hin He prod Hp.
  assert (S : forall t (first : bool) out d, (first = true -> t = None) -> (first = false -> t <> None) ->
    exists b, is_band b (dir_str d) (W N_) (H N_) (padded W H prod d) /\
      convert_dir mul stats_ok f path tile (W N_) (H N_) (t, first, out) d =
      Ok ((if first then match f (convert_nc path tile Shielding d) with Some e => Some (r_geo e) | None => None end else t), false, out ++ [b])).
  { intros t first out d H1 H2. destruct (dir_result mul stats_ok f path tile W H v Hin t first out d H1 H2) as (b & R & C & A & E).
    exists (Band (dir_str d) b). split.
    - split; [reflexivity|]. split; [exact C|]. split; [exact R|]. intros r c Hr Hc. cbn [b_data]. rewrite A by lia. reflexivity.
    - rewrite E. replace (stats_ok b) with true; [reflexivity|]. symmetry. apply Hs. destruct (Hp d) as (r & c & q & Hr & Hc & Q1).
      exists r, c, q. split; [split; lia|]. rewrite A by lia. exact Q1. }
  assert (L : forall ds t out, t <> None -> exists bs, Forall2 (fun d b => is_band b (dir_str d) (W N_) (H N_) (padded W H prod d)) ds bs /\
    foldM (convert_dir mul stats_ok f path tile (W N_) (H N_)) ds (t, false, out) = Ok (t, false, out ++ bs)).
  { induction ds as [|d ds IH]; intros t out N.
    - exists []. split; [constructor|]. rewrite app_nil_r. reflexivity.
    - destruct (S t false out d) as (b & Hb & E); [discriminate|auto|]. destruct (IH t (out ++ [b]) N) as (bs & Hbs & E').
      exists (b :: bs). split; [constructor; assumption|]. cbn [foldM]. rewrite E. cbn [bind]. rewrite E', <- app_assoc. reflexivity. }
  destruct (S None true [] E_) as (b0 & Hb0 & E0); [auto|discriminate|]. rewrite He in E0.
  destruct (L [N_; NE; NW; S_; SE; SW; W_] (Some (r_geo e)) ([] ++ [b0])) as (bs & Hbs & E1); [discriminate|].
  assert (K : m3_raster mul stats_ok f path tile = Ok (Raster (r_geo e) (b0 :: bs))).
  { unfold m3_raster. destruct (Hin Shielding N_) as (n & b & rest & En & Eb & X1 & Y1 & _). unfold gopen. rewrite En. cbn [bind]. unfold read_band at 1. rewrite Eb.
    cbn [Z.sub Z.to_nat nth_error bind Z.add Z.opp Z.pos_sub]. rewrite X1, Y1.
    change (foldM (convert_dir mul stats_ok f path tile (W N_) (H N_)) directions (None, true, [])) with
      (bind (convert_dir mul stats_ok f path tile (W N_) (H N_) (None, true, []) E_)
        (foldM (convert_dir mul stats_ok f path tile (W N_) (H N_)) [N_; NE; NW; S_; SE; SW; W_])).
    rewrite E0. cbn [bind]. rewrite E1. reflexivity. }
  unfold process_tile. rewrite K. cbn [bind]. eexists; exists (b0 :: bs). split; [reflexivity|]. split.
  - unfold rput, m3_path. destruct (list_eq_dec _ _ _); [reflexivity|contradiction].
  - constructor; assumption.
Qed.
Print Assumptions C77_directions.

(** Two of the three inputs of a direction have different sizes and neither is a single row or column:
    no file is written. *)
Theorem C77_types {G} mul stats_ok (f : rstore G) path tile d t1 t2 w1 h1 v1 w2 h2 v2 w3 h3 v3 :
  holds f (convert_nc path tile Shielding d) w1 h1 v1 -> holds f (convert_nc path tile Terrain d) w2 h2 v2 ->
  holds f (convert_nc path tile Topographic d) w3 h3 v3 ->
  let wide ty := match ty with Shielding => w1 | Terrain => w2 | Topographic => w3 end in
  let high ty := match ty with Shielding => h1 | Terrain => h2 | Topographic => h3 end in
  (wide t1 <> wide t2 /\ wide t1 <> 1 /\ wide t2 <> 1) \/ (high t1 <> high t2 /\ high t1 <> 1 /\ high t2 <> 1) ->
  exists er, process_tile mul stats_ok path tile f = Err er.
Proof.
  intros (d1 & b1 & r1 & E1 & B1 & X1 & Y1 & _) (d2 & b2 & r2 & E2 & B2 & X2 & Y2 & _) (d3 & b3 & r3 & E3 & B3 & X3 & Y3 & _) wide high Hne.
  unfold process_tile, m3_raster. destruct (gopen f _) as [tmp|er]; [|eexists; reflexivity]. cbn [bind].
  destruct (read_band tmp 1) as [bb|er]; [|eexists; reflexivity]. cbn [bind].
  destruct (foldM_fails (convert_dir mul stats_ok f path tile (g_cols bb) (g_rows bb)) d) with (l := directions) (s := (@None G, true, @nil band)) as (er & ->).
  - intros [[tr first] out]. unfold convert_dir, types. cbn [foldM].
    unfold read_type at 1. rewrite E1. cbn [bind]. unfold read_band at 1. rewrite B1. cbn [Z.sub Z.to_nat nth_error bind Z.add Z.opp Z.pos_sub app].
    unfold read_type at 1. rewrite E2. cbn [bind]. unfold read_band at 1. rewrite B2. cbn [Z.sub Z.to_nat nth_error bind Z.add Z.opp Z.pos_sub app].
    unfold read_type at 1. rewrite E3. cbn [bind]. unfold read_band at 1. rewrite B3. cbn [Z.sub Z.to_nat nth_error bind Z.add Z.opp Z.pos_sub app].
    assert (K : exists er, multiply_all mul [b_data b1; b_data b2; b_data b3] = Err er).
    { unfold multiply_all. cbn [foldM]. unfold np_multiply at 1. rewrite X1, X2, Y1, Y2.
      destruct (bdim h1 h2) as [hh|] eqn:EH; [|eexists; reflexivity]. destruct (bdim w1 w2) as [ww|] eqn:EW; [|eexists; reflexivity]. cbn [bind].
      unfold np_multiply. cbn [g_rows g_cols]. rewrite X3, Y3.
      destruct (bdim hh h3) as [h'|] eqn:EH'; [|eexists; reflexivity]. destruct (bdim ww w3) as [w'|] eqn:EW'; [|eexists; reflexivity].
      exfalso. unfold bdim in *.
      assert (A : forall a b x, (if a =? b then Some a else if a =? 1 then Some b else if b =? 1 then Some a else None) = Some x ->
        (a = b \/ a = 1 \/ b = 1) /\ (a = 1 -> x = b) /\ (a <> 1 -> x = a)).
      { intros a b x. destruct (Z.eqb_spec a b), (Z.eqb_spec a 1), (Z.eqb_spec b 1); intros E; try discriminate; injection E as <-; lia. }
      apply A in EH, EW, EH', EW'. unfold wide, high in Hne. clear - EH EW EH' EW' Hne.
      destruct Hne as [(N1 & N2 & N3)|(N1 & N2 & N3)]; [clear EH EH'|clear EW EW'].
      - destruct (Z.eq_dec w1 1), (Z.eq_dec ww 1), t1, t2; lia.
      - destruct (Z.eq_dec h1 1), (Z.eq_dec hh 1), t1, t2; lia. }
    destruct K as (er & ->). exists er. reflexivity.
  - destruct d; cbn; tauto.
  - exists er. reflexivity.
Qed.
Print Assumptions C77_types.

(** "All bands cover the tile" is false: the west is one column narrower than the north, and
    its eastern column is 0, and the south one column wider, and it is 0 throughout. *)
Definition odd_w (d : dir) : Z := match d with W_ => 1 | S_ => 3 | _ => 2 end.
Definition odd_files : rstore Z := fun p =>
  match find (fun x => if list_eq_dec ascii_dec p (convert_nc (lit "out") (lit "t") (fst x) (snd x)) then true else false)
             (list_prod [Shielding; Terrain; Topographic] band_dirs) with
  | Some (_, d) => Some (Raster 7 [Band [] (Grid 1 (odd_w d) (fun _ _ => Num 1))])
  | None => None
  end.

(** The files of the example meet the hypotheses of C77_directions. *)
Example C77_example : forall ty d, holds odd_files (convert_nc (lit "out") (lit "t") ty d) (odd_w d) 1 (fun _ _ => Num 1).
Proof.
  intros ty d. destruct ty, d; (eexists; eexists; eexists; split; [vm_compute; reflexivity|]; split; [reflexivity|]; split; [reflexivity|]; split; [reflexivity|]; reflexivity).
Qed.

Theorem C77_cover_refuted : forall stats_ok, stats_spec stats_ok -> exists f1 bs w s,
  process_tile Qmult stats_ok (lit "out") (lit "t") odd_files = Ok f1 /\ f1 (lit "out/M3/t.tif") = Some (Raster 7 bs) /\
  nth_error bs 7 = Some w /\ b_desc w = lit "w" /\ g_at (b_data w) 0 0 = Num 1 /\ g_at (b_data w) 0 1 = Num 0 /\
  nth_error bs 4 = Some s /\ b_desc s = lit "s" /\ g_at (b_data s) 0 0 = Num 0 /\ g_at (b_data s) 0 1 = Num 0.
Proof.
  intros stats_ok Hs.
  destruct (C77_directions Qmult stats_ok odd_files (lit "out") (lit "t") odd_w (fun _ => 1) (fun _ _ _ _ => Num 1)
    (Raster 7 [Band [] (Grid 1 2 (fun _ _ => Num 1))]) Hs C77_example) as (f1 & bs & E & F & B).
  - vm_compute. reflexivity.
  - intros d. exists 0, 0. destruct d; (eexists; split; [lia|]; split; [cbn; lia|reflexivity]).
  - unfold band_dirs in B. repeat match goal with H : Forall2 _ (_ :: _) _ |- _ => inversion H; clear H; subst end.
    match goal with H : Forall2 _ [] _ |- _ => inversion H; clear H; subst end.
    exists f1. eexists; eexists; eexists. split; [exact E|]. split; [exact F|].
    repeat match goal with H : is_band _ _ _ _ _ |- _ => destruct H as (? & ? & ? & ?) end. cbn [odd_w] in *.
    split; [reflexivity|]. split; [assumption|].
    split; [match goal with H : forall r c, _ -> _ -> g_at (b_data ?b) r c = padded _ _ _ W_ r c |- _ = _ => rewrite H by lia end; reflexivity|].
    split; [match goal with H : forall r c, _ -> _ -> g_at (b_data ?b) r c = padded _ _ _ W_ r c |- _ = _ => rewrite H by lia end; reflexivity|].
    split; [reflexivity|]. split; [assumption|].
    split; (match goal with H : forall r c, _ -> _ -> g_at (b_data ?b) r c = padded _ _ _ S_ r c |- _ = _ => rewrite H by lia end; reflexivity).
Qed.
Print Assumptions C77_cover_refuted.
