(** * Theorems about the rasterised land cover (C78). *)
From Coq Require Import Ascii String Qabs.
From Verif Require Import Base BaseLemmas PyStr UtilModel PreModel PreSpec UtilProofs PreProofs PreProps Rounding TileModel TileSpec TileProofs ClipModel ClipProofs TileProps
  ReprModel ReprSpec ReprProofs ReprProps RastModel RastSpec.
Open Scope Z_scope.

Lemma half_floor z : Qfloor (inject_Z z + (1#2)) = z.
Proof. apply Qfloor_unique; lra. Qed.

Lemma str_eqb_eq a b : str_eqb a b = true <-> a = b.
Proof. destruct (str_eqb_spec a b); split; congruence. Qed.

Section P.
  Context {G : Type} (covers : G -> Q * Q -> bool) (tr : str -> str -> Q * Q -> Q * Q) (atof : str -> Q).
  Notation fold l p v0 := (fold_left (fun v (f : attrs * option G) =>
        match snd f with Some g => if covers g p then burnt atof (fst f) else v | None => v end) l v0).

  Lemma fold_uncovered l p v : uncovered covers l p -> fold l p v = v.
  Proof.
    revert v. induction l as [|[a [g|]] l IH]; intros v H; cbn [fold_left snd fst]; [reflexivity| |].
    - rewrite (H a g (or_introl eq_refl)). apply IH. intros a' g' I. apply (H a' g'). right. exact I.
    - apply IH. intros a' g' I. apply (H a' g'). right. exact I.
  Qed.

  Lemma fold_topmost l p v a g : topmost covers l p a g -> fold l p v = burnt atof a.
  Proof.
    intros (b & r & -> & C & N). rewrite fold_left_app. cbn [fold_left snd fst]. rewrite C. apply fold_uncovered. exact N.
  Qed.

  Lemma topmost_dec l p : uncovered covers l p \/ exists a g, topmost covers l p a g.
  Proof.
    induction l as [|[a [g|]] l IH].
    - left. intros a g [].
    - destruct IH as [U|(a' & g' & b & r & -> & C & N)].
      + destruct (covers g p) eqn:C.
        * right. exists a, g, [], l. auto.
        * left. intros a' g' [E|I]; [injection E as <- <-; exact C|exact (U a' g' I)].
      + right. exists a', g', ((a, Some g) :: b), r. auto.
    - destruct IH as [U|(a' & g' & b & r & -> & C & N)].
      + left. intros a' g' [E|I]; [discriminate|exact (U a' g' I)].
      + right. exists a', g', ((a, None) :: b), r. auto.
  Qed.

  Lemma burn_at l p : In (lit "CAT") (l_fields l) -> burn covers atof l p = fold (l_features l) p 0%Q.
  Proof.
    intros H. unfold burn. assert (E : existsb (str_eqb (lit "CAT")) (l_fields l) = true) by (apply existsb_exists; exists (lit "CAT"); split; [exact H|reflexivity]).
    rewrite E. reflexivity.
  Qed.

  Lemma burn_range l p : exists z, burn covers atof l p = inject_Z z /\ 0 <= z <= 65535.
  Proof.
    unfold burn. destruct (existsb _ _); [|exists 0; split; [reflexivity|lia]]. assert (H : exists z, 0%Q = inject_Z z /\ 0 <= z <= 65535) by (exists 0; split; [reflexivity|lia]).
    revert H. generalize 0%Q. induction (l_features l) as [|f fs IH]; intros q H; [exact H|]. cbn [fold_left]. apply IH.
    destruct (snd f) as [g|]; [|exact H]. destruct (covers g p); [|exact H]. unfold burnt, to_u16. eexists. split; [reflexivity|]. lia.
  Qed.

  Lemma to_u16_int z : 0 <= z <= 65535 -> to_u16 (inject_Z z) = inject_Z z.
  Proof.
    intros H. unfold to_u16. rewrite half_floor. f_equal. lia.
  Qed.
End P.

(** Missing files are an AttributeError; otherwise the result has the grid and projection of the
    elevation raster, 16 bits without sign and the no-data value 0. *)
Theorem C78_grid : forall G (covers : G -> Q * Q -> bool) tr atof vec ras input topo,
  (vec input = None \/ ras topo = None -> rasterize covers tr atof vec ras input topo = Err AttributeError) /\
  (forall l t, vec input = Some l -> ras topo = Some t -> exists o, rasterize covers tr atof vec ras input topo = Ok o /\
     g_rows (im_cells o) = g_rows (im_cells t) /\ g_cols (im_cells o) = g_cols (im_cells t) /\
     im_x o = im_x t /\ im_dx o = im_dx t /\ im_y o = im_y t /\ im_dy o = im_dy t /\ im_proj o = im_proj t /\
     im_type o = UInt16 /\ im_nodata o = Some 0%Q).
Proof.
  intros G covers tr atof vec ras input topo. unfold rasterize. split.
  - intros [->| ->]; [reflexivity|]. destruct (vec input); reflexivity.
  - intros l t -> ->. eexists. split; [reflexivity|]. repeat split.
Qed.
Print Assumptions C78_grid.

Lemma rasterize_at {G} (covers : G -> Q * Q -> bool) tr atof vec ras input topo l t o r c :
  vec input = Some l -> ras topo = Some t -> rasterize covers tr atof vec ras input topo = Ok o ->
  g_at (im_cells o) r c = burn covers atof l (point_of tr l t r c).
Proof. unfold rasterize. intros -> -> E. injection E as <-. reflexivity. Qed.

(** Each pixel holds the category of the last feature of the file that covers its centre, 0 if none
    does; categories outside 0 .. 65535 become the nearest of these, a missing category 0. *)
Theorem C78_values : forall G (covers : G -> Q * Q -> bool) tr atof vec ras input topo l t o r c,
  vec input = Some l -> ras topo = Some t -> rasterize covers tr atof vec ras input topo = Ok o -> In (lit "CAT") (l_fields l) ->
  let p := point_of tr l t r c in let v := g_at (im_cells o) r c in
  (uncovered covers (l_features l) p -> (v == 0)%Q) /\
  (forall a g z, topmost covers (l_features l) p a g -> aget a (lit "CAT") = Ok (VInt z) ->
     (0 <= z <= 65535 -> (v == inject_Z z)%Q) /\ (z < 0 -> (v == 0)%Q) /\ (65535 < z -> (v == 65535)%Q)) /\
  (forall a g, topmost covers (l_features l) p a g -> aget a (lit "CAT") = Ok VNone -> (v == 0)%Q).
Proof.
  intros G covers tr atof vec ras input topo l t o r c Hv Hr E F p v. unfold v. rewrite (rasterize_at covers tr atof vec ras input topo l t o r c Hv Hr E). fold p.
  rewrite burn_at by exact F. split; [|split].
  - intros U. rewrite fold_uncovered by exact U. reflexivity.
  - intros a g z T Ez. rewrite (fold_topmost _ _ _ _ _ a g T). unfold burnt. rewrite Ez. split; [|split].
    + intros H. rewrite to_u16_int by exact H. reflexivity.
    + intros H. unfold to_u16. rewrite half_floor. replace (Z.min 65535 (Z.max 0 z)) with 0 by lia. reflexivity.
    + intros H. unfold to_u16. rewrite half_floor. replace (Z.min 65535 (Z.max 0 z)) with 65535 by lia. reflexivity.
  - intros a g T Ez. rewrite (fold_topmost _ _ _ _ _ a g T). unfold burnt. rewrite Ez. reflexivity.
Qed.
Print Assumptions C78_values.

(** Every pixel is of one of these kinds. *)
Theorem C78_cases : forall G (covers : G -> Q * Q -> bool) l p,
  uncovered covers l p \/ exists a g, topmost covers l p a g.
Proof. intros G. exact topmost_dec. Qed.
Print Assumptions C78_cases.

(** Without a field of that name everything is 0, and nothing is raised. *)
Theorem C78_no_field : forall G (covers : G -> Q * Q -> bool) tr atof vec ras input topo l t,
  vec input = Some l -> ras topo = Some t -> ~ In (lit "CAT") (l_fields l) ->
  exists o, rasterize covers tr atof vec ras input topo = Ok o /\ forall r c, (g_at (im_cells o) r c == 0)%Q.
Proof.
  intros G covers tr atof vec ras input topo l t Hv Hr F. destruct (proj2 (C78_grid G covers tr atof vec ras input topo) l t Hv Hr) as (o & E & _).
  exists o. split; [exact E|]. intros r c. rewrite (rasterize_at covers tr atof vec ras input topo l t o r c Hv Hr E). unfold burn.
  destruct (existsb (str_eqb (lit "CAT")) (l_fields l)) eqn:X; [|reflexivity]. exfalso. apply F. apply existsb_exists in X. destruct X as (n & I & Q1).
  apply str_eqb_eq in Q1. rewrite Q1. exact I.
Qed.
Print Assumptions C78_no_field.

Lemma forall2_cons {A B} (P : A -> B -> Prop) x l m : Forall2 P (x :: l) m -> exists y m', m = y :: m' /\ P x y /\ Forall2 P l m'.
Proof. intros H. inversion H as [|x' y l' m' H1 H2]. exists y, m'. auto. Qed.

(** The categories made by pre_process. *)
Lemma pre_process_cat {G} fl (ge : geo G) sc lc sf lf mask out f : pre_process fl ge sc lc sf lf mask = Ok out -> In f out ->
  exists z, aget (fst f) (lit "CAT") = Ok (VInt z) /\ 0 <= z <= 511.
Proof.
  unfold pre_process. intros H I. destruct (authorise sc (read sf)) as [s1|]; [|discriminate]. cbn [bind] in H.
  destruct (dissolve ge sc s1) as [s2|]; [|discriminate]. cbn [bind] in H.
  match type of H with bind ?x _ = _ => destruct x as [[s3 u]|]; [|discriminate] end. cbn [bind] in H.
  destruct (spatial_join fl ge sc s3 u) as [j|]; [|discriminate]. cbn [bind] in H.
  apply mapM_forall2 in H. destruct (forall2_right _ _ _ f H I) as (f0 & _ & E).
  destruct (categorise sc lc (fst f0)) as [a|] eqn:C; [|discriminate]. cbn [bind] in E. injection E as <-.
  destruct (C56_range sc lc (fst f0) a C) as (z & Ez & R & _). exists z. auto.
Qed.

Lemma in_written {G} (l : list (feature G)) a g : In (a, Some g) (written l) <-> In (a, g) l.
Proof.
  unfold written. rewrite in_map_iff. split.
  - intros ([a' g'] & E & I). injection E as <- <-. exact I.
  - intros I. exists (a, g). auto.
Qed.

Lemma written_split {G} (l : list (feature G)) b a g r : written l = b ++ (a, Some g) :: r -> exists l1 l2, l = l1 ++ (a, g) :: l2 /\ b = written l1 /\ r = written l2.
Proof.
  revert b. induction l as [|[a0 g0] l IH]; intros b E.
  - destruct b; discriminate.
  - destruct b as [|x b]; cbn in E.
    + injection E as <- <- <-. exists [], l. auto.
    + injection E as <- E. destruct (IH b E) as (l1 & l2 & -> & -> & ->). exists ((a0, g0) :: l1), l2. auto.
Qed.

(** The map prepared from settlements and land use: a pixel whose centre the last covering land-use
    polygon (cut to the mask) covers holds the code that spells out the settlement class of that
    polygon and its land use; a pixel outside all of them holds 0. *)
Theorem C78_prepared : forall G fp e (ge : geo G) (covers : G -> Q * Q -> bool) tr atof sc lc sf lf mask d out vec ras input topo l t o r c,
  within fp e -> tree_ok ge -> areas_ok ge -> sc <> lc ->
  (mask = None /\ d = None \/ exists m a0 g0 rest, mask = Some m /\ read m = (a0, g0) :: rest /\ d = Some g0) ->
  pre_process fp ge sc lc sf lf mask = Ok out -> l_features l = written out -> In (lit "CAT") (l_fields l) ->
  vec input = Some l -> ras topo = Some t -> rasterize covers tr atof vec ras input topo = Ok o ->
  let p := point_of tr l t r c in let v := g_at (im_cells o) r c in let polygons := written (clip_all ge d (read lf)) in
  (uncovered covers polygons p -> (v == 0)%Q) /\
  (forall a g, topmost covers polygons p a g -> exists u z k, aget a lc = Ok u /\ 0 <= z <= 511 /\ (v == inject_Z z)%Q /\
     decode z = (k, known use_names u) /\ settled_by e ge d sc (read sf) g k).
Proof.
  intros G fp e ge covers tr atof sc lc sf lf mask d out vec ras input topo l t o r c W T A N Hm Hp Hl Hf Hv Hr E p v polygons.
  pose proof (C67_preparation G fp e ge sc lc sf lf mask out d W T A N Hm Hp) as F.
  destruct (C78_values G covers tr atof vec ras input topo l t o r c Hv Hr E Hf) as (V0 & V1 & _). fold p v in V0, V1. rewrite Hl in V0, V1.
  set (L := clip_all ge d (read lf)) in *. split.
  - intros U. apply V0. intros a g I. apply (proj1 (in_written out a g)) in I. destruct (forall2_right _ _ _ _ F I) as ([a0 g0] & I0 & Eg & _). cbn [fst snd] in Eg. subst g0.
    apply (U a0 g). apply in_written. exact I0.
  - intros a g (b & e' & Es & C & Nx). apply written_split in Es. destruct Es as (L1 & L2 & EL & -> & ->). rewrite EL in F.
    apply Forall2_app_inv_l in F. destruct F as (o1 & o2' & F1 & F2 & Eo). destruct (forall2_cons _ _ _ _ F2) as ([a' g'] & o2 & -> & (Eg & _ & u & z & k & Hu & Hz & D & S) & F3).
    cbn [fst snd] in *. subst g'. exists u, z, k. split; [exact Hu|].
    destruct (pre_process_cat fp ge sc lc sf lf mask out (a', g) Hp) as (z' & Ez & R); [rewrite Eo; apply in_elt|].
    cbn [fst] in Ez. rewrite Hz in Ez. injection Ez as <-. split; [exact R|]. split; [|split; [exact D|exact S]].
    apply (V1 a' g z); [|exact Hz|lia]. exists (written o1), (written o2). rewrite Eo. unfold written. rewrite map_app. cbn [map fst snd]. split; [reflexivity|]. split; [exact C|].
    intros a2 g2 I. apply (proj1 (in_written o2 a2 g2)) in I. destruct (forall2_right _ _ _ _ F3 I) as ([a0 g0] & I0 & Eg & _). cbn [fst snd] in Eg. subst g0. apply (Nx a0 g2). apply in_written. exact I0.
Qed.
Print Assumptions C78_prepared.

(** If the map was rasterised on the grid of the elevation raster, the land cover of tile [k] holds
    exactly the pixels of the map in the buffered window of the tile. *)
Theorem C78_tile : forall G (covers : G -> Q * Q -> bool) tr atof vec ras input topo dem o fl upwind ds tg k wkt fs,
  fl_ok fl -> good_raster upwind ds -> coords_ok ds -> mk_tilegrid fl upwind ds = Ok tg -> 0 <= k < num_tiles tg ->
  (forall p q, tr p p q = q) ->
  im_x dem = gt0 ds -> im_dx dem = gt1 ds -> im_y dem = gt3 ds -> im_dy dem = gt5 ds ->
  g_rows (im_cells dem) = r_ysize ds -> g_cols (im_cells dem) = r_xsize ds ->
  ras topo = Some dem -> rasterize covers tr atof vec ras input topo = Ok o ->
  exists X1 X2 Y1 Y2 ext out, get_gridlimit_buffer tg k = Ok (X1, X2, Y1, Y2) /\ get_tile_extent_buffer fl tg k = Ok ext /\
    reproject_dataset tr wkt fs (Opened o) (Opened (clip_dataset fl tr dem ext)) None = Ok out /\
    g_rows (im_cells out) = Y2 - Y1 /\ g_cols (im_cells out) = X2 - X1 /\
    forall i j, 0 <= i < Y2 - Y1 -> 0 <= j < X2 - X1 -> (g_at (im_cells out) i j == g_at (im_cells o) (Y1 + i) (X1 + j))%Q.
Proof.
  intros G covers tr atof vec ras input topo dem o fl upwind ds tg k wkt fs Hfl Hg Hco Hmk Hk Htr Ex Edx Ey Edy Er Ec Hd Ho.
  set (dem0 := Image Int32 (im_proj dem) (im_x dem) (im_dx dem) (im_y dem) (im_dy dem) None (im_cells dem)).
  destruct (C76_tile fl tr upwind ds dem0 tg k Hfl Hg Hco Hmk Hk Htr Ex Edx Ey Edy Er Ec eq_refl (fun _ _ => or_introl eq_refl))
    as (X1 & X2 & Y1 & Y2 & ext & GB & EB & P1 & P2 & P3 & _ & P4 & P5 & P6 & P7 & _).
  destruct (buffer_contains fl upwind ds tg k Hfl Hg Hmk Hk)
    as (a1 & a2 & b1 & b2 & A1 & A2 & B1 & B2 & GL' & GB' & Bx1 & Bx2 & Bx3 & By1 & By2 & By3).
  rewrite GB in GB'. injection GB' as <- <- <- <-.
  remember (clip_dataset fl tr dem ext) as m eqn:Em.
  assert (M : im_proj m = im_proj dem /\ im_dx m = im_dx dem /\ (im_dy m == im_dy dem)%Q /\
    (Qabs (im_x m - (im_x dem + inject_Z X1 * im_dx dem)) <= (1#2048) * im_dx dem)%Q /\
    (Qabs (im_y m - (im_y dem + inject_Z Y1 * im_dy dem)) <= (1#2048) * - im_dy dem)%Q /\
    g_rows (im_cells m) = Y2 - Y1 /\ g_cols (im_cells m) = X2 - X1).
  { rewrite Em. revert P1 P2 P3 P4 P5 P6 P7. unfold clip_dataset. destruct ext as [[[e0 e1] e2] e3]. cbn [dem0 im_dx im_dy im_x im_y im_proj im_type im_cells].
    destruct (clip_dataset_size fl _ _ _) as [wide high]. cbn. intros P1 P2 P3 P4 P5 P6 P7. repeat (split; [assumption|]). assumption. }
  destruct M as (M1 & M2 & M3 & M4 & M5 & M6 & M7).
  destruct (vec input) as [l|] eqn:Hv; [|unfold rasterize in Ho; rewrite Hv in Ho; discriminate].
  destruct (proj2 (C78_grid G covers tr atof vec ras input topo) l dem Hv Hd) as (o' & Ho' & O1 & O2 & O3 & O4 & O5 & O6 & O7 & O8 & O9).
  rewrite Ho in Ho'. injection Ho' as <-.
  destruct (proj2 (C76_grid tr wkt fs (Opened o) (Opened m) None) o m (or_introl eq_refl) (or_introl eq_refl)) as (out & R & R1 & R2 & _).
  exists X1, X2, Y1, Y2, ext, out. split; [exact GB|]. split; [exact EB|]. split; [rewrite <- Em; exact R|]. split; [congruence|]. split; [congruence|].
  intros i j Hi Hj. pose proof Hg as (Dx & Dy & Hw & Hh & Hu).
  assert (NU : north_up o) by (split; [rewrite O4, Edx; exact Hw|rewrite O6, Edy; exact Hh]).
  destruct (C76_values tr wkt fs o m out i j (centre_x m j) (centre_y m i) NU R) as [V _]; [rewrite M1, O7; apply Htr|].
  apply Qabs_le_iff in M4. apply Qabs_le_iff in M5. rewrite Edx in M4. rewrite Edy in M5. rewrite Edy in M3. rewrite Edx in M2.
  destruct (V (Y1 + i) (X1 + j)) as [V1 V2].
  { unfold in_pixel, centre_x, centre_y. rewrite O1, O2, O3, O4, O5, O6, M2, M3, Edx, Edy, Er, Ec, !inject_Z_plus. change (inject_Z 1) with 1%Q.
    split; [lia|]. split; [lia|]. repeat split; lra. }
  destruct (Qeq_dec (g_at (im_cells o) (Y1 + i) (X1 + j)) 0) as [Z0|NZ].
  - rewrite Z0. apply V1. exists 0%Q. auto.
  - apply V2; [rewrite O9; intros n En; injection En as <-; exact NZ|]. right.
    rewrite (rasterize_at covers tr atof vec ras input topo l dem o _ _ Hv Hd Ho).
    destruct (burn_range covers atof l (point_of tr l dem (Y1 + i) (X1 + j))) as (z & Ez & Rz). exists z, 0. split; [lia|]. rewrite Ez. change (2 ^ 0)%Q with 1%Q. lra.
Qed.
Print Assumptions C78_tile.

(** Both together: the code in the land cover of a tile. *)
Theorem C78_land_cover : forall G fp e (ge : geo G) (covers : G -> Q * Q -> bool) tr atof sc lc sf lf mask d out vec ras input topo l dem o fl upwind ds tg k wkt fs,
  within fp e -> tree_ok ge -> areas_ok ge -> sc <> lc ->
  (mask = None /\ d = None \/ exists m a0 g0 rest, mask = Some m /\ read m = (a0, g0) :: rest /\ d = Some g0) ->
  pre_process fp ge sc lc sf lf mask = Ok out -> l_features l = written out -> In (lit "CAT") (l_fields l) ->
  vec input = Some l -> ras topo = Some dem -> rasterize covers tr atof vec ras input topo = Ok o ->
  fl_ok fl -> good_raster upwind ds -> coords_ok ds -> mk_tilegrid fl upwind ds = Ok tg -> 0 <= k < num_tiles tg ->
  (forall p q, tr p p q = q) ->
  im_x dem = gt0 ds -> im_dx dem = gt1 ds -> im_y dem = gt3 ds -> im_dy dem = gt5 ds ->
  g_rows (im_cells dem) = r_ysize ds -> g_cols (im_cells dem) = r_xsize ds ->
  exists X1 X2 Y1 Y2 ext tile, get_gridlimit_buffer tg k = Ok (X1, X2, Y1, Y2) /\ get_tile_extent_buffer fl tg k = Ok ext /\
    reproject_dataset tr wkt fs (Opened o) (Opened (clip_dataset fl tr dem ext)) None = Ok tile /\
    forall i j, 0 <= i < Y2 - Y1 -> 0 <= j < X2 - X1 ->
      let p := point_of tr l dem (Y1 + i) (X1 + j) in let v := g_at (im_cells tile) i j in let polygons := written (clip_all ge d (read lf)) in
      (uncovered covers polygons p -> (v == 0)%Q) /\
      (forall a g, topmost covers polygons p a g -> exists u z n, aget a lc = Ok u /\ 0 <= z <= 511 /\ (v == inject_Z z)%Q /\
         decode z = (n, known use_names u) /\ settled_by e ge d sc (read sf) g n).
Proof.
  intros G fp e ge covers tr atof sc lc sf lf mask d out vec ras input topo l dem o fl upwind ds tg k wkt fs W T A N Hm Hp Hl Hf Hv Hr E Hfl Hg Hco Hmk Hk Htr Ex Edx Ey Edy Er Ec.
  destruct (C78_tile G covers tr atof vec ras input topo dem o fl upwind ds tg k wkt fs Hfl Hg Hco Hmk Hk Htr Ex Edx Ey Edy Er Ec Hr E)
    as (X1 & X2 & Y1 & Y2 & ext & tile & H1 & H2 & H3 & _ & _ & H4).
  exists X1, X2, Y1, Y2, ext, tile. split; [exact H1|]. split; [exact H2|]. split; [exact H3|]. intros i j Hi Hj p v polygons.
  destruct (C78_prepared G fp e ge covers tr atof sc lc sf lf mask d out vec ras input topo l dem o (Y1 + i) (X1 + j) W T A N Hm Hp Hl Hf Hv Hr E) as [V0 V1].
  fold p polygons in V0, V1. split.
  - intros U. unfold v. rewrite (H4 i j Hi Hj). exact (V0 U).
  - intros a g Ht. destruct (V1 a g Ht) as (u & z & n & Hu & R & Hz & D & S). exists u, z, n. split; [exact Hu|]. split; [exact R|]. split; [|auto].
    unfold v. rewrite (H4 i j Hi Hj). exact Hz.
Qed.
Print Assumptions C78_land_cover.

(** ** rasterize.py *)

(** Without a mask the script writes test.tiff, the raster of the CAT values on the grid of the
    elevation raster, and nothing else, whatever attribute was asked for. *)
Theorem C78_script : forall G (covers : G -> Q * Q -> bool) tr atof cut vec ras input attribute topography o,
  rasterize covers tr atof vec ras input topography = Ok o ->
  exists ras', script covers tr atof cut vec ras input attribute topography None = Ok ras' /\
    ras' (lit "test.tiff") = Some o /\ forall f, f <> lit "test.tiff" -> ras' f = ras f.
Proof.
  intros G covers tr atof cut vec ras input attribute topography o E. unfold script.
  destruct (vec input) as [l|] eqn:Hv; [|unfold rasterize in E; rewrite Hv in E; discriminate]. rewrite E. cbn [bind]. eexists. split; [reflexivity|].
  unfold put. split; [reflexivity|]. intros f Hf. destruct (str_eqb f (lit "test.tiff")) eqn:Q1; [|reflexivity]. apply str_eqb_eq in Q1. contradiction.
Qed.
Print Assumptions C78_script.

(** With a mask: test.tiff holds the CAT values on the grid of the elevation raster cut to the mask,
    test_crop.tiff the same cut to the mask again; besides, only the cut elevation raster is written,
    next to the original. *)
Theorem C78_script_crop : forall G (covers : G -> Q * Q -> bool) tr atof cut vec ras input attribute root ext mask l t t' ,
  let topography := (root ++ ext)%list in let cropped := (root ++ lit "_crop" ++ ext)%list in
  splitext_root topography = root -> cropped <> lit "test.tiff" -> cropped <> lit "test_crop.tiff" ->
  vec input = Some l -> ras topography = Some t -> cut t mask = Some t' ->
  exists o ras', rasterize covers tr atof vec (fun f => if str_eqb f cropped then Some t' else None) input cropped = Ok o /\
    script covers tr atof cut vec ras input attribute topography (Some mask) = Ok ras' /\
    ras' cropped = Some t' /\ ras' (lit "test.tiff") = Some o /\
    (forall o', cut o mask = Some o' -> ras' (lit "test_crop.tiff") = Some o') /\
    forall f, f <> cropped -> f <> lit "test.tiff" -> f <> lit "test_crop.tiff" -> ras' f = ras f.
Proof.
  intros G covers tr atof cut vec ras input attribute root ext mask l t t' topography cropped Hs N1 N2 Hv Ht Hc.
  assert (R : forall x y, x <> y -> str_eqb x y = false) by (intros x y H; destruct (str_eqb x y) eqn:Q1; [apply str_eqb_eq in Q1; contradiction|reflexivity]).
  destruct (proj2 (C78_grid G covers tr atof vec (fun f => if str_eqb f cropped then Some t' else None) input cropped) l t' Hv) as (o & Eo & _);
    [rewrite str_eqb_refl; reflexivity|].
  exists o. unfold script. rewrite Hv, Hs.
  assert (Ex : skipn (List.length root) topography = ext) by (unfold topography; rewrite skipn_app, skipn_all, Nat.sub_diag; reflexivity).
  rewrite Ex. fold cropped. cbv zeta.
  assert (C1 : cut_to cut ras cropped topography mask = put ras cropped t') by (unfold cut_to; rewrite Ht, Hc; reflexivity). rewrite C1. clear C1.
  assert (E : rasterize covers tr atof vec (put ras cropped t') input cropped = Ok o).
  { rewrite <- Eo. unfold rasterize, put. rewrite Hv, str_eqb_refl. reflexivity. }
  rewrite E. cbn [bind]. cbv zeta. eexists. split; [exact Eo|]. split; [reflexivity|]. unfold cut_to.
  assert (T : put (put ras cropped t') (lit "test.tiff") o (lit "test.tiff") = Some o) by (unfold put; rewrite str_eqb_refl; reflexivity). rewrite T.
  split; [|split; [|split]].
  - destruct (cut o mask) as [o'|]; unfold put; rewrite ?(R _ _ N1), ?(R _ _ N2), str_eqb_refl; reflexivity.
  - destruct (cut o mask) as [o'|]; [unfold put; rewrite (R (lit "test.tiff") (lit "test_crop.tiff")) by discriminate; rewrite str_eqb_refl; reflexivity|exact T].
  - intros o' ->. unfold put. rewrite str_eqb_refl. reflexivity.
  - intros f F1 F2 F3. destruct (cut o mask) as [o'|]; unfold put; rewrite ?(R _ _ F1), ?(R _ _ F2), ?(R _ _ F3); reflexivity.
Qed.
Print Assumptions C78_script_crop.

(** One square polygon with two numeric fields on a grid of one pixel. *)
Definition sq (cat : Z) : layer unit := Layer None [lit "CAT"; lit "CODE"] [([(lit "CAT", VInt cat); (lit "CODE", VInt 7)], Some tt)].
Definition sq_files (cat : Z) : str -> option (layer unit) := fun f => if str_eqb f (lit "a.shp") then Some (sq cat) else None.
Definition dem1 : str -> option image := fun f => if str_eqb f (lit "d.tif") then Some (one Float32 10) else None.

(** The attribute asked for on the command line is not the one rasterised. *)
Theorem C78_attribute_refuted : exists ras' o, script (fun _ _ => true) (fun _ _ q => q) (fun _ => 0%Q) (fun i _ => Some i) (sq_files 3) dem1 (lit "a.shp") (lit "CODE") (lit "d.tif") None = Ok ras' /\
  ras' (lit "test.tiff") = Some o /\ (g_at (im_cells o) 0 0 == 3)%Q.
Proof. eexists. eexists. split; [reflexivity|]. split; [reflexivity|]. vm_compute. reflexivity. Qed.
Print Assumptions C78_attribute_refuted.

(** A mask that cannot be used is not an error if an elevation raster cut earlier is there: the old one is used. *)
Theorem C78_stale_refuted : exists ras' o, script (fun _ _ => true) (fun _ _ q => q) (fun _ => 0%Q) (fun _ _ => None) (sq_files 3)
    (fun f => if str_eqb f (lit "d_crop.tif") then Some (one Float32 20) else dem1 f) (lit "a.shp") (lit "CAT") (lit "d.tif") (Some (lit "m.shp")) = Ok ras' /\
  ras' (lit "test.tiff") = Some o /\ ras' (lit "test_crop.tiff") = None.
Proof. eexists. eexists. split; [reflexivity|]. split; vm_compute; reflexivity. Qed.
Print Assumptions C78_stale_refuted.

(** "0 means that no polygon covers the pixel" is false: category 0 and negative ones are 0 too, and
    codes above 65535 cannot be told apart. *)
Theorem C78_zero_refuted :
  (exists o, rasterize (fun _ _ => true) (fun _ _ q => q) (fun _ => 0%Q) (sq_files (-5)) dem1 (lit "a.shp") (lit "d.tif") = Ok o /\ (g_at (im_cells o) 0 0 == 0)%Q) /\
  (exists o, rasterize (fun _ _ => true) (fun _ _ q => q) (fun _ => 0%Q) (sq_files 70000) dem1 (lit "a.shp") (lit "d.tif") = Ok o /\ (g_at (im_cells o) 0 0 == 65535)%Q).
Proof. split; eexists; (split; [reflexivity|vm_compute; reflexivity]). Qed.
Print Assumptions C78_zero_refuted.

(** Exactly: with integer categories 0 means that no polygon covers the centre, or that the last one
    that does has a category of 0 or less. *)
Theorem C78_zero_iff : forall G (covers : G -> Q * Q -> bool) tr atof vec ras input topo l t o r c,
  vec input = Some l -> ras topo = Some t -> rasterize covers tr atof vec ras input topo = Ok o -> In (lit "CAT") (l_fields l) ->
  (forall f, In f (l_features l) -> exists z, aget (fst f) (lit "CAT") = Ok (VInt z)) ->
  let p := point_of tr l t r c in
  (g_at (im_cells o) r c == 0)%Q <-> uncovered covers (l_features l) p \/
    exists a g z, topmost covers (l_features l) p a g /\ aget a (lit "CAT") = Ok (VInt z) /\ z <= 0.
Proof.
  intros G covers tr atof vec ras input topo l t o r c Hv Hr E F I p.
  destruct (C78_values G covers tr atof vec ras input topo l t o r c Hv Hr E F) as (V0 & V1 & _). fold p in V0, V1. split.
  - intros Z0. destruct (C78_cases G covers (l_features l) p) as [U|(a & g & T)]; [auto|]. right.
    destruct (I (a, Some g)) as (z & Ez); [destruct T as (b & e & -> & _); apply in_elt|]. cbn [fst] in Ez. exists a, g, z. split; [exact T|]. split; [exact Ez|].
    destruct (V1 a g z T Ez) as (W1 & W2 & W3). destruct (Z_le_gt_dec z 0) as [H|H]; [exact H|]. exfalso. destruct (Z_le_gt_dec z 65535) as [H'|H'].
    + rewrite W1 in Z0 by lia. change 0%Q with (inject_Z 0) in Z0. apply (proj1 (inject_Z_injective _ _)) in Z0. lia.
    + rewrite W3 in Z0 by lia. discriminate.
  - intros [U|(a & g & z & T & Ez & H)]; [exact (V0 U)|]. destruct (V1 a g z T Ez) as (W1 & W2 & _).
    destruct (Z.eq_dec z 0) as [->|NZ]; [apply W1; lia|apply W2; lia].
Qed.
Print Assumptions C78_zero_iff.

(** The settlements and land use of the example of C67 on the elevation raster of the example of C76:
    the hypotheses of C78_land_cover hold; two polygons overlap, and pixels of both classes occur. *)
Definition ex_covers (g : list Z) (p : Q * Q) : bool := existsb (Z.eqb (Qfloor (fst p) - 111)) g.
Definition ex_sf : list (attrs * option (list Z)) := [(ex_s "Urban", Some [1; 2]); (ex_s "Farm", Some [3; 4; 5]); (ex_s "City", None); (ex_s "Urban", Some [6])].
Definition ex_lf : list (attrs * option (list Z)) := [(ex_l "Water", Some [2; 3; 4]); (ex_l "Transport", Some [1; 2; 3]); (ex_l "?", Some [20])].
Example C78_example : exists tg out o,
  let l := Layer None [lit "USE"; lit "SET"; lit "CAT"] (written out) in
  let vec := fun _ : str => Some l in let ras := fun _ : str => Some ex_dem in let tr := fun _ _ (q : Q * Q) => q in
  tree_ok (line_geo all_forward) /\ areas_ok (line_geo all_forward) /\
  pre_process (fun x => x) (line_geo all_forward) (lit "SET") (lit "USE") ex_sf ex_lf None = Ok out /\
  rasterize ex_covers tr (fun _ => 0%Q) vec ras (lit "a.shp") (lit "d.tif") = Ok o /\
  fl_ok rnd53 /\ good_raster (2#10) ex_ds /\ coords_ok ex_ds /\ mk_tilegrid rnd53 (2#10) ex_ds = Ok tg /\ 1 < num_tiles tg /\
  im_x ex_dem = gt0 ex_ds /\ im_dx ex_dem = gt1 ex_ds /\ im_y ex_dem = gt3 ex_ds /\ im_dy ex_dem = gt5 ex_ds /\
  g_rows (im_cells ex_dem) = r_ysize ex_ds /\ g_cols (im_cells ex_dem) = r_xsize ex_ds /\
  (g_at (im_cells o) 0 0 == 311)%Q /\ (g_at (im_cells o) 3 24 == 6)%Q.
Proof.
  destruct C76_tile_example as (tg & H1 & H2 & H3 & H4 & H5 & _). exists tg. eexists. eexists. cbv zeta.
  split; [exact forward_ok|]. split; [apply line_areas|]. split; [vm_compute; reflexivity|]. split; [reflexivity|].
  do 5 (split; [assumption|]). do 6 (split; [reflexivity|]). split; vm_compute; reflexivity.
Qed.
