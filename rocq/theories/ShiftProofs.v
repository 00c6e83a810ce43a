(** * Lemmas: the topographic multiplier and the datum of the elevations *)
From Verif Require Import Base BaseLemmas NameModel TopoModel ShiftSpec.
Open Scope Z_scope.

Definition up (k : Z) (z : Z) : Q := inject_Z (z + k).

Lemma up_sub k a b : (up k a - up k b)%Q = (inject_Z a - inject_Z b)%Q.
Proof. unfold up, Qminus, Qplus, Qopp, inject_Z. cbn [Qnum Qden]. f_equal. lia. Qed.
Lemma diff_up k zs : np_diff (map (up k) zs) = np_diff (map inject_Z zs).
Proof. induction zs as [|a [|b zs] IH]; [reflexivity|reflexivity|]. cbn [map np_diff] in *. rewrite up_sub, IH. reflexivity. Qed.
Lemma peaks_same y y' : np_diff y' = np_diff y -> zlen y' = zlen y -> findpeaks y' = findpeaks y.
Proof. intros D L. unfold findpeaks. rewrite D, L. reflexivity. Qed.
Lemma zlen_map_ {A B} (f : A -> B) l : zlen (map f l) = zlen l.
Proof. unfold zlen. rewrite map_length. reflexivity. Qed.
Lemma peaks_up k zs : findpeaks (map (up k) zs) = findpeaks (map inject_Z zs).
Proof. apply peaks_same; [apply diff_up|rewrite !zlen_map_; reflexivity]. Qed.
Lemma valleys_up k zs : findvalleys (map (up k) zs) = findvalleys (map inject_Z zs).
Proof.
  unfold findvalleys. rewrite !map_map, !zlen_map_.
  assert (E : rev (map (fun x => Qopp (up k x)) zs) = map (up (- k)) (rev (map Z.opp zs))).
  { rewrite <- (map_rev Z.opp), map_map, <- map_rev. apply map_ext. intros z. unfold up, inject_Z, Qopp. cbn [Qnum Qden]. f_equal. lia. }
  assert (F : rev (map (fun x => Qopp (inject_Z x)) zs) = map inject_Z (rev (map Z.opp zs))).
  { rewrite <- (map_rev Z.opp), map_map, <- map_rev. apply map_ext. intros z. reflexivity. }
  rewrite E, F, peaks_up. reflexivity.
Qed.
Lemma pyget_up {A B} (f : A -> B) l i : pyget (map f l) i = let* x := pyget l i in Ok (f x).
Proof.
  unfold pyget. rewrite zlen_map_. destruct (norm_index (zlen l) i) as [j|]; [|reflexivity]. rewrite nth_error_map.
  destruct (nth_error l (Z.to_nat j)); reflexivity.
Qed.
Lemma escarpment_up fl k zs r v ds : escarpment_factor fl (map (up k) zs) r v ds = escarpment_factor fl (map inject_Z zs) r v ds.
Proof.
  unfold escarpment_factor. rewrite !zlen_map_, !pyget_up. destruct (pyget zs r) as [a|]; cbn [bind]; [|reflexivity].
  destruct (pyget zs v) as [b|]; cbn [bind]; [|reflexivity]. rewrite up_sub. destruct (fdiv fl _ _) as [s|]; cbn [bind]; [|reflexivity].
  destruct (fdiv fl _ ds) as [w|]; cbn [bind]; [|reflexivity]. rewrite !pyget_up.
  destruct (pyget zs _) as [c|]; cbn [bind]; [|reflexivity]. rewrite up_sub. reflexivity.
Qed.
Lemma mh_up fl k zs r v ds : mh_calc fl (map (up k) zs) r v ds = mh_calc fl (map inject_Z zs) r v ds.
Proof.
  unfold mh_calc. rewrite !zlen_map_, !pyget_up. destruct (pyget zs r) as [a|]; cbn [bind]; [|reflexivity].
  destruct (pyget zs v) as [b|]; cbn [bind]; [|reflexivity]. rewrite up_sub, escarpment_up. reflexivity.
Qed.
Lemma fold_same {A S} (f g : S -> A -> res S) l : (forall s x, f s x = g s x) -> forall s, foldM f l s = foldM g l s.
Proof. intros H. induction l as [|x l IH]; intros s; [reflexivity|]. cbn [foldM]. rewrite H. destruct (g s x); cbn [bind]; [apply IH|reflexivity]. Qed.
Lemma step_up fl k zs rs vs ds off m i : mh_step fl (map (up k) zs) rs vs ds off m i = mh_step fl (map inject_Z zs) rs vs ds off m i.
Proof. unfold mh_step. destruct (pyget rs i); cbn [bind]; [|reflexivity]. destruct (pyget vs (i - off)); cbn [bind]; [|reflexivity]. rewrite mh_up. reflexivity. Qed.

Lemma floor_up q q' k : (q' == q + inject_Z k)%Q -> Qfloor q' = Qfloor q + k.
Proof.
  intros E. rewrite (Qfloor_comp _ _ E). destruct q as [n d]. unfold Qplus, inject_Z, Qfloor. cbn [Qnum Qden].
  rewrite Z.mul_1_r, Pos.mul_1_r. apply Z_div_plus_full. discriminate.
Qed.
Lemma floor_in q z : (inject_Z z <= q < inject_Z (z + 1))%Q -> Qfloor q = z.
Proof.
  intros [A B]. pose proof (Qfloor_le q) as C. pose proof (Qlt_floor q) as D.
  assert (E : (inject_Z z < inject_Z (Qfloor q + 1))%Q) by (apply (Qle_lt_trans _ q); assumption).
  assert (F : (inject_Z (Qfloor q) < inject_Z (z + 1))%Q) by (apply (Qle_lt_trans _ q); assumption).
  rewrite <- Zlt_Qlt in E, F. lia.
Qed.
Lemma calc_up fl k line line' ds : Forall2 (fun q q' => Qfloor q' = Qfloor q + k) line line' -> multiplier_calc fl line' ds = multiplier_calc fl line ds.
Proof.
  intros H. unfold multiplier_calc.
  assert (L : zlen line' = zlen line) by (unfold zlen; f_equal; induction H; cbn [length]; congruence). rewrite L.
  set (zs := map Qfloor line).
  assert (E : map (fun q => inject_Z (Qfloor q)) line = map inject_Z zs) by (unfold zs; rewrite map_map; reflexivity).
  assert (E' : map (fun q => inject_Z (Qfloor q)) line' = map (up k) zs).
  { unfold zs. rewrite map_map. clear -H. induction H as [|q q' l l' E H IH]; [reflexivity|]. cbn [map]. rewrite IH. f_equal. unfold up. rewrite E. reflexivity. }
  rewrite E, E', peaks_up, valleys_up. destruct (findpeaks (map inject_Z zs)) as [rs|]; cbn [bind]; [|reflexivity].
  destruct (findvalleys (map inject_Z zs)) as [vs|]; cbn [bind]; [|reflexivity]. destruct (zlen rs =? 0); [reflexivity|].
  destruct (pyget rs 0) as [r0|]; cbn [bind]; [|reflexivity]. destruct ((zlen rs =? 1) && (r0 =? 0))%bool; [reflexivity|].
  destruct (r0 =? 0); apply fold_same; intros; apply step_up.
Qed.

(** ** Whole rasters *)

Definition level (k : Z) (x x' : num) : Prop := Qfloor (nan_to_zero x') = Qfloor (nan_to_zero x) + k.

Lemma pyget_two {A} (R : A -> A -> Prop) l l' i : Forall2 R l l' ->
  match pyget l i, pyget l' i with Ok x, Ok x' => R x x' | Err e, Err f => e = f | _, _ => False end.
Proof.
  intros H. unfold pyget. replace (zlen l') with (zlen l) by (unfold zlen; f_equal; induction H; cbn [length]; congruence).
  destruct (norm_index (zlen l) i) as [j|]; [|reflexivity]. generalize (Z.to_nat j) as n.
  induction H as [|x x' l l' X H IH]; intros [|n]; cbn [nth_error]; try reflexivity; [exact X|apply IH].
Qed.
Lemma mapM_two {A} (R : A -> A -> Prop) l l' path : Forall2 R l l' ->
  match mapM (pyget l) path, mapM (pyget l') path with Ok x, Ok x' => Forall2 R x x' | Err e, Err f => e = f | _, _ => False end.
Proof.
  intros H. induction path as [|i path IH]; cbn [mapM]; [constructor|]. pose proof (pyget_two R l l' i H) as P.
  destruct (pyget l i) as [x|e], (pyget l' i) as [x'|e']; cbn [bind]; try contradiction; [|congruence].
  destruct (mapM (pyget l) path), (mapM (pyget l') path); cbn [bind]; try contradiction; [constructor; assumption|congruence].
Qed.
Lemma line_up fl nr nc d ds k data data' m idx : Forall2 (level k) data data' ->
  topo_line fl nr nc d ds data' m idx = topo_line fl nr nc d ds data m idx.
Proof.
  intros H. unfold topo_line. pose proof (mapM_two _ data data' (make_path nr nc idx d) H) as P.
  destruct (mapM (pyget data) _) as [l|e], (mapM (pyget data') _) as [l'|e']; cbn [bind]; try contradiction; [|congruence].
  rewrite (calc_up fl k (map nan_to_zero l) (map nan_to_zero l') ds); [reflexivity|].
  induction P; cbn [map]; constructor; assumption.
Qed.
Lemma flat_two (R : num -> num -> Prop) g g' : 0 < g_rows g -> g_rows g' = g_rows g -> g_cols g' = g_cols g ->
  (forall r c, in_grid g r c -> R (g_at g r c) (g_at g' r c)) -> Forall2 R (flat g) (flat g').
Proof.
  intros P HR HC H. unfold flat. rewrite HR, HC.
  assert (I : forall i, In i (zrange (g_rows g * g_cols g)) -> R (g_at g (i mod g_rows g) (i / g_rows g)) (g_at g' (i mod g_rows g) (i / g_rows g))).
  { intros i Hi. apply in_zrange in Hi. apply H. split; [apply Z.mod_pos_bound; exact P|].
    split; [apply Z.div_pos; lia|apply Z.div_lt_upper_bound; lia]. }
  induction (zrange (g_rows g * g_cols g)) as [|i l IH]; cbn [map]; constructor; [apply I; left; reflexivity|apply IH; intros; apply I; right; assumption].
Qed.
Lemma qget_same g g' r c : g_rows g' = g_rows g -> g_cols g' = g_cols g -> (forall r c, in_grid g r c -> g_at g' r c = g_at g r c) -> qget g' r c = qget g r c.
Proof.
  intros HR HC H. unfold qget. rewrite HR, HC. destruct ((0 <=? r) && (r <? g_rows g) && ((0 <=? c) && (c <? g_cols g)))%bool eqn:B; [|reflexivity].
  apply H. unfold in_grid. rewrite !andb_true_iff, !Z.leb_le, !Z.ltb_lt in B. lia.
Qed.
Lemma smooth_same g g' r c : g_rows g' = g_rows g -> g_cols g' = g_cols g -> (forall r c, in_grid g r c -> g_at g' r c = g_at g r c) -> g_at (smooth g') r c = g_at (smooth g) r c.
Proof. intros HR HC H. unfold smooth. cbn [g_at fold_right]. rewrite !(qget_same g g') by assumption. reflexivity. Qed.

(** One direction: the elevations matter up to a whole shift, apart from where
    there are none and where the Tasmanian factor applies. *)
Lemma dir_up fl sqrt2 cs xl yu k e e' d : 0 < g_rows e -> g_rows e' = g_rows e -> g_cols e' = g_cols e ->
  (forall r c, in_grid e r c -> level k (g_at e r c) (g_at e' r c)) ->
  (in_tasmania xl yu = true -> forall x r c, in_grid e r c -> tasmania x (g_at e' r c) = tasmania x (g_at e r c)) ->
  match topo_dir fl sqrt2 cs xl yu e d, topo_dir fl sqrt2 cs xl yu e' d with
  | Ok g, Ok g' => g_rows g = g_rows e /\ g_cols g = g_cols e /\ g_rows g' = g_rows g /\ g_cols g' = g_cols g /\
      exists v, forall r c, g_at g r c = match g_at e r c with NaN => NaN | Num _ => Num (v r c) end /\
                            g_at g' r c = match g_at e' r c with NaN => NaN | Num _ => Num (v r c) end
  | Err x, Err y => x = y
  | _, _ => False
  end.
Proof.
  intros HP HR HC H T. unfold topo_dir. pose proof (flat_two (level k) e e' HP HR HC H) as F.
  assert (L : zlen (flat e') = zlen (flat e)) by (unfold zlen; f_equal; clear -F; induction F; cbn [length]; congruence).
  rewrite HR, HC, L.
  set (step := match d with NE | NW | SE | SW => fl (cs * sqrt2)%Q | _ => cs end).
  assert (FS : foldM (topo_line fl (g_rows e) (g_cols e) d step (flat e')) (starts (g_rows e) (g_cols e) d) (ones (zlen (flat e))) =
               foldM (topo_line fl (g_rows e) (g_cols e) d step (flat e)) (starts (g_rows e) (g_cols e) d) (ones (zlen (flat e)))).
  { apply fold_same. intros s x. apply (line_up fl _ _ d step k). exact F. }
  rewrite FS. clear FS.
  destruct (foldM _ _ _) as [m|x]; cbn [bind]; [|reflexivity]. cbn [g_rows g_cols g_at].
  split; [reflexivity|]. split; [reflexivity|]. split; [reflexivity|]. split; [reflexivity|].
  eexists. intros r c. split; [reflexivity|]. destruct (g_at e' r c) as [|q']; [reflexivity|]. f_equal.
  destruct (in_tasmania xl yu) eqn:IT; [|reflexivity]. apply smooth_same; [reflexivity|reflexivity|]. intros i j Hij. cbn [g_at]. apply T; [reflexivity|exact Hij].
Qed.

Lemma mask_blank nodata dem r c : blank nodata (g_at dem r c) -> g_at (mask_elevation nodata dem) r c = NaN.
Proof.
  unfold mask_elevation, gmap. cbn [g_at]. intros [->|(q & n & -> & -> & E)]; [reflexivity|]. apply Qeq_bool_iff in E. rewrite E. reflexivity.
Qed.
Lemma mask_kept nodata dem r c : ~ blank nodata (g_at dem r c) -> g_at (mask_elevation nodata dem) r c = g_at dem r c /\ exists q, g_at dem r c = Num q.
Proof.
  unfold mask_elevation, gmap. cbn [g_at]. destruct (g_at dem r c) as [|q]; intros B; [elim B; left; reflexivity|]. split; [|exists q; reflexivity].
  destruct nodata as [n|]; [|reflexivity]. destruct (Qeq_bool q n) eqn:E; [|reflexivity]. apply Qeq_bool_iff in E. elim B. right. exists q, n. auto.
Qed.
Lemma tasmania_low x q : (q <= 500)%Q -> tasmania x (Num q) = x.
Proof. intros H. cbn [tasmania]. apply Qltb_ge in H. rewrite H. reflexivity. Qed.
Lemma not_tasmania xl yu : in_tasmania xl yu = true -> ~ (xl <= 143)%Q /\ ~ (yu <= 40)%Q.
Proof. unfold in_tasmania. intros H. apply andb_true_iff in H as [A B]. apply Qltb_lt in A, B. split; apply Qlt_not_le; assumption. Qed.

Lemma raised_same fl sqrt2 cs xl yu nodata k dem dem' : raised_metres k dem dem' -> without_nodata nodata dem -> without_nodata nodata dem' ->
  no_tasmanian_factor xl yu dem -> no_tasmanian_factor xl yu dem' ->
  same_outcome (topomult fl sqrt2 cs xl yu nodata dem) (topomult fl sqrt2 cs xl yu nodata dem').
Proof.
  intros (HP & HR & HC & H) W W' T T'. unfold topomult, same_outcome. set (e := mask_elevation nodata dem). set (e' := mask_elevation nodata dem').
  assert (G : forall r c, in_grid dem r c -> in_grid dem' r c) by (intros r c; unfold in_grid; rewrite HR, HC; auto).
  assert (NB : forall n g r c q, without_nodata n g -> in_grid g r c -> g_at g r c = Num q -> ~ blank n (g_at g r c)).
  { intros n g r c q WW I E [B|(q2 & m & B & -> & Z)]; [congruence|]. apply (WW m eq_refl r c q2 I B Z). }
  assert (C : forall r c, in_grid dem r c -> exists q q', g_at e r c = Num q /\ g_at e' r c = Num q' /\ Qfloor q' = Qfloor q + k /\ g_at dem r c = Num q /\ g_at dem' r c = Num q').
  { intros r c I. destruct (H r c I) as (q & q' & z & A & B & Z & Z'). exists q, q'.
    assert (ZZ : Qfloor q' = Qfloor q + k) by (rewrite (floor_in q z Z), (floor_in q' (z + k) Z'); reflexivity).
    destruct (mask_kept nodata dem r c (NB _ _ _ _ _ W I A)) as [M _]. destruct (mask_kept nodata dem' r c (NB _ _ _ _ _ W' (G r c I) B)) as [M' _].
    unfold e, e'. rewrite M, M'. auto. }
  assert (LV : forall r c, in_grid e r c -> level k (g_at e r c) (g_at e' r c)).
  { intros r c I. destruct (C r c I) as (q & q' & A & B & Z & _). unfold level. rewrite A, B. exact Z. }
  assert (TT : in_tasmania xl yu = true -> forall x r c, in_grid e r c -> tasmania x (g_at e' r c) = tasmania x (g_at e r c)).
  { intros J x r c I. apply not_tasmania in J as [J1 J2]. destruct (C r c I) as (q & q' & A & B & _ & D & D').
    destruct T as [T|[T|T]]; [contradiction|contradiction|]. destruct T' as [T'|[T'|T']]; [contradiction|contradiction|].
    rewrite A, B, !tasmania_low; [reflexivity|apply (T r c q I D)|apply (T' r c q' (G r c I) D')]. }
  induction topo_directions as [|d ds IH]; cbn [mapM]; [constructor|].
  pose proof (dir_up fl sqrt2 cs xl yu k e e' d HP HR HC LV TT) as P.
  destruct (topo_dir fl sqrt2 cs xl yu e d) as [g|x], (topo_dir fl sqrt2 cs xl yu e' d) as [g'|x']; cbn [bind]; try contradiction; [|exact P].
  destruct (mapM (fun d => let* g := topo_dir fl sqrt2 cs xl yu e d in Ok (d, g)) ds) as [l|x], (mapM (fun d => let* g := topo_dir fl sqrt2 cs xl yu e' d in Ok (d, g)) ds) as [l'|x']; cbn [bind]; try contradiction; [|exact IH].
  constructor; [|exact IH]. cbn [fst snd]. split; [reflexivity|]. destruct P as (P1 & P2 & P3 & P4 & v & P). split; [exact P3|]. split; [exact P4|].
  intros r c I. assert (I' : in_grid dem r c) by (unfold in_grid in *; rewrite P1, P2 in I; exact I). destruct (P r c) as [-> ->].
  destruct (C r c I') as (q & q' & -> & -> & _). reflexivity.
Qed.

Lemma filled_same fl sqrt2 cs xl yu nodata dem dem' : filled nodata dem dem' ->
  same_but_blanks nodata dem (topomult fl sqrt2 cs xl yu nodata dem) (topomult fl sqrt2 cs xl yu None dem').
Proof.
  intros (HP & HR & HC & H). unfold topomult, same_but_blanks. set (e := mask_elevation nodata dem). set (e' := mask_elevation None dem').
  assert (E' : forall r c, g_at e' r c = g_at dem' r c) by (intros r c; unfold e', mask_elevation, gmap; cbn [g_at]; destruct (g_at dem' r c); reflexivity).
  assert (LV : forall r c, in_grid e r c -> level 0 (g_at e r c) (g_at e' r c)).
  { intros r c I. unfold level. rewrite E'. destruct (H r c I) as [[B ->]|[B ->]]; unfold e.
    - rewrite (mask_blank nodata dem r c B). reflexivity.
    - destruct (mask_kept nodata dem r c B) as [-> _]. rewrite Z.add_0_r. reflexivity. }
  assert (TT : in_tasmania xl yu = true -> forall x r c, in_grid e r c -> tasmania x (g_at e' r c) = tasmania x (g_at e r c)).
  { intros _ x r c I. rewrite E'. destruct (H r c I) as [[B ->]|[B ->]]; unfold e.
    - rewrite (mask_blank nodata dem r c B). apply tasmania_low. discriminate.
    - destruct (mask_kept nodata dem r c B) as [-> _]. reflexivity. }
  induction topo_directions as [|d ds IH]; cbn [mapM]; [constructor|].
  pose proof (dir_up fl sqrt2 cs xl yu 0 e e' d HP HR HC LV TT) as P.
  destruct (topo_dir fl sqrt2 cs xl yu e d) as [g|x], (topo_dir fl sqrt2 cs xl yu e' d) as [g'|x']; cbn [bind]; try contradiction; [|exact P].
  destruct (mapM (fun d => let* g := topo_dir fl sqrt2 cs xl yu e d in Ok (d, g)) ds) as [l|x], (mapM (fun d => let* g := topo_dir fl sqrt2 cs xl yu e' d in Ok (d, g)) ds) as [l'|x']; cbn [bind]; try contradiction; [|exact IH].
  constructor; [|exact IH]. cbn [fst snd]. split; [reflexivity|]. destruct P as (P1 & P2 & P3 & P4 & v & P). split; [exact P1|]. split; [exact P2|].
  intros r c I. destruct (P r c) as [-> ->]. rewrite E'. destruct (H r c I) as [[B F]|[B F]]; [left|right]; (split; [exact B|]); unfold e.
  - rewrite (mask_blank nodata dem r c B). reflexivity.
  - rewrite F. destruct (mask_kept nodata dem r c B) as [-> (q & ->)]. reflexivity.
Qed.

Lemma raised_is k dem dem' : raised k dem dem' -> raised_metres k dem dem'.
Proof.
  intros (P & R & C & H). split; [exact P|]. split; [exact R|]. split; [exact C|]. intros r c I. destruct (H r c I) as (q & q' & A & B & E).
  exists q, q', (Qfloor q). split; [exact A|]. split; [exact B|]. split; [split; [apply Qfloor_le|apply Qlt_floor]|].
  rewrite <- (floor_up q q' k E). split; [apply Qfloor_le|apply Qlt_floor].
Qed.
