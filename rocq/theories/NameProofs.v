From Verif Require Import Base BaseLemmas TileModel TileSpec TileProofs ClipModel ClipProofs PyStr NameModel NameSpec.
From Coq Require Import ZifyBool ZifyNat Qfield.
Open Scope Z_scope.

(** ** Strings *)

Ltac notin_lit := let C := fresh in intros C; simpl in C; decompose [or] C; (discriminate || contradiction).

Lemma eqb_false (a b : ascii) : a <> b -> Ascii.eqb a b = false.
Proof. apply Ascii.eqb_neq. Qed.

Lemma rfind_from_notin c s i last : ~ In c s -> rfind_from c s i last = last.
Proof.
  revert i last. induction s as [|x xs IH]; intros i last H; simpl; [reflexivity|].
  rewrite eqb_false by (intros ->; apply H; left; reflexivity).
  apply IH. intros C. apply H. right. exact C.
Qed.

Lemma rfind_notin c s : ~ In c s -> rfind c s = -1.
Proof. apply rfind_from_notin. Qed.

Lemma rfind_from_mid c a b i last : ~ In c b -> rfind_from c (a ++ c :: b) i last = i + zlen a.
Proof.
  revert i last. induction a as [|x xs IH]; intros i last H; simpl.
  - rewrite Ascii.eqb_refl. rewrite rfind_from_notin by assumption. unfold zlen; simpl; lia.
  - rewrite IH by assumption. unfold zlen; simpl; lia.
Qed.

Lemma rfind_mid c a b : ~ In c b -> rfind c (a ++ c :: b) = zlen a.
Proof. intros. unfold rfind. rewrite rfind_from_mid by assumption. lia. Qed.

Lemma rfind_lt c s : -1 <= rfind c s < zlen s.
Proof.
  unfold rfind.
  assert (G : forall s i last, last < i -> last <= rfind_from c s i last < i + zlen s \/ (rfind_from c s i last = last)).
  { clear s. induction s as [|x xs IH]; intros i last H; simpl.
    - right. reflexivity.
    - destruct (Ascii.eqb x c).
      + destruct (IH (i + 1) i ltac:(lia)); unfold zlen in *; simpl; lia.
      + destruct (IH (i + 1) last ltac:(lia)); unfold zlen in *; simpl; lia. }
  destruct (G s 0 (-1) ltac:(lia)); unfold zlen in *; lia.
Qed.

Lemma zlen_app {A} (a b : list A) : zlen (a ++ b) = zlen a + zlen b.
Proof. unfold zlen. rewrite app_length. lia. Qed.

Lemma firstn_zlen {A} (a b : list A) : firstn (Z.to_nat (zlen a)) (a ++ b) = a.
Proof.
  unfold zlen. rewrite Nat2Z.id. rewrite firstn_app, Nat.sub_diag, firstn_all. simpl. apply app_nil_r.
Qed.

Lemma skipn_zlen {A} (a b : list A) : skipn (Z.to_nat (zlen a)) (a ++ b) = b.
Proof.
  unfold zlen. rewrite Nat2Z.id. rewrite skipn_app, Nat.sub_diag, skipn_all. reflexivity.
Qed.

(** Cutting the extension: [p ++ "." ++ ext] where [p] ends in a non-dot
    character that is not a slash. *)
Lemma splitext_root_ext p c ext :
  ~ In dot ext -> ~ In slash ext -> c <> dot -> c <> slash ->
  splitext_root ((p ++ [c]) ++ dot :: ext) = p ++ [c].
Proof.
  intros Hd Hs Hc1 Hc2. unfold splitext_root.
  rewrite (rfind_mid dot) by assumption.
  set (whole := (p ++ [c]) ++ dot :: ext).
  assert (Hsep : rfind slash whole < zlen p).
  { unfold whole. destruct (in_dec Ascii.ascii_dec slash p) as [I|I].
    - apply in_split in I. assert (E : exists a b, p = a ++ slash :: b /\ ~ In slash b).
      { clear - I. destruct I as (a & b & ->). revert a. induction b as [|x xs IH] using rev_ind; intros a.
        - exists a, []. split; [reflexivity|]. intros [].
        - destruct (Ascii.ascii_dec x slash) as [->|N].
          + exists (a ++ slash :: xs), []. split; [rewrite <- app_assoc; reflexivity|intros []].
          + destruct (IH a) as (a' & b' & E & Hb).
            exists a', (b' ++ [x]). split.
            * change (a ++ slash :: xs ++ [x]) with (a ++ (slash :: xs) ++ [x]). rewrite app_assoc, E, <- app_assoc. reflexivity.
            * rewrite in_app_iff. intros [C|[C|[]]]; auto. }
      destruct E as (a & b & -> & Hb).
      replace (((a ++ slash :: b) ++ [c]) ++ dot :: ext) with (a ++ slash :: (b ++ [c] ++ dot :: ext)).
      2:{ rewrite <- !app_assoc. simpl. reflexivity. }
      rewrite rfind_mid.
      + rewrite zlen_app. unfold zlen. simpl. lia.
      + rewrite in_app_iff. simpl. intros [C|[C|[C|C]]]; auto; discriminate.
    - rewrite rfind_notin.
      + unfold zlen. lia.
      + rewrite !in_app_iff. simpl. intros [[C|[C|[]]]|[C|C]]; auto. discriminate. }
  pose proof (rfind_lt slash whole) as L.
  assert (Z1 : zlen (p ++ [c]) = zlen p + 1) by (rewrite zlen_app; reflexivity).
  replace (rfind slash whole <? zlen (p ++ [c])) with true by lia.
  match goal with |- context [forallb ?f ?l] => destruct (forallb f l) eqn:E end.
  - exfalso. rewrite forallb_forall in E.
    assert (I : In c (firstn (Z.to_nat (zlen (p ++ [c]) - (rfind slash whole + 1))) (skipn (Z.to_nat (rfind slash whole + 1)) whole))).
    { remember (Z.to_nat (rfind slash whole + 1)) as m eqn:Em.
      assert (Hm : (m <= List.length p)%nat) by (unfold zlen in Hsep; lia).
      remember (Z.to_nat (zlen (p ++ [c]) - (rfind slash whole + 1))) as q eqn:Eq.
      assert (Hq : (q - (List.length p - m) = 1)%nat) by (rewrite Z1 in Eq; unfold zlen in *; lia).
      unfold whole. rewrite <- app_assoc, skipn_app.
      replace (m - List.length p)%nat with O by lia.
      rewrite firstn_app. rewrite skipn_length.
      rewrite in_app_iff. right. rewrite Hq.
      simpl. left. reflexivity. }
    apply E in I. apply Ascii.eqb_eq in I. congruence.
  - unfold whole. apply firstn_zlen.
Qed.

(** ** C09 *)
Lemma nc_direction_ok p d : nc_direction (p ++ lit "_" ++ dir_str d ++ lit ".nc") = dir_str d.
Proof.
  unfold nc_direction.
  assert (H : exists a c, lit "_" ++ dir_str d = a ++ [c] /\ c <> dot /\ c <> slash).
  { destruct d; [exists (lit "_"), "n"%char|exists (lit "_"), "s"%char|exists (lit "_"), "e"%char|exists (lit "_"), "w"%char
    |exists (lit "_n"), "e"%char|exists (lit "_n"), "w"%char|exists (lit "_s"), "e"%char|exists (lit "_s"), "w"%char];
    repeat split; discriminate. }
  destruct H as (a & c & E & H1 & H2).
  replace (p ++ lit "_" ++ dir_str d ++ lit ".nc") with (((p ++ a) ++ [c]) ++ dot :: lit "nc").
  2:{ transitivity (p ++ (lit "_" ++ dir_str d) ++ lit ".nc"); [rewrite E|]; rewrite <- !app_assoc; reflexivity. }
  rewrite splitext_root_ext; try assumption.
  2:{ notin_lit. }
  2:{ notin_lit. }
  rewrite <- app_assoc, <- E.
  assert (L : forall x y : str, last_n (List.length y) (x ++ y) = y).
  { intros x y. unfold last_n. rewrite app_length.
    replace (List.length x + List.length y - List.length y)%nat with (List.length x) by lia.
    rewrite skipn_app, Nat.sub_diag, skipn_all. reflexivity. }
  destruct d; cbn [dir_str].
  - change 2%nat with (List.length (lit "_n")). change (lit "_" ++ lit "n") with (lit "_n"). rewrite L. reflexivity.
  - change 2%nat with (List.length (lit "_s")). change (lit "_" ++ lit "s") with (lit "_s"). rewrite L. reflexivity.
  - change 2%nat with (List.length (lit "_e")). change (lit "_" ++ lit "e") with (lit "_e"). rewrite L. reflexivity.
  - change 2%nat with (List.length (lit "_w")). change (lit "_" ++ lit "w") with (lit "_w"). rewrite L. reflexivity.
  - change 2%nat with (List.length (lit "ne")). rewrite (app_assoc p), L. reflexivity.
  - change 2%nat with (List.length (lit "nw")). rewrite (app_assoc p), L. reflexivity.
  - change 2%nat with (List.length (lit "se")). rewrite (app_assoc p), L. reflexivity.
  - change 2%nat with (List.length (lit "sw")). rewrite (app_assoc p), L. reflexivity.
Qed.

(** ** Paths *)
Lemma pjoin_nonempty_dir a f : a <> [] -> (forall b, a <> b ++ [slash]) -> pjoin a f = a ++ slash :: f.
Proof.
  intros Hne Hs. unfold pjoin. destruct (rev a) as [|x r] eqn:E.
  - apply (f_equal (@rev _)) in E. rewrite rev_involutive in E. contradiction.
  - rewrite eqb_false; [reflexivity|]. intros ->.
    apply (f_equal (@rev _)) in E. rewrite rev_involutive in E. simpl in E. exact (Hs _ E).
Qed.

Lemma pjoin_slash_dir o f : pjoin (o ++ [slash]) f = (o ++ [slash]) ++ f.
Proof. unfold pjoin. rewrite rev_app_distr. simpl. reflexivity. Qed.

Lemma dir_cases (a : str) :
  a = [] \/ (exists o, a = o ++ [slash]) \/ (a <> [] /\ forall b, a <> b ++ [slash]).
Proof.
  destruct (rev a) as [|x r] eqn:E; apply (f_equal (@rev _)) in E; rewrite rev_involutive in E; simpl in E.
  - left. exact E.
  - destruct (Ascii.ascii_dec x slash) as [->|N].
    + right. left. exists (rev r). exact E.
    + right. right. subst a. split.
      * intros C. apply app_eq_nil in C. destruct C. discriminate.
      * intros b C. apply app_inj_tail in C. destruct C. congruence.
Qed.

Lemma rstrip_nonslash a : (forall b, a <> b ++ [slash]) -> rstrip_slashes (a ++ [slash]) = a.
Proof.
  intros H. unfold rstrip_slashes. rewrite rev_app_distr. simpl.
  destruct (rev a) as [|x r] eqn:E; apply (f_equal (@rev _)) in E; rewrite rev_involutive in E; simpl in E.
  - subst. reflexivity.
  - subst a. cbn [strip_left_slashes]. rewrite (eqb_false x slash) by (intros ->; exact (H _ eq_refl)).
    simpl. reflexivity.
Qed.

Lemma all_slash_false a : a <> [] -> (forall b, a <> b ++ [slash]) ->
  forallb (Ascii.eqb slash) (a ++ [slash]) = false.
Proof.
  intros Hne H. destruct (forallb (Ascii.eqb slash) (a ++ [slash])) eqn:E; [|reflexivity].
  exfalso. rewrite forallb_app in E. apply andb_true_iff in E. destruct E as [E _].
  rewrite forallb_forall in E.
  destruct (exists_last Hne) as (b & x & ->).
  assert (x = slash). { symmetry. apply Ascii.eqb_eq. apply E. apply in_app_iff. right. left. reflexivity. }
  subst x. exact (H _ eq_refl).
Qed.

Lemma basename_pjoin out name : ~ In slash name -> basename (pjoin out name) = name.
Proof.
  intros Hn. unfold basename.
  destruct (dir_cases out) as [->|[(o & ->)|[H1 H2]]].
  - simpl. unfold pjoin. simpl. rewrite rfind_notin by assumption. reflexivity.
  - rewrite pjoin_slash_dir. rewrite <- app_assoc. simpl. rewrite rfind_mid by assumption.
    replace (zlen o + 1) with (zlen (o ++ [slash])) by (rewrite zlen_app; reflexivity).
    change (slash :: name) with ([slash] ++ name). rewrite app_assoc. apply skipn_zlen.
  - rewrite pjoin_nonempty_dir by assumption. rewrite rfind_mid by assumption.
    replace (zlen out + 1) with (zlen (out ++ [slash])) by (rewrite zlen_app; reflexivity).
    change (slash :: name) with ([slash] ++ name). rewrite app_assoc. apply skipn_zlen.
Qed.

Lemma dirname_plain out name : out <> [] -> (forall b, out <> b ++ [slash]) -> ~ In slash name ->
  dirname (pjoin out name) = out.
Proof.
  intros H1 H2 Hn. unfold dirname. rewrite pjoin_nonempty_dir by assumption.
  rewrite rfind_mid by assumption.
  replace (zlen out + 1) with (zlen (out ++ [slash])) by (rewrite zlen_app; reflexivity).
  change (slash :: name) with ([slash] ++ name). rewrite app_assoc, firstn_zlen.
  rewrite all_slash_false by assumption. apply rstrip_nonslash. assumption.
Qed.

Lemma pjoin_dirname out name f : ok_dir out -> ~ In slash name ->
  pjoin (dirname (pjoin out name)) f = pjoin out f.
Proof.
  intros Hok Hn. destruct (dir_cases out) as [->|[(o & ->)|[H1 H2]]].
  - unfold dirname. change (pjoin [] name) with name. rewrite (rfind_notin slash name) by assumption. reflexivity.
  - unfold dirname. rewrite pjoin_slash_dir. rewrite <- app_assoc. simpl.
    rewrite rfind_mid by assumption.
    replace (zlen o + 1) with (zlen (o ++ [slash])) by (rewrite zlen_app; reflexivity).
    change (slash :: name) with ([slash] ++ name). rewrite app_assoc, firstn_zlen.
    destruct (forallb (Ascii.eqb slash) (o ++ [slash])) eqn:E; [reflexivity|].
    assert (Ho : forall b, o <> b ++ [slash]).
    { intros b C. apply (Hok b). rewrite C, <- app_assoc. reflexivity. }
    rewrite rstrip_nonslash by assumption.
    rewrite pjoin_slash_dir, <- app_assoc. simpl. apply pjoin_nonempty_dir; [|assumption].
    intros ->. simpl in E. discriminate.
  - rewrite dirname_plain by assumption. reflexivity.
Qed.

Lemma splitext_tile t s ext : ~ In dot ext -> ~ In slash ext -> ~ In slash (t ++ s) ->
  (exists c r, t ++ s = c :: r /\ c <> dot) ->
  splitext_root (t ++ s ++ dot :: ext) = t ++ s.
Proof.
  intros Hd Hs Hn (c & r & E & Hc). unfold splitext_root.
  rewrite app_assoc. rewrite (rfind_mid dot) by assumption.
  rewrite (rfind_notin slash).
  2:{ rewrite in_app_iff. intros [C|[C|C]]; auto. discriminate. }
  replace (-1 <? zlen (t ++ s)) with true by (unfold zlen; lia).
  change (-1 + 1) with 0. rewrite Z.sub_0_r. change (skipn (Z.to_nat 0) ((t ++ s) ++ dot :: ext)) with ((t ++ s) ++ dot :: ext).
  rewrite firstn_zlen. rewrite E at 1. cbn [forallb]. rewrite (eqb_false dot c) by congruence.
  cbn [andb]. reflexivity.
Qed.

Lemma notin_app (c : ascii) a b : ~ In c a -> ~ In c b -> ~ In c (a ++ b).
Proof. rewrite in_app_iff. tauto. Qed.


(** ** C08 *)
Lemma terrain_name out tile d : ok_dir out -> good_tile tile ->
  terrain_nc (lcv_tmp out tile) d = convert_nc out tile Terrain d.
Proof.
  intros Hok (Hs & Hu & c & t' & -> & Hc). unfold terrain_nc, lcv_tmp, convert_nc.
  assert (Hn : ~ In slash ((c :: t') ++ lit ".img")) by (apply notin_app; [assumption|notin_lit]).
  rewrite pjoin_dirname, basename_pjoin by assumption.
  assert (E : splitext_root ((c :: t') ++ lit ".img") = c :: t').
  { rewrite <- (app_nil_r (c :: t')) at 2.
    apply (splitext_tile (c :: t') [] (lit "img")); [notin_lit|notin_lit|rewrite app_nil_r; assumption|].
    rewrite app_nil_r. eauto. }
  rewrite E. reflexivity.
Qed.

Lemma pjoin_ends a f : f <> [] -> exists b, pjoin a f = b ++ f.
Proof.
  intros. unfold pjoin. destruct (rev a); [exists []; reflexivity|].
  destruct (Ascii.eqb a0 slash); [exists a; reflexivity|exists (a ++ [slash]); rewrite <- app_assoc; reflexivity].
Qed.

Lemma shield_name out tile d : ok_dir out -> good_tile tile ->
  shield_nc (ms_orig_path (lcv_tmp out tile)) d = convert_nc out tile Shielding d.
Proof.
  intros Hok (Hs & Hu & c & t' & -> & Hc). unfold shield_nc, ms_orig_path, lcv_tmp, convert_nc.
  assert (Hn : ~ In slash ((c :: t') ++ lit ".img")) by (apply notin_app; [assumption|notin_lit]).
  rewrite (pjoin_dirname out ((c :: t') ++ lit ".img")), (basename_pjoin out) by assumption.
  assert (E : splitext_root ((c :: t') ++ lit ".img") = c :: t').
  { rewrite <- (app_nil_r (c :: t')) at 2.
    apply (splitext_tile (c :: t') [] (lit "img")); [notin_lit|notin_lit|rewrite app_nil_r; assumption|].
    rewrite app_nil_r. eauto. }
  rewrite E.
  assert (Hn2 : ~ In slash ((c :: t') ++ lit "_ms.img")) by (apply notin_app; [assumption|notin_lit]).
  destruct (pjoin_ends out (lit "shielding")) as (b & Eb); [discriminate|].
  cbn [folder unit_lower].
  rewrite dirname_plain; [|rewrite Eb; intros C; apply app_eq_nil in C; destruct C; discriminate| |assumption].
  2:{ intros b0 C. rewrite Eb in C. change (lit "shielding") with (lit "shieldin" ++ ["g"%char]) in C.
      rewrite app_assoc in C. apply app_inj_tail in C. destruct C; discriminate. }
  rewrite basename_pjoin by assumption.
  assert (E2 : splitext_root ((c :: t') ++ lit "_ms.img") = (c :: t') ++ lit "_ms").
  { apply (splitext_tile (c :: t') (lit "_ms") (lit "img")); [notin_lit|notin_lit|apply notin_app; [assumption|notin_lit]|].
    simpl. eauto. }
  rewrite E2. rewrite <- app_assoc. reflexivity.
Qed.

Lemma topo_name out tile d : ok_dir out -> good_tile tile ->
  topo_nc (dem_tmp out tile) d = convert_nc out tile Topographic d.
Proof.
  intros Hok (Hs & Hu & c & t' & -> & Hc). unfold topo_nc, dem_tmp, convert_nc.
  assert (Hn : ~ In slash ((c :: t') ++ lit "_dem.img")) by (apply notin_app; [assumption|notin_lit]).
  rewrite pjoin_dirname, basename_pjoin by assumption.
  assert (E : splitext_root ((c :: t') ++ lit "_dem.img") = (c :: t') ++ lit "_dem").
  { apply (splitext_tile (c :: t') (lit "_dem") (lit "img")); [notin_lit|notin_lit|apply notin_app; [assumption|notin_lit]|].
    simpl. eauto. }
  rewrite E. unfold drop_last. rewrite app_length.
  replace (List.length (c :: t') + List.length (lit "_dem") - 4)%nat with (List.length (c :: t')) by (simpl; lia).
  rewrite firstn_app, Nat.sub_diag, firstn_all. cbn [firstn]. rewrite app_nil_r. reflexivity.
Qed.

Lemma split_head_app c a b : ~ In c a -> split_head c (a ++ c :: b) = a.
Proof.
  induction a as [|x xs IH]; intros H; simpl.
  - rewrite Ascii.eqb_refl. reflexivity.
  - rewrite eqb_false by (intros ->; apply H; left; reflexivity).
    rewrite IH; [reflexivity|]. intros C. apply H. right. exact C.
Qed.

Lemma tile_recovered out tile t d : good_tile tile ->
  tile_of_file (basename (convert_nc out tile t d)) = tile.
Proof.
  intros (Hs & Hu & _). unfold convert_nc. rewrite basename_pjoin.
  - unfold tile_of_file. apply split_head_app. assumption.
  - apply notin_app; [assumption|]. destruct t, d; notin_lit.
Qed.

Lemma split_unique (c : ascii) a b a' b' : ~ In c a -> ~ In c a' -> a ++ c :: b = a' ++ c :: b' -> a = a' /\ b = b'.
Proof.
  revert a'. induction a as [|x xs IH]; intros a' H H' E; destruct a' as [|y ys]; simpl in E.
  - inversion E. auto.
  - inversion E; subst. exfalso. apply H'. left. reflexivity.
  - inversion E; subst. exfalso. apply H. left. reflexivity.
  - inversion E; subst. destruct (IH ys) as [-> ->]; auto;
    intros C; [apply H|apply H']; right; exact C.
Qed.

Lemma pjoin_inj a f g : pjoin a f = pjoin a g -> f = g.
Proof.
  unfold pjoin. destruct (rev a); [auto|]. destruct (Ascii.eqb a0 slash); intros E.
  - apply app_inv_head in E. exact E.
  - apply app_inv_head in E. simpl in E. inversion E. reflexivity.
Qed.

Lemma convert_nc_inj out tile tile' t t' d d' : good_tile tile -> good_tile tile' ->
  convert_nc out tile t d = convert_nc out tile' t' d' -> tile = tile' /\ t = t' /\ d = d'.
Proof.
  intros H H' E.
  assert (E1 : tile = tile') by (rewrite <- (tile_recovered out tile t d H), E; apply tile_recovered; assumption).
  split; [exact E1|]. subst tile'.
  assert (B := f_equal basename E). unfold convert_nc in B.
  destruct H as (Hs & Hu & _).
  rewrite !basename_pjoin in B by (apply notin_app; [assumption|]; destruct t, d, t', d'; notin_lit).
  apply app_inv_head in B.
  destruct t, d, t', d'; try (split; reflexivity); discriminate B.
Qed.

(** ** C07: decimal prefixes *)

Lemma digit_val_range c : is_digit c = true -> 0 <= digit_val c <= 9.
Proof. unfold is_digit, digit_val. lia. Qed.

Lemma frac_val_range s : forallb is_digit s = true -> (0 <= frac_val s /\ frac_val s <= 1)%Q.
Proof.
  induction s as [|c s IH]; intros H; cbn [frac_val].
  - lra.
  - simpl in H. apply andb_true_iff in H. destruct H as [Hc Hs].
    specialize (IH Hs). apply digit_val_range in Hc.
    assert (0 <= inject_Z (digit_val c))%Q by (apply (inject_Z_le 0); lia).
    assert (inject_Z (digit_val c) <= 9)%Q by (apply (inject_Z_le _ 9); lia).
    split.
    + apply Qle_shift_div_l; [reflexivity|]. lra.
    + apply Qle_shift_div_r; [reflexivity|]. lra.
Qed.

Lemma int_val_app a b : int_val (a ++ b) = fold_left (fun acc c => 10 * acc + digit_val c) b (int_val a).
Proof. unfold int_val. apply fold_left_app. Qed.

Lemma int_val_fold_ge s acc : forallb is_digit s = true -> 0 <= acc ->
  10 ^ zlen s * acc <= fold_left (fun acc c => 10 * acc + digit_val c) s acc.
Proof.
  revert acc. induction s as [|c s IH]; intros acc H Ha; cbn [fold_left].
  - change (zlen (@nil ascii)) with 0. change (10 ^ 0) with 1. lia.
  - simpl in H. apply andb_true_iff in H. destruct H as [Hc Hs]. apply digit_val_range in Hc.
    replace (zlen (c :: s)) with (zlen s + 1) by (unfold zlen; simpl; lia).
    rewrite Z.pow_add_r by (unfold zlen; lia).
    specialize (IH (10 * acc + digit_val c) Hs ltac:(lia)).
    assert (0 < 10 ^ zlen s) by (apply Z.pow_pos_nonneg; unfold zlen; lia). nia.
Qed.

(** Digit strings without leading zero are short when their value is small. *)
Lemma int_len D n : forallb is_digit D = true -> D <> [] ->
  (forall c D', D = c :: D' -> D' <> [] -> digit_val c <> 0) ->
  1 <= n -> int_val D < 10 ^ n -> zlen D <= n.
Proof.
  intros Hd Hne Hz Hn Hv. destruct D as [|c D']; [contradiction|].
  destruct D' as [|c' D'']; [unfold zlen; simpl; lia|].
  specialize (Hz c (c' :: D'') eq_refl ltac:(discriminate)).
  change (forallb is_digit (c :: c' :: D'')) with (is_digit c && forallb is_digit (c' :: D'')) in Hd.
  apply andb_true_iff in Hd. destruct Hd as [Hc Hs].
  apply digit_val_range in Hc. unfold int_val in Hv.
  change (fold_left (fun acc c0 => 10 * acc + digit_val c0) (c :: c' :: D'') 0)
    with (fold_left (fun acc c0 => 10 * acc + digit_val c0) (c' :: D'') (10 * 0 + digit_val c)) in Hv.
  pose proof (int_val_fold_ge (c' :: D'') (10 * 0 + digit_val c) Hs ltac:(lia)) as G.
  assert (P : 10 ^ zlen (c' :: D'') < 10 ^ n).
  { assert (0 < 10 ^ zlen (c' :: D'')) by (apply Z.pow_pos_nonneg; unfold zlen; lia). nia. }
  apply Z.pow_lt_mono_r_iff in P; [|lia|lia].
  unfold zlen in *. simpl List.length in *. lia.
Qed.

Lemma digits_no_dot D : forallb is_digit D = true -> ~ In dot D.
Proof. intros H C. rewrite forallb_forall in H. apply H in C. discriminate. Qed.

(** Two fixed-notation strings that agree on [n] characters, where [n] covers
    the integer part and one more digit, denote numbers closer than 1/10. *)
Lemma prefix_close s s' d d' n :
  fixed_notation s d -> fixed_notation s' d' ->
  (Qabs d < inject_Z (10 ^ (Z.of_nat n - 3)))%Q -> (Qabs d' < inject_Z (10 ^ (Z.of_nat n - 3)))%Q -> (4 <= n)%nat ->
  take n s = take n s' -> (Qabs (d - d') <= 1 # 10)%Q.
Proof.
  intros (sg & D & F & Es & Hd & Hf & Dn & Fn & Hz & Hv)
         (sg' & D' & F' & Es' & Hd' & Hf' & Dn' & Fn' & Hz' & Hv') B B' Hn E.
  destruct F as [|f0 F]; [contradiction|]. destruct F' as [|f0' F']; [contradiction|].
  pose proof (frac_val_range _ Hf) as [Fr0 Fr1]. pose proof (frac_val_range _ Hf') as [Fr0' Fr1'].
  assert (IV : forall D, forallb is_digit D = true -> 0 <= int_val D).
  { intros D0 H0. pose proof (int_val_fold_ge D0 0 H0 ltac:(lia)). unfold int_val. lia. }
  assert (LD : zlen D <= Z.of_nat n - 3).
  { apply int_len; auto; [lia|]. apply inject_Z_lt_inv.
    eapply Qle_lt_trans; [|exact B].
    pose proof (Qle_Qabs d). pose proof (Qle_Qabs (- d)). rewrite Qabs_opp in H0.
    destruct Hv as [[_ V]|[_ V]]; lra. }
  assert (LD' : zlen D' <= Z.of_nat n - 3).
  { apply int_len; auto; [lia|]. apply inject_Z_lt_inv.
    eapply Qle_lt_trans; [|exact B'].
    pose proof (Qle_Qabs d'). pose proof (Qle_Qabs (- d')). rewrite Qabs_opp in H0.
    destruct Hv' as [[_ V]|[_ V]]; lra. }
  assert (LS : (List.length sg <= 1)%nat) by (destruct Hv as [[-> _]|[-> _]]; simpl; lia).
  assert (LS' : (List.length sg' <= 1)%nat) by (destruct Hv' as [[-> _]|[-> _]]; simpl; lia).
  assert (T : forall sg D f0 F, (List.length sg <= 1)%nat -> zlen D <= Z.of_nat n - 3 ->
     take n (sg ++ D ++ [dot] ++ f0 :: F) = (sg ++ D) ++ dot :: f0 :: firstn (n - List.length (sg ++ D) - 2) F).
  { intros s0 D0 g0 F0 H1 H2. unfold take. rewrite app_assoc. rewrite firstn_app.
    rewrite firstn_all2 by (rewrite app_length; unfold zlen in H2; lia).
    f_equal. unfold zlen in H2.
    replace (n - List.length (s0 ++ D0))%nat with (S (S (n - List.length (s0 ++ D0) - 2)))
      by (rewrite app_length; lia).
    simpl. rewrite Nat.sub_0_r. reflexivity. }
  rewrite Es, Es' in E. rewrite !T in E by assumption.
  assert (ND : ~ In dot (sg ++ D)).
  { apply notin_app; [|apply digits_no_dot; assumption]. destruct Hv as [[-> _]|[-> _]]; notin_lit. }
  assert (ND' : ~ In dot (sg' ++ D')).
  { apply notin_app; [|apply digits_no_dot; assumption]. destruct Hv' as [[-> _]|[-> _]]; notin_lit. }
  apply split_unique in E; [|assumption|assumption]. destruct E as [E1 E2].
  injection E2 as E2 _. subst f0'.
  assert (SD : sg = sg' /\ D = D').
  { destruct Hv as [[-> _]|[-> _]]; destruct Hv' as [[-> _]|[-> _]]; simpl in E1.
    - auto.
    - subst D. simpl in Hd. discriminate.
    - subst D'. simpl in Hd'. discriminate.
    - inversion E1. auto. }
  destruct SD as [-> ->].
  simpl in Hf, Hf'. apply andb_true_iff in Hf. apply andb_true_iff in Hf'.
  destruct Hf as [_ Hf]. destruct Hf' as [_ Hf'].
  apply frac_val_range in Hf. apply frac_val_range in Hf'. destruct Hf, Hf'.
  assert (FF : forall F, (frac_val (f0 :: F) == (1#10) * inject_Z (digit_val f0) + (1#10) * frac_val F)%Q)
    by (intros; cbn [frac_val]; field).
  pose proof (FF F) as F1. pose proof (FF F') as F2.
  apply Qabs_le_iff.
  destruct Hv as [[-> V]|[-> V]]; destruct Hv' as [[G V']|[G V']]; try discriminate; lra.
Qed.

Lemma pjoin_ends' a f : exists b, pjoin a f = b ++ f.
Proof.
  unfold pjoin. destruct (rev a); [exists []; reflexivity|].
  destruct (Ascii.eqb a0 slash); [exists a; reflexivity|exists (a ++ [slash]); rewrite <- app_assoc; reflexivity].
Qed.

Lemma direction_parsed d :
  (forall tmp, nc_direction (terrain_nc tmp d) = dir_str d) /\
  (forall tmp, nc_direction (shield_nc tmp d) = dir_str d) /\
  (forall tmp, nc_direction (topo_nc tmp d) = dir_str d).
Proof.
  assert (G : forall a b m, nc_direction (pjoin a (b ++ m ++ lit "_" ++ dir_str d ++ lit ".nc")) = dir_str d).
  { intros a b m. destruct (pjoin_ends' a (b ++ m ++ lit "_" ++ dir_str d ++ lit ".nc")) as (q & ->).
    rewrite !app_assoc. rewrite <- !(app_assoc _ (lit "_")), <- !app_assoc.
    rewrite (app_assoc q), (app_assoc (q ++ b)). apply nc_direction_ok. }
  split; [|split]; intros tmp.
  - apply (G _ _ (lit "_mz")).
  - apply (G _ _ []).
  - apply (G _ _ (lit "_mt")).
Qed.
