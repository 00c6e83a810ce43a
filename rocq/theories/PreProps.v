(** * Theorems about the preparation of the land-cover map (C56-C58, C66, C67). *)
From Coq Require Import Ascii String Sorted Permutation.
From Verif Require Import Base Rounding BaseLemmas PyStr UtilModel UtilProofs TerrProofs PreModel PreSpec PreProofs.
Open Scope Z_scope.

(** ** C56: the category code *)
Lemma code_known ms names : (forall s, lookup0 ms s = match find (fun p => str_eqb (snd p) s) names with Some p => fst p | None => 0 end) ->
  (forall z s, In (z, s) names -> 0 < z < 100 /\ name_of names z = Some s) ->
  forall v, 0 <= code_of ms v < 100 /\ name_of names (code_of ms v) = known names v.
Proof.
  intros E K v. assert (Z0 : forall l, (forall z s, In (z, s) l -> 0 < z) -> name_of l 0 = None).
  { induction l as [|[z s] l IH]; intros H; [reflexivity|]. cbn. pose proof (H z s (or_introl eq_refl)). destruct (Z.eqb_spec z 0); [lia|]. apply IH. intros z' s' Hz. apply (H z' s'). right. exact Hz. }
  assert (N0 : name_of names 0 = None) by (apply Z0; intros z s H; apply (K z s H)).
  destruct v as [|s|z]; cbn [code_of known]; try (split; [lia|exact N0]). rewrite E. destruct (find _ names) as [[z s']|] eqn:F.
  - apply find_some in F. destruct F as [F1 F2]. cbn [snd] in F2. destruct (str_eqb_spec s' s) as [->|]; [|discriminate]. cbn [fst]. destruct (K z s F1) as [R N]. split; [lia|]. rewrite N.
    assert (X : existsb (fun p => str_eqb (snd p) s) names = true) by (apply existsb_exists; exists (z, s); split; [exact F1|apply str_eqb_refl]). rewrite X. reflexivity.
  - split; [lia|]. rewrite N0. destruct (existsb _ names) eqn:X; [|reflexivity]. apply existsb_exists in X. destruct X as (p & P1 & P2). rewrite (find_none _ _ F p P1) in P2. discriminate.
Qed.
Lemma settlement_code v : 0 <= code_of settlement_map v < 100 /\ name_of settlement_names (code_of settlement_map v) = known settlement_names v.
Proof.
  apply code_known.
  - intros s. unfold settlement_map, settlement_names. cbn [lookup0 find snd fst]. repeat (match goal with |- context [str_eqb ?a s] => destruct (str_eqb a s); [reflexivity|] end). reflexivity.
  - intros z s H. unfold settlement_names in H. repeat (destruct H as [H|H]; [injection H as <- <-; split; [lia|reflexivity]|]). destruct H.
Qed.
Lemma use_code v : 0 <= code_of local_use_map v < 100 /\ name_of use_names (code_of local_use_map v) = known use_names v.
Proof.
  apply code_known.
  - intros s. unfold local_use_map, use_names. cbn [lookup0 find snd fst]. repeat (match goal with |- context [str_eqb ?a s] => destruct (str_eqb a s); [reflexivity|] end). reflexivity.
  - intros z s H. unfold use_names in H. repeat (destruct H as [H|H]; [injection H as <- <-; split; [lia|reflexivity]|]). destruct H.
Qed.
Lemma code_bound m b v : (forall k z, In (k, z) m -> 0 <= z <= b) -> 0 <= b -> 0 <= code_of m v <= b.
Proof.
  intros H B. destruct v as [|s|z]; cbn; try lia. induction m as [|[k z] m IH]; cbn; [lia|]. destruct (str_eqb k s); [apply (H k z); left; reflexivity|]. apply IH. intros k' z' Hk. apply (H k' z'). right. exact Hk.
Qed.

(** The category of a feature gives back both source names, or tells that a
    name is not one of the documented ones. *)
Theorem C56_decodes : forall sc lc a a' s u, categorise sc lc a = Ok a' -> aget a sc = Ok s -> aget a lc = Ok u ->
  exists z, aget a' (lit "CAT") = Ok (VInt z) /\ decode z = (known settlement_names s, known use_names u).
Proof.
  intros sc lc a a' s u H Hs Hu. unfold categorise in H. rewrite Hs, Hu in H. cbn [bind] in H. injection H as <-. eexists. split; [apply aget_same|].
  destruct (settlement_code s) as [S1 S2]. destruct (use_code u) as [U1 U2]. unfold decode.
  rewrite Z.div_add_l, Z.div_small, Z.add_0_r by lia. rewrite Z.add_comm, Z.mod_add, Z.mod_small by lia. rewrite S2, U2. reflexivity.
Qed.

(** Categories fit in the 16-bit raster; 0, its no-data value, means that
    neither name is known. *)
Theorem C56_range : forall sc lc a a', categorise sc lc a = Ok a' ->
  exists z, aget a' (lit "CAT") = Ok (VInt z) /\ 0 <= z <= 511 /\ (z = 0 <-> decode z = (None, None)).
Proof.
  intros sc lc a a' H. unfold categorise in H. destruct (aget a sc) as [s|]; [|discriminate]. destruct (aget a lc) as [u|]; [|discriminate]. cbn [bind] in H. injection H as <-. eexists. split; [apply aget_same|].
  assert (S : 0 <= code_of settlement_map s <= 5) by (apply code_bound; [|lia]; intros k z H; repeat (destruct H as [H|H]; [injection H as <- <-; lia|]); destruct H).
  assert (U : 0 <= code_of local_use_map u <= 11) by (apply code_bound; [|lia]; intros k z H; repeat (destruct H as [H|H]; [injection H as <- <-; lia|]); destruct H).
  split; [lia|]. split; [intros E; rewrite E; reflexivity|]. intros D. unfold decode in D. injection D as D1 D2.
  rewrite Z.div_add_l, Z.div_small, Z.add_0_r in D1 by lia. rewrite Z.add_comm, Z.mod_add, Z.mod_small in D2 by lia.
  assert (code_of settlement_map s = 0). { destruct s as [|s|]; try reflexivity. cbn [code_of] in *. unfold settlement_map in *. cbn [lookup0] in *. repeat (match goal with |- context [str_eqb ?a s] => destruct (str_eqb a s); [discriminate D1|] end). reflexivity. }
  assert (code_of local_use_map u = 0). { destruct u as [|u|]; try reflexivity. cbn [code_of] in *. unfold local_use_map in *. cbn [lookup0] in *. repeat (match goal with |- context [str_eqb ?a u] => destruct (str_eqb a u); [discriminate D2|] end). reflexivity. }
  lia.
Qed.

(** Nothing else about the feature changes, and it fails exactly when one of
    the two attributes is missing. *)
Theorem C56_only_cat : forall sc lc a, (exists a', categorise sc lc a = Ok a' /\ forall k, k <> lit "CAT" -> aget a' k = aget a k) \/
  (categorise sc lc a = Err KeyError /\ (aget a sc = Err KeyError \/ aget a lc = Err KeyError)).
Proof.
  assert (K : forall a k e, aget a k = Err e -> e = KeyError).
  { induction a as [|[k' v] a IH]; cbn [aget]; intros k e H; [congruence|]. destruct (str_eqb k' k); [discriminate|exact (IH k e H)]. }
  intros sc lc a. unfold categorise. destruct (aget a sc) as [s|e] eqn:E1; [|right; rewrite (K _ _ _ E1); auto]. destruct (aget a lc) as [u|e] eqn:E2; [|right; cbn [bind]; rewrite (K _ _ _ E2); auto].
  left. cbn [bind]. eexists. split; [reflexivity|]. intros k Hk. apply aget_other. exact Hk.
Qed.

(** ** C57: dissolving *)

(** One feature per label, in the order of the labels; each has the attributes
    of the first feature with the label and the union of the geometries of all
    features with it. *)
Theorem C57_groups : forall G (ge : geo G) name l out, dissolve ge name l = Ok out ->
  exists ks, NoDup ks /\ (forall k, In k ks <-> exists f, In f l /\ flabel name f = Some k) /\
    Forall2 (fun k o => exists f r, members name k l = f :: r /\ o = (fst f, g_union ge (map snd (f :: r)))) ks out.
Proof.
  intros G ge name l out H. destruct (dissolve_spec ge name l out H) as (ks & S & K & F). exists ks. split; [|auto].
  clear - S. induction S as [|k ks S IH H]; constructor; [|exact IH]. intros I. rewrite Forall_forall in H. destruct (H k I) as [_ N]. apply N. reflexivity.
Qed.

(** Read as point sets: each feature's label occurs once in the result, and a
    point is in a resulting geometry exactly when it is in some feature with
    its label. *)
Lemma dissolve_label {G} (ge : geo G) name l out o : dissolve ge name l = Ok out -> In o out ->
  exists k f r, flabel name o = Some k /\ members name k l = f :: r /\ o = (fst f, g_union ge (map snd (f :: r))).
Proof.
  intros H Ho. destruct (C57_groups G ge name l out H) as (ks & _ & _ & F). clear H.
  induction F as [|k o' ks out (f & r & E & Eo) _ IH]; [destruct Ho|]. destruct Ho as [<-|Ho]; [|exact (IH Ho)].
  exists k, f, r. split; [|auto]. assert (I : In f (members name k l)) by (rewrite E; left; reflexivity). apply in_members in I. destruct I as [_ I]. unfold flabel in *. rewrite Eo. cbn [fst]. exact I.
Qed.
Theorem C57_points : forall G P (ge : geo G) (inside : G -> P -> Prop) name l out, union_of_points ge inside -> dissolve ge name l = Ok out ->
  (forall o k p, In o out -> flabel name o = Some k -> (inside (snd o) p <-> exists f, In f l /\ flabel name f = Some k /\ inside (snd f) p)) /\
  (forall f k, In f l -> flabel name f = Some k -> exists o, In o out /\ flabel name o = Some k /\ forall o', In o' out -> flabel name o' = Some k -> o' = o).
Proof.
  intros G P ge inside name l out U H. split.
  - intros o k p Ho Hk. destruct (dissolve_label ge name l out o H Ho) as (k' & f & r & Lo & Em & Eo). assert (k' = k) as -> by congruence. rewrite Eo. cbn [snd]. unfold union_of_points in U. rewrite U, <- Em. split.
    + intros (g & Hg & Hp). apply in_map_iff in Hg. destruct Hg as (f' & <- & Hf). apply in_members in Hf. exists f'. tauto.
    + intros (f' & H1 & H2 & Hp). exists (snd f'). split; [|exact Hp]. apply in_map. apply in_members. auto.
  - intros f k Hf Hk. destruct (C57_groups G ge name l out H) as (ks & ND & K & F).
    assert (Ik : In k ks) by (apply K; exists f; auto).
    assert (X : forall o, In o out -> flabel name o = Some k -> exists f r, members name k l = f :: r /\ o = (fst f, g_union ge (map snd (f :: r)))).
    { intros o Ho Lo. destruct (dissolve_label ge name l out o H Ho) as (k' & f' & r & Lo' & Em & Eo). assert (k' = k) as -> by congruence. exists f', r. auto. }
    assert (Y : exists o, In o out /\ flabel name o = Some k).
    { clear X K ND Hf Hk f H. induction F as [|k' o ks out (f & r & E & Eo) _ IH]; [destruct Ik|]. destruct Ik as [->|Ik].
      - exists o. split; [left; reflexivity|]. assert (I : In f (members name k l)) by (rewrite E; left; reflexivity). apply in_members in I. destruct I as [_ I]. unfold flabel in *. rewrite Eo. cbn [fst]. exact I.
      - destruct (IH Ik) as (o' & H1 & H2). exists o'. split; [right; exact H1|exact H2]. }
    destruct Y as (o & Ho & Lo). exists o. split; [exact Ho|]. split; [exact Lo|]. intros o' Ho' Lo'. destruct (X o Ho Lo) as (f1 & r1 & E1 & ->). destruct (X o' Ho' Lo') as (f2 & r2 & E2 & ->). rewrite E1 in E2. injection E2 as -> ->. reflexivity.
Qed.
(** The number of resulting features is the number of labels. *)
Theorem C57_once : forall G (ge : geo G) name l out, dissolve ge name l = Ok out -> NoDup (map (flabel name) out).
Proof.
  intros G ge name l out H. destruct (C57_groups G ge name l out H) as (ks & ND & _ & F).
  assert (E : map (flabel name) out = map Some ks).
  { clear ND H. induction F as [|k o ks out (f & r & E & Eo) _ IH]; [reflexivity|]. cbn [map]. rewrite IH. f_equal. assert (I : In f (members name k l)) by (rewrite E; left; reflexivity). apply in_members in I. destruct I as [_ I]. unfold flabel in *. rewrite Eo. cbn [fst]. exact I. }
  rewrite E. apply FinFun.Injective_map_NoDup; [|exact ND]. intros a b X. injection X as ->. reflexivity.
Qed.
(** The labels come out the same, in the same order, whatever the order of the
    features. *)
Theorem C57_order : forall G (ge : geo G) name l l' out out', Permutation l l' -> dissolve ge name l = Ok out -> dissolve ge name l' = Ok out' ->
  map (flabel name) out = map (flabel name) out'.
Proof.
  intros G ge name l l' out out' Pm H H'.
  assert (L : forall l out, dissolve ge name l = Ok out -> exists ks, StronglySorted klt ks /\ (forall k, In k ks <-> exists f, In f l /\ flabel name f = Some k) /\ map (flabel name) out = map Some ks).
  { clear. intros l out H. destruct (dissolve_spec ge name l out H) as (ks & S & K & F). exists ks. split; [exact S|]. split; [exact K|]. clear S K H. induction F as [|k o ks out (f & r & E & Eo) _ IH]; [reflexivity|]. cbn [map]. rewrite IH. f_equal.
    assert (I : In f (members name k l)) by (rewrite E; left; reflexivity). apply in_members in I. destruct I as [_ I]. unfold flabel in *. rewrite Eo. cbn [fst]. exact I. }
  destruct (L l out H) as (ks & S & K & ->). destruct (L l' out' H') as (ks' & S' & K' & ->). f_equal.
  assert (I : forall k, In k ks <-> In k ks'). { intros k. rewrite K, K'. split; intros (f & H1 & H2); exists f; (split; [|exact H2]); [apply (Permutation_in _ Pm)|apply (Permutation_in _ (Permutation_sym Pm))]; exact H1. }
  clear - S S' I. revert ks' S' I. induction S as [|k ks S IH H]; intros ks' S' I.
  - destruct ks' as [|k' ks']; [reflexivity|]. destruct (proj2 (I k') (or_introl eq_refl)).
  - destruct S' as [|k' ks' S' H']; [destruct (proj1 (I k) (or_introl eq_refl))|]. rewrite Forall_forall in *.
    assert (k = k') as ->.
    { destruct (proj1 (I k) (or_introl eq_refl)) as [E|E]; [congruence|]. destruct (proj2 (I k') (or_introl eq_refl)) as [E'|E']; [congruence|].
      destruct (H' k E) as [A _]. destruct (H k' E') as [B _]. apply str_leb_antisym; assumption. }
    f_equal. apply IH; [exact S'|]. intros q. split; intros Hq.
    + destruct (proj1 (I q) (or_intror Hq)) as [->|X]; [|exact X]. destruct (H q Hq) as [_ N]. exfalso. apply N. reflexivity.
    + destruct (proj2 (I q) (or_intror Hq)) as [->|X]; [|exact X]. destruct (H' q Hq) as [_ N]. exfalso. apply N. reflexivity.
Qed.
(** It fails exactly when some feature has no label. *)
Theorem C57_succeeds_iff : forall G (ge : geo G) name l, (exists out, dissolve ge name l = Ok out) <-> forall f, In f l -> exists k, flabel name f = Some k.
Proof. intros G. exact dissolve_ok. Qed.
(** Labels are not values: features without a value, with an empty one and with
    the value "None" are merged. *)
Theorem C57_values_refuted : forall G (ge : geo G) name g1 g2 g3,
  dissolve ge name [([(name, VStr (lit "None"))], g1); ([(name, VNone)], g2); ([(name, VStr [])], g3)] = Ok [([(name, VStr (lit "None"))], g_union ge [g1; g2; g3])].
Proof. intros. unfold dissolve. cbn [mapM]. unfold keyed. cbn [fst aget]. rewrite str_eqb_refl. reflexivity. Qed.
(** Otherwise equal labels mean equal values. *)
Theorem C57_values_iff : forall v w k, label v = Some k -> label w = Some k -> (v = w \/ k = lit "None").
Proof. intros [|[|c s]|z] [|[|c1 s1]|z1] k H1 H2; cbn [label] in *; try discriminate; try (right; congruence); left; congruence. Qed.

(** ** C58: joining *)
Lemma join_general {G} fl (ge : geo G) var other l out : tree_ok ge -> spatial_join fl ge var other l = Ok out ->
  Forall2 (fun f f' => snd f' = snd f /\ (forall k, k <> var -> aget (fst f') k = aget (fst f) k) /\
    (((forall i, ~ touching ge (map snd other) (snd f) i) /\ aget (fst f') var = Ok VNone) \/
     exists c o, nth_error other c = Some o /\ g_intersects ge (snd f) (snd o) = true /\ aget (fst f') var = aget (fst o) var /\
       ((forall i, touching ge (map snd other) (snd f) i -> i = c) \/ (~ g_area ge (snd f) == 0)%Q) /\
       forall i g', nth_error (map snd other) i = Some g' -> g_intersects ge (snd f) g' = true -> i = c \/ (share fl ge (snd f) g' <= share fl ge (snd f) (snd o))%Q)) l out.
Proof.
  intros T H. unfold spatial_join in H. destruct (mapM (fun f : feature G => process fl ge (map snd other) (snd f)) l) as [r|] eqn:E; [|discriminate]. cbn [bind] in H. apply mapM_forall2 in H. apply mapM_forall2 in E. apply combine_forall2 in E.
  pose proof (forall2_comp _ _ _ _ _ E H) as F. revert F. apply forall2_impl. clear - T. intros f f' ([f0 c] & [Ef Ep] & Ej). cbn [fst snd] in *. subst f0.
  destruct (process_some fl ge (map snd other) (snd f) c T Ep) as [[-> N]|(i & g & -> & Hg & Ig & Z & M)].
  - injection Ej as <-. cbn [fst snd]. split; [reflexivity|]. split; [intros k Hk; apply aget_other; exact Hk|]. left. split; [exact N|apply aget_same].
  - destruct (nth_error other i) as [o|] eqn:Eo; [|discriminate]. destruct (aget (fst o) var) as [v|] eqn:Ev; [|discriminate]. cbn [bind] in Ej. injection Ej as <-. cbn [fst snd].
    rewrite (map_nth_error snd _ _ Eo) in Hg. injection Hg as <-. split; [reflexivity|]. split; [intros k Hk; apply aget_other; exact Hk|]. right. exists i, o. rewrite aget_same, Ev. auto 6.
Qed.
(** Every feature is kept, in order, with its geometry and its other
    attributes; without anything intersecting it it gets no value, otherwise
    the value of one that shares the largest area with it. *)
Theorem C58_joined : forall G (ge : geo G) var other l out, tree_ok ge -> areas_ok ge -> spatial_join (fun x => x) ge var other l = Ok out ->
  Forall2 (joined ge var other) l out.
Proof.
  intros G ge var other l out T A H. pose proof (join_general _ ge var other l out T H) as F. revert F. apply forall2_impl. intros f f' (E1 & E2 & [E3|(c & o & Ho & Io & Ev & Z & M)]); (split; [exact E1|]; split; [exact E2|]); [left; exact E3|]. right. exists c, o. split; [|auto].
  split; [apply map_nth_error; exact Ho|]. split; [exact Io|]. intros i g' Hi Ii. assert (Same : i = c -> (overlap ge (snd f) g' <= overlap ge (snd f) (snd o))%Q) by (intros ->; rewrite (map_nth_error snd _ _ Ho) in Hi; injection Hi as <-; apply Qle_refl).
  destruct Z as [U|Nz]; [apply Same; apply U; exists g'; auto|]. destruct (M i g' Hi Ii) as [X|X]; [exact (Same X)|apply share_overlap; assumption].
Qed.
Lemma join_within {G} fl e (ge : geo G) var other l out : within fl e -> tree_ok ge -> areas_ok ge -> spatial_join fl ge var other l = Ok out ->
  Forall2 (fun f f' => snd f' = snd f /\ (forall k, k <> var -> aget (fst f') k = aget (fst f) k) /\ (((forall i, ~ touching ge (map snd other) (snd f) i) /\ aget (fst f') var = Ok VNone) \/
    exists o, In o other /\ g_intersects ge (snd f) (snd o) = true /\ aget (fst f') var = aget (fst o) var /\
      forall o', In o' other -> g_intersects ge (snd f) (snd o') = true -> ((1 - e) * overlap ge (snd f) (snd o') <= (1 + e) * overlap ge (snd f) (snd o))%Q)) l out.
Proof.
  intros [He Hr] T A H. pose proof (join_general _ ge var other l out T H) as F. revert F. apply forall2_impl. intros f f' (E1 & E2 & [E3|(c & o & Ho & Io & Ev & Z & M)]); (split; [exact E1|]; split; [exact E2|]); [left; exact E3|]. right. exists o. split; [apply (nth_error_In _ _ Ho)|]. split; [exact Io|]. split; [exact Ev|].
  intros o' Ho' Io'. apply In_nth_error in Ho'. destruct Ho' as (i & Hi). pose proof (map_nth_error snd _ _ Hi) as Hi'.
  assert (Hov : (0 <= overlap ge (snd f) (snd o))%Q) by apply A. assert (Hov' : (0 <= overlap ge (snd f) (snd o'))%Q) by apply A.
  assert (Same : i = c -> ((1 - e) * overlap ge (snd f) (snd o') <= (1 + e) * overlap ge (snd f) (snd o))%Q).
  { intros ->. rewrite Ho in Hi. injection Hi as <-. apply Qmult_le_compat_r; [lra|exact Hov]. }
  destruct Z as [U|Nz]; [apply Same; apply U; exists (snd o'); auto|]. destruct (M i _ Hi' Io') as [X|X]; [exact (Same X)|]. unfold share in X.
  set (a := g_area ge (snd f)) in *. assert (P : (0 < a)%Q) by (destruct (Qlt_le_dec 0 a) as [Y|Y]; [exact Y|exfalso; apply Nz; apply Qle_antisym; [exact Y|apply A]]).
  assert (D : forall x, (0 <= x)%Q -> (0 <= x / a)%Q) by (intros x Hx; apply Qle_shift_div_l; [exact P|rewrite Qmult_0_l; exact Hx]).
  pose proof (Hr (overlap ge (snd f) (snd o) / a)%Q) as R1. pose proof (Hr (overlap ge (snd f) (snd o') / a)%Q) as R2. apply Qabs_Qle_condition in R1, R2. rewrite Qabs_pos in R1 by (apply D; exact Hov). rewrite Qabs_pos in R2 by (apply D; exact Hov').
  assert (Y : ((1 - e) * (overlap ge (snd f) (snd o') / a) <= (1 + e) * (overlap ge (snd f) (snd o) / a))%Q) by lra.
  apply (Qmult_le_compat_r _ _ a) in Y; [|lra]. unfold Qdiv in Y. rewrite <- !Qmult_assoc, !(Qmult_comm (/ _)), !Qmult_inv_r, !Qmult_1_r in Y by exact Nz. exact Y.
Qed.
(** With floating-point division the chosen overlap is the largest up to
    rounding. *)
Theorem C58_rounded : forall G fl (ge : geo G) var other l out, fl_ok fl -> tree_ok ge -> areas_ok ge -> spatial_join fl ge var other l = Ok out ->
  Forall2 (fun f f' => snd f' = snd f /\ (((forall i, ~ touching ge (map snd other) (snd f) i) /\ aget (fst f') var = Ok VNone) \/
    exists o, In o other /\ g_intersects ge (snd f) (snd o) = true /\ aget (fst f') var = aget (fst o) var /\
      forall o', In o' other -> g_intersects ge (snd f) (snd o') = true -> ((1 - u53) * overlap ge (snd f) (snd o') <= (1 + u53) * overlap ge (snd f) (snd o))%Q)) l out.
Proof.
  intros G fl ge var other l out Hf T A H. assert (W : within fl u53) by (split; [discriminate|exact (fl_rel fl Hf)]).
  pose proof (join_within fl u53 ge var other l out W T A H) as F. revert F. apply forall2_impl. intros f f' (E1 & _ & E3). auto.
Qed.
(** If one shares strictly more than all others, its value is taken whatever
    order the search tree answers in. *)
Theorem C58_strict : forall G (ge : geo G) var other l out j f f' c o, tree_ok ge -> areas_ok ge -> spatial_join (fun x => x) ge var other l = Ok out ->
  nth_error l j = Some f -> nth_error out j = Some f' -> nth_error other c = Some o -> g_intersects ge (snd f) (snd o) = true ->
  (forall i o', nth_error other i = Some o' -> g_intersects ge (snd f) (snd o') = true -> i = c \/ (overlap ge (snd f) (snd o') < overlap ge (snd f) (snd o))%Q) ->
  aget (fst f') var = aget (fst o) var.
Proof.
  intros G ge var other l out j f f' c o T A H Hj Hj' Hc Ic S. pose proof (C58_joined G ge var other l out T A H) as F.
  assert (J : joined ge var other f f'). { clear - F Hj Hj'. revert j Hj Hj'. induction F; intros [|j] H1 H2; try discriminate; cbn in *; [congruence|eauto]. }
  destruct J as (_ & _ & [[N _]|(c' & o' & (L1 & L2 & L3) & Ho' & Ev)]).
  - exfalso. apply (N c). exists (snd o). split; [apply map_nth_error; exact Hc|exact Ic].
  - assert (c' = c) as ->. { destruct (S c' o' Ho' L2) as [X|X]; [exact X|]. exfalso. pose proof (L3 c (snd o) (map_nth_error snd _ _ Hc) Ic). lra. }
    rewrite Hc in Ho'. injection Ho' as <-. exact Ev.
Qed.
(** Joining succeeds exactly when no geometry without area intersects two of
    the others (all of which have the attribute). *)
Theorem C58_succeeds_iff : forall G fl (ge : geo G) var other l, tree_ok ge -> (forall o, In o other -> exists v, aget (fst o) var = Ok v) ->
  ((exists out, spatial_join fl ge var other l = Ok out) <->
   forall f, In f l -> (g_area ge (snd f) == 0)%Q -> forall i j, touching ge (map snd other) (snd f) i -> touching ge (map snd other) (snd f) j -> i = j).
Proof.
  intros G fl ge var other l T V. split.
  - intros (out & H) f Hf Z. unfold spatial_join in H. destruct (mapM (fun f : feature G => process fl ge (map snd other) (snd f)) l) as [r|] eqn:E; [|discriminate]. destruct (mapM_inv _ _ _ f E Hf) as (c & Ec).
    destruct (proj1 (process_ok fl ge (map snd other) (snd f) T)) as [X|X]; [exists c; exact Ec|contradiction|exact X].
  - intros H. unfold spatial_join. destruct (mapM_ok (fun f : feature G => process fl ge (map snd other) (snd f)) l) as (r & E).
    + intros f Hf. apply (process_ok fl ge (map snd other) (snd f) T). destruct (Qeq_dec (g_area ge (snd f)) 0) as [Z|Z]; [right; exact (H f Hf Z)|left; exact Z].
    + rewrite E. cbn [bind]. apply mapM_ok. intros [f c] Hfc. destruct c as [c|]; [|eexists; reflexivity]. apply mapM_forall2 in E.
      assert (Ec : process fl ge (map snd other) (snd f) = Ok (Some c)). { clear - E Hfc. induction E as [|x y l r Exy _ IH]; [destruct Hfc|]. destruct Hfc as [X|X]; [injection X as <- ->; exact Exy|exact (IH X)]. }
      destruct (process_some fl ge (map snd other) (snd f) (Some c) T Ec) as [[X _]|(c' & g & X & Hg & _)]; [discriminate|]. injection X as <-.
      destruct (@nth_error (feature G) other c) as [o|] eqn:Eo.
      * destruct (V o (nth_error_In _ _ Eo)) as (v & Ev). exists (aset (fst f) var v, snd f). cbv beta iota. rewrite ?Eo, Ev. reflexivity.
      * exfalso. apply nth_error_None in Eo. assert (X : nth_error (map snd other) c = None) by (apply nth_error_None; rewrite map_length; exact Eo). congruence.
Qed.

(** ** C66: cropping *)

(** Cropping intersects every geometry with the bounding box of the mask (not
    the mask) and keeps, in order and with their attributes, those with area. *)
Theorem C66_crop : forall G (ge : geo G) d l, crop ge d l = clip_all ge (Some d) l.
Proof.
  intros G ge d l. unfold crop, clip_all, clip, bbox. destruct (g_bounds ge d) as [[[x0 y0] x1] y1]. induction l as [|f l IH]; [reflexivity|]. cbn [flat_map]. rewrite IH. destruct (Qeq_bool _ 0); reflexivity.
Qed.
Theorem C66_kept : forall G (ge : geo G) d l a g', In (a, g') (crop ge d l) <->
  exists g, In (a, g) l /\ g' = g_inter ge (bbox ge d) g /\ (~ g_area ge g' == 0)%Q.
Proof.
  intros G ge d l a g'. rewrite C66_crop. unfold clip_all. rewrite in_flat_map. split.
  - intros ([a0 g] & Hf & H). unfold clip in H. cbn [fst snd] in H. destruct (Qeq_bool _ 0) eqn:Z; [destruct H|]. destruct H as [H|[]]. injection H as <- <-. exists g. split; [exact Hf|]. split; [reflexivity|]. apply Qeq_bool_neq. exact Z.
  - intros (g & Hf & -> & Z). exists (a, g). split; [exact Hf|]. unfold clip. cbn [fst snd]. destruct (Qeq_bool _ 0) eqn:E; [apply Qeq_bool_iff in E; contradiction|left; reflexivity].
Qed.

(** ** C67: the whole preparation *)
Lemma known_authorised v : is_authorised v = match known settlement_names v with Some _ => true | None => false end.
Proof.
  destruct v as [|s|z]; try reflexivity. unfold is_authorised, known, authorised, settlement_names. cbn [existsb snd].
  assert (C : forall a b, str_eqb a b = str_eqb b a) by (intros a b; destruct (str_eqb_spec a b), (str_eqb_spec b a); congruence).
  rewrite !(C s). destruct (str_eqb (lit "City") s), (str_eqb (lit "Large Town") s), (str_eqb (lit "Major CBD") s), (str_eqb (lit "Small Town") s), (str_eqb (lit "Urban") s); reflexivity.
Qed.
Lemma known_str v s : known settlement_names v = Some s -> v = VStr s /\ s <> [] /\ s <> lit "None".
Proof.
  destruct v as [|s'|z]; try discriminate. unfold known. destruct (existsb _ settlement_names) eqn:E; [|discriminate]. intros H. injection H as ->. split; [reflexivity|].
  apply existsb_exists in E. destruct E as ([z s'] & I & E). cbn [snd] in E. destruct (str_eqb_spec s' s) as [->|]; [|discriminate]. unfold settlement_names in I.
  repeat (destruct I as [I|I]; [injection I as <- <-; split; discriminate|]). destruct I.
Qed.
(** The label of a settlement class after filtering. *)
Definition class_label (k : option str) : str := match k with Some s => s | None => lit "None" end.
Definition class_value (k : option str) : value := match k with Some s => VStr s | None => VNone end.
Lemma authorise_spec {G} name (l l' : list (feature G)) : authorise name l = Ok l' ->
  Forall2 (fun f f' => snd f' = snd f /\ aget (fst f') name = Ok (class_value (sclass name f)) /\ flabel name f' = Some (class_label (sclass name f))) l l'.
Proof.
  intros H. unfold authorise in H. apply mapM_forall2 in H. revert H. apply forall2_impl. intros f f' E. unfold sclass, flabel. destruct (aget (fst f) name) as [v|] eqn:Ev; [|discriminate]. cbn [bind] in E. rewrite known_authorised in E.
  destruct (known settlement_names v) as [s|] eqn:Ek; injection E as <-.
  - destruct (known_str v s Ek) as (-> & N & _). rewrite Ev. cbn [class_value class_label label]. split; [reflexivity|]. split; [reflexivity|]. destruct s; [contradiction|reflexivity].
  - cbn [fst snd]. rewrite aget_same. auto.
Qed.
Lemma class_label_inj {G} name (f f2 : feature G) : class_label (sclass name f) = class_label (sclass name f2) -> sclass name f = sclass name f2.
Proof.
  unfold sclass. destruct (aget (fst f) name) as [v|]; destruct (aget (fst f2) name) as [w|]; cbn [class_label]; auto.
  - destruct (known settlement_names v) as [s|] eqn:E1, (known settlement_names w) as [s'|] eqn:E2; cbn [class_label]; auto; intros X; [congruence| |].
    + destruct (known_str v s E1) as (_ & _ & N). intros; congruence.
    + destruct (known_str w s' E2) as (_ & _ & N). intros; congruence.
  - destruct (known settlement_names v) as [s|] eqn:E1; cbn [class_label]; auto. destruct (known_str v s E1) as (_ & _ & N). intros; congruence.
  - destruct (known settlement_names w) as [s|] eqn:E1; cbn [class_label]; auto. destruct (known_str w s E1) as (_ & _ & N). intros; congruence.
Qed.
Lemma same_class_spec a b : same_class a b = true <-> a = b.
Proof. destruct a as [a|], b as [b|]; cbn; try (split; congruence). destruct (str_eqb_spec a b); split; congruence. Qed.
Lemma class_members {G} name (l l' : list (feature G)) (f0 : feature G) : authorise name l = Ok l' ->
  map snd (members name (class_label (sclass name f0)) l') = map snd (filter (fun f => same_class (sclass name f) (sclass name f0)) l).
Proof.
  intros H. apply authorise_spec in H. induction H as [|f f' l l' (E1 & _ & E3) _ IH]; [reflexivity|]. unfold members in *. cbn [filter]. rewrite E3.
  assert (X : str_eqb (class_label (sclass name f)) (class_label (sclass name f0)) = same_class (sclass name f) (sclass name f0)).
  { destruct (same_class (sclass name f) (sclass name f0)) eqn:S.
    - apply same_class_spec in S. rewrite S. apply str_eqb_refl.
    - destruct (str_eqb_spec (class_label (sclass name f)) (class_label (sclass name f0))) as [Y|Y]; [|reflexivity]. apply class_label_inj in Y. apply same_class_spec in Y. congruence. }
  rewrite X. destruct (same_class (sclass name f) (sclass name f0)); [|exact IH]. cbn [map]. f_equal; [exact E1|exact IH].
Qed.
Lemma forall2_left {A B} (P : A -> B -> Prop) l m a : Forall2 P l m -> In a l -> exists b, In b m /\ P a b.
Proof. induction 1 as [|x y l m H _ IH]; intros []; [subst; exists y; cbn; auto|]. destruct IH as (b & ? & ?); [assumption|]. exists b. cbn. auto. Qed.
Lemma forall2_right {A B} (P : A -> B -> Prop) l m b : Forall2 P l m -> In b m -> exists a, In a l /\ P a b.
Proof. induction 1 as [|x y l m H _ IH]; intros []; [subst; exists x; cbn; auto|]. destruct IH as (a & ? & ?); [assumption|]. exists a. cbn. auto. Qed.

Lemma repair_spec {G} (ge : geo G) g r : repaired ge g r <-> repair ge g = r.
Proof.
  unfold repaired, repair. destruct (g_valid ge g), (g_valid ge (g_buffer0 ge g)) eqn:B; cbn zeta; rewrite ?B; split; intros H; try subst r; intuition (try congruence; try discriminate).
Qed.

(** The settlement side: exactly the class areas. *)
Lemma settlements {G} (ge : geo G) mask name (l l' out : list (feature G)) : authorise name l = Ok l' -> dissolve ge name l' = Ok out ->
  let other := clip_all ge mask (map (fun f => (fst f, repair ge (snd f))) out) in
  (forall k g, class_area ge mask name l k g -> exists o, In o other /\ aget (fst o) name = Ok (class_value k) /\ snd o = g) /\
  (forall o, In o other -> exists k, class_area ge mask name l k (snd o) /\ aget (fst o) name = Ok (class_value k)).
Proof.
  intros Ha Hd. cbv zeta. pose proof (authorise_spec name l l' Ha) as Fa. destruct (C57_groups G ge name l' out Hd) as (ks & _ & K & F). split.
  - intros k g ((f0 & Hf0 & <-) & rp & Hr & Hc). apply repair_spec in Hr. subst rp. destruct (forall2_left _ _ _ f0 Fa Hf0) as (f1 & Hf1 & _ & _ & L1).
    assert (Ik : In (class_label (sclass name f0)) ks) by (apply K; exists f1; auto). destruct (forall2_left _ _ _ _ F Ik) as (o & Ho & f & r & Em & Eo).
    exists (fst f, g). split; [|split; [|reflexivity]].
    + subst o. unfold clip_all. apply in_flat_map. eexists. split; [apply in_map_iff; eexists; split; [reflexivity|exact Ho]|]. cbn [fst snd]. rewrite <- Em, (class_members name l l' f0 Ha), Hc. left. reflexivity.
    + assert (If : In f (members name (class_label (sclass name f0)) l')) by (rewrite Em; left; reflexivity). apply in_members in If. destruct If as [If Lf].
      destruct (forall2_right _ _ _ f Fa If) as (f2 & Hf2 & _ & Av & L2). cbn [fst]. rewrite Av. rewrite L2 in Lf. injection Lf as Lf. apply class_label_inj in Lf. rewrite Lf. reflexivity.
  - intros o Ho. unfold clip_all in Ho. apply in_flat_map in Ho. destruct Ho as (o1 & Ho1 & Ho). apply in_map_iff in Ho1. destruct Ho1 as (o2 & <- & Ho2). cbn [fst snd] in Ho.
    destruct (clip ge mask (repair ge (snd o2))) as [g|] eqn:Ec; [|destruct Ho]. destruct Ho as [<-|[]]. cbn [fst snd].
    destruct (forall2_right _ _ _ o2 F Ho2) as (kl & Hk & f & r & Em & Eo). assert (If : In f (members name kl l')) by (rewrite Em; left; reflexivity). apply in_members in If. destruct If as [If Lf].
    destruct (forall2_right _ _ _ f Fa If) as (f0 & Hf0 & _ & Av & L2). rewrite L2 in Lf. injection Lf as <-. exists (sclass name f0). split; [split; [exists f0; auto|]|].
    + exists (repair ge (snd o2)). split; [apply repair_spec|exact Ec]. rewrite <- (class_members name l l' f0 Ha), Em. subst o2. reflexivity.
    + subst o2. exact Av.
Qed.

(** Every land-use feature that is left after clipping appears once, in order,
    with its (clipped) geometry, its attributes and a category whose land use is
    its own and whose settlement class is that of the class area sharing most
    of it, up to the error [e] of the arithmetic. *)
Theorem C67_preparation : forall G fl e (ge : geo G) sc lc sf lf mask out d,
  within fl e -> tree_ok ge -> areas_ok ge -> sc <> lc ->
  (mask = None /\ d = None \/ exists m a0 g0 rest, mask = Some m /\ read m = (a0, g0) :: rest /\ d = Some g0) ->
  pre_process fl ge sc lc sf lf mask = Ok out ->
  Forall2 (fun f f' => snd f' = snd f /\ (forall k, k <> sc -> k <> lit "CAT" -> aget (fst f') k = aget (fst f) k) /\
    exists u z k, aget (fst f) lc = Ok u /\ aget (fst f') (lit "CAT") = Ok (VInt z) /\
      decode z = (k, known use_names u) /\ settled_by e ge d sc (read sf) (snd f) k)
    (clip_all ge d (read lf)) out.
Proof.
  intros G fl e ge sc lc sf lf mask out d W T A N M H. unfold pre_process in H.
  destruct (authorise sc (read sf)) as [s1|] eqn:E1; [|discriminate]. cbn [bind] in H. destruct (dissolve ge sc s1) as [s2|] eqn:E2; [|discriminate]. cbn [bind] in H.
  set (s3 := map (fun f : feature G => (fst f, repair ge (snd f))) s2) in *.
  assert (Cn : forall l : list (feature G), clip_all ge None l = l) by (unfold clip_all; induction l as [|[a g] l IH]; [reflexivity|]; cbn; f_equal; exact IH).
  assert (X : exists j, spatial_join fl ge sc (clip_all ge d s3) (clip_all ge d (read lf)) = Ok j /\ mapM (fun f : feature G => let* a := categorise sc lc (fst f) in Ok (a, snd f)) j = Ok out).
  { destruct M as [[-> ->]|(m & a0 & g0 & rest & -> & Er & ->)].
    - rewrite !Cn. cbn [bind] in H. match type of H with bind ?t _ = _ => destruct t as [j|] eqn:Ej end; [|discriminate]. exists j. split; [exact Ej|exact H].
    - rewrite Er in H. cbn [bind snd] in H. rewrite !C66_crop in H. match type of H with bind ?t _ = _ => destruct t as [j|] eqn:Ej end; [|discriminate]. exists j. split; [exact Ej|exact H]. }
  clear H. destruct X as (j & Ej & Em). destruct (settlements ge d sc (read sf) s1 s2 E1 E2) as [S1 S2]. fold s3 in S1, S2. set (other := clip_all ge d s3) in *.
  pose proof (join_within fl e ge sc other _ j W T A Ej) as Fj. apply mapM_forall2 in Em. pose proof (forall2_comp _ _ _ _ _ Fj Em) as F. revert F. apply forall2_impl.
  intros f f' (f1 & (J1 & J2 & J3) & Ec). destruct (categorise sc lc (fst f1)) as [a|] eqn:Ea; [|discriminate]. cbn [bind] in Ec. injection Ec as <-. cbn [fst snd].
  destruct (C56_only_cat sc lc (fst f1)) as [(a' & Ea' & Oa)|[Ea' _]]; [|congruence]. rewrite Ea in Ea'. injection Ea' as <-.
  split; [exact J1|]. split; [intros k K1 K2; rewrite (Oa k K2); exact (J2 k K1)|].
  assert (Lc : exists u, aget (fst f1) lc = Ok u). { unfold categorise in Ea. destruct (aget (fst f1) sc); [|discriminate]. destruct (aget (fst f1) lc) as [u|]; [eauto|discriminate]. } destruct Lc as (u & Lu).
  assert (Ku : forall k, known settlement_names (class_value k) = k -> aget (fst f1) sc = Ok (class_value k) -> settled_by e ge d sc (read sf) (snd f) k -> exists u z k, aget (fst f) lc = Ok u /\ aget a (lit "CAT") = Ok (VInt z) /\ decode z = (k, known use_names u) /\ settled_by e ge d sc (read sf) (snd f) k).
  { intros k Kk Ks St. destruct (C56_decodes sc lc (fst f1) a _ u Ea Ks Lu) as (z & Ez & Dz). exists u, z, k. rewrite <- (J2 lc) by congruence. rewrite Kk in Dz. auto. }
  assert (Kc : forall k g, class_area ge d sc (read sf) k g -> known settlement_names (class_value k) = k).
  { intros k g ((f0 & _ & <-) & _). unfold sclass. destruct (aget (fst f0) sc) as [v|]; [|reflexivity]. destruct (known settlement_names v) as [s|] eqn:Kv; [|reflexivity]. destruct (known_str v s Kv) as (-> & _). exact Kv. }
  destruct J3 as [[J3 J4]|(o & Ho & L2 & J4 & L3)].
  - apply (Ku None); [reflexivity|exact J4|]. left. split; [reflexivity|]. intros k' g' Hc. destruct (g_intersects ge (snd f) g') eqn:I; [|reflexivity]. exfalso.
    destruct (S1 k' g' Hc) as (o & Ho & _ & <-). apply In_nth_error in Ho. destruct Ho as (i & Hi). apply (J3 i). exists (snd o). split; [apply map_nth_error; exact Hi|exact I].
  - destruct (S2 o Ho) as (k & Hk & Av). apply (Ku k); [exact (Kc k _ Hk)|rewrite J4; exact Av|]. right. exists (snd o). split; [exact Hk|]. split; [exact L2|].
    intros k' g' Hc I. destruct (S1 k' g' Hc) as (o' & Ho' & _ & <-). exact (L3 o' Ho' I).
Qed.
(** Exact arithmetic and doubles are cases of this. *)
Lemma exact_within : within (fun x => x) 0.
Proof. split; [discriminate|]. intros x. setoid_replace (x - x)%Q with 0%Q by ring. rewrite Qmult_0_l. discriminate. Qed.
Lemma double_within : within rnd53 u53.
Proof. split; [discriminate|]. exact (fl_rel rnd53 rnd53_fl_ok). Qed.

(** Preparation succeeds if the attributes are there, the mask is not empty and
    every land-use geometry has area. *)
Theorem C67_succeeds : forall G fl (ge : geo G) sc lc sf lf mask, tree_ok ge -> areas_ok ge -> sc <> lc ->
  (forall f, In f (read sf) -> exists v, aget (fst f) sc = Ok v) -> (forall f, In f (read lf) -> exists v, aget (fst f) lc = Ok v) ->
  (forall f, In f (read lf) -> ~ (g_area ge (snd f) == 0)%Q) -> (forall m, mask = Some m -> read m <> []) ->
  exists out, pre_process fl ge sc lc sf lf mask = Ok out.
Proof.
  intros G fl ge sc lc sf lf mask T A N Hs Hl Hz Hm. unfold pre_process.
  destruct (mapM_ok (fun f : feature G => let* v := aget (fst f) sc in Ok (if is_authorised v then f else (aset (fst f) sc VNone, snd f))) (read sf)) as (s1 & E1); [intros f Hf; destruct (Hs f Hf) as (v & ->); eexists; reflexivity|].
  fold (authorise sc (read sf)) in E1. rewrite E1. cbn [bind]. pose proof (authorise_spec sc _ _ E1) as Fa.
  destruct (proj2 (C57_succeeds_iff G ge sc s1)) as (s2 & E2). { intros f Hf. destruct (forall2_right _ _ _ f Fa Hf) as (f0 & _ & _ & _ & L). eexists. exact L. } rewrite E2. cbn [bind].
  assert (V2 : forall o, In o s2 -> exists v, aget (fst o) sc = Ok v). { intros o Ho. destruct (dissolve_label ge sc s1 s2 o E2 Ho) as (k & f & r & Lo & _ & _). unfold flabel in Lo. destruct (aget (fst o) sc) as [v|]; [eauto|discriminate]. }
  set (s3 := map (fun f : feature G => (fst f, repair ge (snd f))) s2). assert (V3 : forall o, In o s3 -> exists v, aget (fst o) sc = Ok v) by (intros o Ho; apply in_map_iff in Ho; destruct Ho as (o' & <- & Ho'); exact (V2 o' Ho')).
  assert (Fin : forall s l, (forall o, In o s -> exists v, aget (fst o) sc = Ok v) -> (forall f, In f l -> (exists v, aget (fst f) lc = Ok v) /\ ~ (g_area ge (snd f) == 0)%Q) ->
    exists out, (let* land_use := spatial_join fl ge sc s l in mapM (fun f : feature G => let* a := categorise sc lc (fst f) in Ok (a, snd f)) land_use) = Ok out).
  { intros s l Vs Vl. destruct (proj2 (C58_succeeds_iff G fl ge sc s l T Vs)) as (j & Ej); [intros f Hf Z; destruct (Vl f Hf) as [_ Nz]; contradiction|]. rewrite Ej. cbn [bind]. apply mapM_ok. intros f' Hf'.
    destruct (forall2_right _ _ _ f' (join_general fl ge sc s l j T Ej) Hf') as (f & Hf & _ & O & J). destruct (Vl f Hf) as [(u & Lu) _]. rewrite <- (O lc) in Lu by congruence.
    assert (Sv : exists v, aget (fst f') sc = Ok v). { destruct J as [[_ J]|(c & o & Ho & _ & Ev & _)]; [eauto|]. rewrite Ev. exact (Vs o (nth_error_In _ _ Ho)). } destruct Sv as (v & Sv).
    unfold categorise. rewrite Sv, Lu. eexists. reflexivity. }
  destruct mask as [m|].
  - destruct (read m) as [|[a0 g0] r] eqn:Er; [destruct (Hm m eq_refl Er)|]. cbn [bind snd]. apply Fin.
    + intros o Ho. destruct o as [a g]. apply C66_kept in Ho. destruct Ho as (g1 & Ho & _). exact (V3 (a, g1) Ho).
    + intros [a g] Hf. apply C66_kept in Hf. destruct Hf as (g1 & Hf & _ & Z). split; [exact (Hl (a, g1) Hf)|exact Z].
  - cbn [bind]. apply Fin; [exact V3|]. intros f Hf. split; [exact (Hl f Hf)|exact (Hz f Hf)].
Qed.

(** ** Examples: intervals of the line as geometries *)
(** A geometry is a finite set of unit cells of a line, an area their number;
    two cells next to each other touch. *)
Definition line_near (a b : Z) : bool := Z.abs (a - b) <=? 1.
Definition line_geo (query : list (list Z) -> list Z -> list nat) : geo (list Z) := {|
  g_union := fun gs => nodup Z.eq_dec (concat gs);
  g_inter := fun a b => filter (fun x => existsb (Z.eqb x) b) a;
  g_intersects := fun a b => existsb (fun x => existsb (line_near x) b) a;
  g_area := fun a => inject_Z (zlen a);
  g_bounds := fun a => (inject_Z (fold_right Z.min 0 a), 0%Q, inject_Z (fold_right Z.max 0 a), 1%Q);
  g_box := fun ps => match ps with (x, _) :: _ :: (y, _) :: _ => range2 (Qfloor x) (Qfloor y + 1) | _ => [] end;
  g_valid := fun _ => true; g_buffer0 := fun a => a;
  g_query := query |}.
Definition all_forward (other : list (list Z)) (_ : list Z) : list nat := seq 0 (length other).
Definition all_backward (other : list (list Z)) (_ : list Z) : list nat := rev (seq 0 (length other)).
Lemma forward_ok : tree_ok (line_geo all_forward).
Proof. intros other poly. split; [apply seq_NoDup|]. intros i (g & Hi & _). apply in_seq. split; [lia|]. apply nth_error_Some. congruence. Qed.
Lemma backward_ok : tree_ok (line_geo all_backward).
Proof. intros other poly. split; [apply NoDup_rev, seq_NoDup|]. intros i (g & Hi & _). apply -> in_rev. apply in_seq. split; [lia|]. apply nth_error_Some. congruence. Qed.
Lemma line_areas q : areas_ok (line_geo q).
Proof. intros g. cbn. unfold zlen. change 0%Q with (inject_Z 0). rewrite <- Zle_Qle. lia. Qed.
Lemma line_union q : union_of_points (line_geo q) (fun g p => In p g).
Proof. intros gs p. cbn. rewrite nodup_In, in_concat. split; intros (g & H); exists g; tauto. Qed.

Definition ex_s (s : string) : attrs := [(lit "SET", VStr (lit s))].
Definition ex_l (s : string) : attrs := [(lit "USE", VStr (lit s))].
Example C57_ex : dissolve (line_geo all_forward) (lit "SET") [(ex_s "Urban", [1; 2]); (ex_s "City", [5]); (ex_s "Urban", [2; 3])]
  = Ok [(ex_s "City", [5]); (ex_s "Urban", [1; 2; 3])].
Proof. vm_compute. reflexivity. Qed.
(** Ties are decided by the search tree. *)
Theorem C58_tie_refuted : exists G (ge1 ge2 : geo G) var other l o1 o2, tree_ok ge1 /\ tree_ok ge2 /\ areas_ok ge1 /\ areas_ok ge2 /\
  (g_area ge1 = g_area ge2 /\ g_inter ge1 = g_inter ge2 /\ g_intersects ge1 = g_intersects ge2) /\
  spatial_join (fun x => x) ge1 var other l = Ok o1 /\ spatial_join (fun x => x) ge2 var other l = Ok o2 /\ o1 <> o2.
Proof.
  exists (list Z), (line_geo all_forward), (line_geo all_backward), (lit "SET"), [(ex_s "Urban", [1; 2]); (ex_s "City", [3; 4])], [(ex_l "Water", [2; 3])]. do 2 eexists.
  split; [exact forward_ok|]. split; [exact backward_ok|]. split; [apply line_areas|]. split; [apply line_areas|]. split; [repeat split|]. split; [vm_compute; reflexivity|]. split; [vm_compute; reflexivity|]. discriminate.
Qed.
(** A feature that only touches a settlement still gets its class. *)
Theorem C58_touching_refuted : exists G (ge : geo G) var o l out, tree_ok ge /\ areas_ok ge /\
  spatial_join (fun x => x) ge var [o] [l] = Ok [out] /\ (overlap ge (snd l) (snd o) == 0)%Q /\ aget (fst out) var = aget (fst o) var /\ aget (fst o) var <> Ok VNone.
Proof.
  exists (list Z), (line_geo all_forward), (lit "SET"), (ex_s "Urban", [1; 2]), (ex_l "Water", [3]). eexists.
  split; [exact forward_ok|]. split; [apply line_areas|]. split; [vm_compute; reflexivity|]. split; [reflexivity|]. split; [reflexivity|discriminate].
Qed.
Example C67_ex : exists out, pre_process (fun x => x) (line_geo all_forward) (lit "SET") (lit "USE")
    [(ex_s "Urban", Some [1; 2]); (ex_s "Farm", Some [3; 4; 5]); (ex_s "City", None); (ex_s "Urban", Some [6])]
    [(ex_l "Water", Some [2; 3; 4]); (ex_l "Transport", Some [1; 2; 3]); (ex_l "?", Some [20])] None = Ok out
  /\ map (fun f => aget (fst f) (lit "CAT")) out = [Ok (VInt 6); Ok (VInt 311); Ok (VInt 0)].
Proof. eexists. split; vm_compute; reflexivity. Qed.
(** The same with the division rounded to doubles, which is within 2^-53. *)
Example C67_double : within rnd53 u53 /\ exists out, pre_process rnd53 (line_geo all_forward) (lit "SET") (lit "USE")
    [(ex_s "Urban", Some [1; 2]); (ex_s "Farm", Some [3; 4; 5]); (ex_s "City", None); (ex_s "Urban", Some [6])]
    [(ex_l "Water", Some [2; 3; 4]); (ex_l "Transport", Some [1; 2; 3]); (ex_l "?", Some [20])] None = Ok out
  /\ map (fun f => aget (fst f) (lit "CAT")) out = [Ok (VInt 6); Ok (VInt 311); Ok (VInt 0)].
Proof. split; [exact double_within|]. eexists. split; vm_compute; reflexivity. Qed.
Example C66_ex : crop (line_geo all_forward) [2; 4] [(ex_l "Water", [3; 9]); (ex_l "Other", [7; 8])] = [(ex_l "Water", [3])].
Proof. vm_compute. reflexivity. Qed.

Print Assumptions C56_decodes.
Print Assumptions C56_range.
Print Assumptions C57_groups.
Print Assumptions C57_points.
Print Assumptions C57_order.
Print Assumptions C58_joined.
Print Assumptions C58_rounded.
Print Assumptions C58_strict.
Print Assumptions C58_succeeds_iff.
Print Assumptions C66_kept.
Print Assumptions C67_preparation.
Print Assumptions C67_succeeds.
