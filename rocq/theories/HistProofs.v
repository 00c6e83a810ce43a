From Coq Require Import Permutation.
From Verif Require Import Base BaseLemmas TileModel PyStr NameModel NameSpec NameProofs SchedModel SchedSpec SchedProofs SchedStoreProofs
  PipeModel PipeSpec PipeProofs PipeRunProofs DistModel DistProofs ConvModel ConvSpec ConvProofs ConvRunSpec ConvRunProofs DistProps HistModel.
Open Scope Z_scope.

(** ** Paths *)
Lemma starts_app a b : starts a (a ++ b) = true.
Proof. induction a as [|x a IH]; [reflexivity|]. cbn [starts app]. rewrite Ascii.eqb_refl. exact IH. Qed.

Lemma pjoin_base out : exists b, pjoin out [] = b /\ forall f, pjoin out f = b ++ f.
Proof. destruct (pjoin_pre out) as (b & H). exists b. split; [rewrite H, app_nil_r; reflexivity|exact H]. Qed.

Lemma under_pjoin out f : under out (pjoin out f) = true.
Proof. unfold under. destruct (pjoin_base out) as (b & -> & ->). apply starts_app. Qed.

Lemma sub_path out x f : (forall b', x <> b' ++ [slash]) -> x <> [] ->
  pjoin (pjoin out x) f = pjoin out (x ++ slash :: f).
Proof. intros H N. destruct (pjoin_base out) as (b & _ & E). rewrite !E. apply pjoin_M3; assumption. Qed.

Ltac lit_end := let b' := fresh in let E := fresh in
  intros b' E; apply (f_equal (@rev ascii)) in E; rewrite rev_app_distr in E; discriminate.

Lemma shielding_path out f : pjoin (pjoin out (lit "shielding")) f = pjoin out (lit "shielding" ++ slash :: f).
Proof. apply sub_path; [lit_end|discriminate]. Qed.

Lemma under_pathk out n k : under out (pathk out n k) = true.
Proof.
  destruct k as [| | |ty d]; cbn [pathk]; try apply under_pjoin.
  - rewrite shielding_path. apply under_pjoin.
  - unfold convert_nc. rewrite sub_path; [apply under_pjoin| |]; destruct ty; try lit_end; discriminate.
Qed.

Lemma m3_path_eq out n : m3_path out n = pjoin out (lit "M3" ++ slash :: n ++ lit ".tif").
Proof. unfold m3_path. apply sub_path; [lit_end|discriminate]. Qed.
Lemma m3max_path_eq out n : m3max_path out n = pjoin out (lit "M3_max" ++ slash :: n ++ lit ".tif").
Proof. unfold m3max_path. apply sub_path; [lit_end|discriminate]. Qed.

Lemma under_opath out o : under out (opath out o) = true.
Proof. destruct o as [n|n]; cbn [opath]; [rewrite m3_path_eq|rewrite m3max_path_eq]; apply under_pjoin. Qed.

Lemma shielding_not_m3 out x o : pjoin (pjoin out (lit "shielding")) x <> opath out o.
Proof.
  rewrite shielding_path. destruct o as [n|n]; cbn [opath]; [rewrite m3_path_eq|rewrite m3max_path_eq];
    intros E; apply pjoin_inj in E; discriminate.
Qed.

Lemma nc_not_m3 out n ty d o : convert_nc out n ty d <> opath out o.
Proof.
  destruct (convert_nc_tail out n ty d) as (a & y & ->). intros E. symmetry in E. revert E.
  destruct o as [t|t]; cbn [opath]; unfold m3_path, m3max_path; apply tif_ne_nc.
Qed.

(** A file of a tile that is in the shielding folder is named after the tile. *)
Lemma shielding_pathk out n k x : good_tile n -> ~ In slash x -> pjoin (pjoin out (lit "shielding")) x = pathk out n k ->
  x = n ++ sfx k /\ tile_of_file x = n.
Proof.
  intros G Hx E. assert (X : x = n ++ sfx k).
  { rewrite <- (base_pathk out n k G), <- E. symmetry. apply basename_pjoin. exact Hx. }
  split; [exact X|]. destruct (sfx_us k) as [->|(r & Er)].
  - exfalso. rewrite shielding_path in E. cbn [pathk] in E. apply pjoin_inj in E.
    assert (C : In slash (n ++ sfx FLcv)) by (rewrite <- E; apply in_elt).
    revert C. apply notin_app; [apply G|apply sfx_noslash].
  - rewrite X, Er. unfold tile_of_file. apply split_head_app. apply G.
Qed.

(** ** The tile phase *)
Section J.
  Context {G : Type} (j : job G).
  Notation pw := (pwrites (names j) (outd j)). Notation pr := (preads (names j) (outd j) (lcvf j)).
  Hypothesis RO : run_ok (names j) (outd j) (lcvf j) (todo j).

  Let RI := run_ok_independent (names j) (outd j) (lcvf j) (todo j) RO.
  Let RN := run_ok_nodup (names j) (outd j) (lcvf j) (todo j) RO.
  Let RC : forall t, In t (todo j) -> local_total pr pw t (jcut j t) := fun t => run_ok_cut (names j) (outd j) (lcvf j) (stg j) (todo j) t RO.
  Let RW : forall t a, In t (todo j) -> In a (jwork j t) -> local_action pr pw t a :=
    fun t a => run_ok_work (names j) (outd j) (lcvf j) (stg j) (todo j) t a RO.

  Lemma written_under t p : pw t (File p) = true -> under (outd j) p = true.
  Proof. rewrite pw_spec. intros [H|(k & H)]; [discriminate|]. inversion H. apply under_pathk. Qed.

  Lemma serial_frame l : (forall t, In t l -> In t (todo j)) -> NoDup l -> forall f g x,
    serial (jcut j) (jwork j) l f = Ok g -> (forall t, In t (todo j) -> pw t x = false) -> g x = f x.
  Proof.
    intros Hl Hn f g x E Hx.
    pose proof (serial_spec pr pw (jcut j) (jwork j) (todo j) RI RC RW l Hn Hl f) as S.
    change (foldM (one (jcut j) (jwork j)) l f) with (serial (jcut j) (jwork j) l f) in S. rewrite E in S.
    apply S. auto.
  Qed.

  Lemma state_frame f s x : tiles_state j f s -> (forall t, In t (todo j) -> pw t x = false) -> s x = f x.
  Proof.
    intros S Hx. destruct S as [s Hk R|before after g _ E Sr|before t after g ops rest g' _ E Sr Ew Er].
    - exact (v_out _ _ _ _ _ _ _ _ (reach_sinv pr pw (jcut j) (jwork j) (todo j) (workers j) RN RI RC RW f s R) x Hx).
    - apply (serial_frame before) with (f := f); auto.
      + intros t Ht. rewrite E. apply in_app_iff. auto.
      + pose proof RN as N. rewrite E in N. apply NoDup_app_remove_r in N. exact N.
    - assert (It : In t (todo j)) by (rewrite E; apply in_elt).
      rewrite (run_frame pr pw t ops) with (f := jcut j t g); auto.
      + rewrite (proj1 (RC t It)) by auto. apply (serial_frame before) with (f := f); auto.
        * intros u Hu. rewrite E. apply in_app_iff. auto.
        * pose proof RN as N. rewrite E in N. apply NoDup_app_remove_r in N. exact N.
      + intros a Ha. apply (RW t a It). rewrite Ew. apply in_app_iff. auto.
  Qed.

  Lemma end_serial f g : tiles_end j f g -> exists g', serial (jcut j) (jwork j) (todo j) f = Ok g' /\ forall x, g x = g' x.
  Proof.
    intros [s Hk R D|h _ E].
    - destruct (serial (jcut j) (jwork j) (todo j) f) as [g'|e] eqn:E.
      + exists g'. split; [reflexivity|]. exact (parallel_serial pr pw (jcut j) (jwork j) (todo j) (workers j) RN RI RC RW Hk f g' s E R D).
      + exfalso. exact (serial_err_never pr pw (jcut j) (jwork j) (todo j) (workers j) RN RI RC RW Hk f e s E R D).
    - exists h. auto.
  Qed.

  Lemma end_frame f g x : tiles_end j f g -> (forall t, In t (todo j) -> pw t x = false) -> g x = f x.
  Proof.
    intros E Hx. destruct (end_serial f g E) as (g' & S & ->).
    exact (serial_frame (todo j) (fun t H => H) RN f g' x S Hx).
  Qed.

  Lemma one_ext f f' : (forall x, f x = f' x) -> forall t, In t (todo j) ->
    match one (jcut j) (jwork j) f t, one (jcut j) (jwork j) f' t with
    | Ok h, Ok h' => agree pr t h h' | Err e, Err e' => e = e' | _, _ => False end.
  Proof.
    intros H t It. unfold one. apply (run_local pr pw t (jwork j t) (fun a => RW t a It)).
    apply (proj2 (RC t It)). intros x _. apply H.
  Qed.

  Lemma serial_ext f f' : (forall x, f x = f' x) ->
    match serial (jcut j) (jwork j) (todo j) f, serial (jcut j) (jwork j) (todo j) f' with
    | Ok g, Ok g' => forall x, g x = g' x | Err _, Err _ => True | _, _ => False end.
  Proof.
    intros H.
    pose proof (serial_spec pr pw (jcut j) (jwork j) (todo j) RI RC RW (todo j) RN (fun t H => H) f) as S.
    pose proof (serial_spec pr pw (jcut j) (jwork j) (todo j) RI RC RW (todo j) RN (fun t H => H) f') as S'.
    change (foldM (one (jcut j) (jwork j)) (todo j) f) with (serial (jcut j) (jwork j) (todo j) f) in S.
    change (foldM (one (jcut j) (jwork j)) (todo j) f') with (serial (jcut j) (jwork j) (todo j) f') in S'.
    destruct (serial (jcut j) (jwork j) (todo j) f) as [g|e], (serial (jcut j) (jwork j) (todo j) f') as [g'|e']; auto.
    - intros x. destruct (existsb (fun t => pw t x) (todo j)) eqn:E.
      + apply existsb_exists in E. destruct E as (t & It & W).
        assert (Rd : pr t x = true) by (apply (proj1 RI); auto).
        destruct (proj1 S t It) as (h & E & A), (proj1 S' t It) as (h' & E' & A').
        pose proof (one_ext f f' H t It) as O. rewrite E, E' in O. rewrite A, A' by auto. apply O. exact Rd.
      + assert (W : forall t, In t (todo j) -> pw t x = false).
        { intros t It. destruct (pw t x) eqn:P; [|reflexivity]. exfalso.
          assert (C : existsb (fun t => pw t x) (todo j) = true) by (apply existsb_exists; eauto). congruence. }
        rewrite (proj2 S) by exact W. rewrite (proj2 S') by exact W. apply H.
    - destruct S' as (t & It & e & E'). destruct (proj1 S t It) as (h & E & _).
      pose proof (one_ext f f' H t It) as O. rewrite E, E' in O. exact O.
    - destruct S as (t & It & e' & E). destruct (proj1 S' t It) as (h & E' & _).
      pose proof (one_ext f f' H t It) as O. rewrite E, E' in O. exact O.
  Qed.

  Lemma end_exists f g : serial (jcut j) (jwork j) (todo j) f = Ok g -> exists g', tiles_end j f g'.
  Proof.
    intros E. destruct (Nat.eq_dec (workers j) 0) as [Z|N].
    - exists g. apply te_serial; assumption.
    - assert (Hk : (1 <= workers j)%nat) by (destruct (workers j); [contradiction|apply le_n_S, Nat.le_0_l]).
      destruct (run_to_end (jcut j) (jwork j) (todo j) (workers j) Hk f (init (workers j) f)) as (s & R & St).
      { exists 0%nat. constructor. }
      exists (fs s). apply te_parallel; auto.
      destruct (serial_ok_finishes pr pw (jcut j) (jwork j) (todo j) (workers j) RN RI RC RW f g s E R) as [F|(s' & F)]; [apply F|].
      exfalso. exact (St false s' F).
  Qed.

  (** What is in the shielding folder. *)
  Lemma in_shielding f s x v : tiles_state j (boot (prepare (outd j) f)) s -> ~ In slash x ->
    s (File (pjoin (pjoin (outd j) (lit "shielding")) x)) = Some v ->
    exists t k, In t (todo j) /\ x = names j t ++ sfx k /\ tile_of_file x = names j t.
  Proof.
    intros S Hx E. destruct (existsb (fun t => pw t (File (pjoin (pjoin (outd j) (lit "shielding")) x))) (todo j)) eqn:W.
    - apply existsb_exists in W. destruct W as (t & It & W). apply pw_spec in W. destruct W as [W|(k & W)]; [discriminate|].
      injection W as W. exists t, k. split; [exact It|]. apply (shielding_pathk (outd j)); auto. apply RO. exact It.
    - rewrite (state_frame _ _ _ S) in E.
      + cbn [boot] in E. unfold prepare in E. rewrite shielding_path, under_pjoin in E. discriminate.
      + intros t It. destruct (pw t _) eqn:P; [|reflexivity]. exfalso.
        assert (C : existsb (fun t => pw t (File (pjoin (pjoin (outd j) (lit "shielding")) x))) (todo j) = true) by (apply existsb_exists; eauto). congruence.
  Qed.
End J.

Lemma end_state {G} (j : job G) f g : tiles_end j f g -> tiles_state j f g.
Proof.
  intros [s Hk R D|h Z E]; [apply ts_parallel; assumption|].
  apply (ts_between j f (todo j) []); [exact Z|rewrite app_nil_r; reflexivity|exact E].
Qed.

(** ** The conversion *)
Lemma il_exists {A} : forall n (parts : list (list A)), length (concat parts) = n -> exists l, interleaving parts l.
Proof.
  induction n as [|n IH]; intros parts H.
  - exists []. constructor. apply Forall_forall. intros p Hp. destruct p as [|x p]; [reflexivity|]. exfalso.
    assert (C : In x (concat parts)) by (apply in_concat; exists (x :: p); split; [exact Hp|left; reflexivity]).
    destruct (concat parts); [contradiction|discriminate].
  - destruct (concat parts) as [|x c] eqn:E; [discriminate|].
    assert (C : In x (concat parts)) by (rewrite E; left; reflexivity). apply in_concat in C.
    destruct C as (p & Hp & Hx). destruct p as [|y p]; [contradiction|].
    apply in_split in Hp. destruct Hp as (a & b & ->).
    destruct (IH (a ++ p :: b)) as (l & Hl).
    { rewrite <- E in H. rewrite concat_app in *. cbn [concat] in *. rewrite app_length in *. cbn [app length] in H.
      rewrite Nat.add_succ_r in H. injection H as H. exact H. }
    exists (y :: l). constructor. exact Hl.
Qed.

Lemma convert_possible {G} (j : job G) f s size : run_ok (names j) (outd j) (lcvf j) (todo j) ->
  tiles_state j (boot (prepare (outd j) f)) s -> exists ops, convert_ops (outd j) size (fun p => s (File p)) ops.
Proof.
  intros RO S.
  set (here := fun x => match s (File (pjoin (pjoin (outd j) (lit "shielding")) x)) with Some _ => true | None => false end).
  set (listing := filter here (flat_map (fun t => map (fun k => names j t ++ sfx k) all_fk) (todo j))).
  set (ctiles := nodup (list_eq_dec ascii_dec) (map tile_of_file listing)).
  destruct (il_exists _ (map cops (split_tiles size ctiles)) eq_refl) as (ops & Hil).
  exists ops, listing, ctiles. split; [|split; [split|exact Hil]].
  - intros x. unfold listing. rewrite filter_In. split.
    + intros [Hx Hh]. apply in_flat_map in Hx. destruct Hx as (t & It & Hx). apply in_map_iff in Hx. destruct Hx as (k & <- & _).
      split; [apply notin_app; [apply RO; exact It|apply sfx_noslash]|].
      unfold here in Hh. destruct (s _) as [v|]; [exists v; reflexivity|discriminate].
    + intros (Hx & v & Hv). split; [|unfold here; rewrite Hv; reflexivity].
      destruct (in_shielding j RO f s x v S Hx Hv) as (t & k & It & -> & _).
      apply in_flat_map. exists t. split; [exact It|]. apply in_map_iff. exists k. split; [reflexivity|apply all_fk_in].
  - apply NoDup_nodup.
  - intros t. unfold ctiles. rewrite nodup_In, in_map_iff. split; intros (x & H1 & H2); exists x; auto.
Qed.

Lemma il_in {A} (parts : list (list A)) l : interleaving parts l -> forall x, In x l <-> exists p, In p parts /\ In x p.
Proof.
  intros H x. pose proof (il_perm parts l H) as P. rewrite <- in_concat. split; apply Permutation_in; [exact P|apply Permutation_sym; exact P].
Qed.

Lemma cops_tile ctiles n : In (OpTile n) (cops ctiles) <-> In n ctiles.
Proof.
  unfold cops. rewrite in_flat_map. split.
  - intros (x & Hx & [E|[E|[]]]); [injection E as ->; exact Hx|discriminate].
  - intros H. exists n. split; [exact H|left; reflexivity].
Qed.

Lemma il_tiles size ctiles ops n : 1 <= size -> interleaving (map cops (split_tiles size ctiles)) ops ->
  In (OpTile n) ops <-> In n ctiles.
Proof.
  intros Hs Hil. rewrite (il_in _ _ Hil). pose proof (split_perm size ctiles Hs) as P. split.
  - intros (p & Hp & Hn). apply in_map_iff in Hp. destruct Hp as (q & <- & Hq). apply cops_tile in Hn.
    apply (Permutation_in _ P). apply in_concat. eauto.
  - intros H. apply (Permutation_in _ (Permutation_sym P)) in H. apply in_concat in H. destruct H as (q & Hq & Hn).
    exists (cops q). split; [apply in_map; exact Hq|apply cops_tile; exact Hn].
Qed.

Section C.
  Context {G : Type} (mul : Q -> Q -> Q) (stats_ok : grid num -> bool) (out : str).

  (** Two conversions whose inputs differ at most in the combined files of the
      tiles being converted end alike. *)
  Lemma conversion_det size size' (f f' : rstore G) r r' : 1 <= size -> 1 <= size' ->
    (forall p, f p = f' p \/ exists o x v, ~ In slash x /\ f' (pjoin (pjoin out (lit "shielding")) x) = Some v /\
       (o = OpTile (tile_of_file x) \/ o = OpMax (tile_of_file x)) /\ p = opath out o) ->
    conversion mul stats_ok out size f r -> conversion mul stats_ok out size' f' r' ->
    match r, r' with Ok g, Ok g' => forall p, g p = g' p | Err _, Err _ => True | _, _ => False end.
  Proof.
    intros Hs Hs' H (ops & (li & ct & L & T & I) & E) (ops' & (li' & ct' & L' & T' & I') & E').
    assert (HL : forall x, In x li <-> In x li').
    { intros x. rewrite L, L'. destruct (H (pjoin (pjoin out (lit "shielding")) x)) as [->|(o & _ & _ & _ & _ & _ & C)]; [reflexivity|].
      exfalso. exact (shielding_not_m3 _ _ _ C). }
    assert (HT : forall n, In n ct <-> In n ct').
    { intros n. rewrite (proj2 T n), (proj2 T' n). split; intros (x & H1 & H2); exists x; (split; [apply HL; exact H1|exact H2]). }
    assert (HM : forall n, m3_of mul stats_ok out f n = m3_of mul stats_ok out f' n).
    { intros n. unfold m3_of. rewrite (m3_ext mul stats_ok out f f'); [reflexivity|].
      intros ty d. destruct (H (convert_nc out n ty d)) as [->|(o & _ & _ & _ & _ & _ & C)]; [reflexivity|]. exfalso. exact (nc_not_m3 _ _ _ _ _ C). }
    assert (HX : forall n, m3max_of mul stats_ok out f n = m3max_of mul stats_ok out f' n) by (intros n; unfold m3max_of; rewrite HM; reflexivity).
    pose proof (C15_parallel_conversion mul stats_ok out f size ct ops Hs I) as P. rewrite E in P.
    pose proof (C15_parallel_conversion mul stats_ok out f' size' ct' ops' Hs' I') as P'. rewrite E' in P'.
    destruct r as [g|e], r' as [g'|e']; auto.
    - intros p. destruct (in_dec (list_eq_dec ascii_dec) p (map (m3_path out) ct ++ map (m3max_path out) ct)) as [D|D].
      + apply in_app_iff in D. destruct D as [D|D]; apply in_map_iff in D; destruct D as (n & <- & Hn);
          destruct (proj1 P n Hn) as (_ & M & _ & X), (proj1 P' n (proj1 (HT n) Hn)) as (_ & M' & _ & X').
        * rewrite M, M'. apply HM.
        * rewrite X, X'. apply HX.
      + assert (N : forall n, In n ct -> p <> m3_path out n /\ p <> m3max_path out n).
        { intros n Hn. split; intros ->; apply D, in_app_iff; [left|right]; apply in_map; exact Hn. }
        rewrite (proj2 P) by exact N. rewrite (proj2 P') by (intros n Hn; apply N, HT; exact Hn).
        destruct (H p) as [K|(o & x & v & Hx & Hv & Ho & ->)]; [exact K|]. exfalso.
        assert (Hn : In (tile_of_file x) ct).
        { apply HT, (proj2 T'). exists x. split; [apply L'; split; [exact Hx|exists v; exact Hv]|reflexivity]. }
        destruct (N _ Hn) as [N1 N2]. destruct Ho as [-> | ->]; cbn [opath] in *; contradiction.
    - destruct P' as (n & Hn & K). destruct (proj1 P n (proj2 (HT n) Hn)) as (A & _ & B & _). rewrite HM in A. rewrite HX in B. tauto.
    - destruct P as (n & Hn & K). destruct (proj1 P' n (proj1 (HT n) Hn)) as (A & _ & B & _). rewrite <- HM in A. rewrite <- HX in B. tauto.
  Qed.

  Lemma cops_frame ops : forall (f g : rstore G) p, foldM (cop_run mul stats_ok out) ops f = Ok g ->
    (forall o, In o ops -> p <> opath out o) -> g p = f p.
  Proof.
    induction ops as [|o ops IH]; intros f g p E H; cbn [foldM] in E; [injection E as <-; reflexivity|].
    destruct (cop_run mul stats_ok out f o) as [f'|e] eqn:Eo; [|discriminate]. cbn [bind] in E.
    rewrite (IH f' g p E) by (intros o' Ho; apply H; right; exact Ho).
    assert (N := H o (or_introl eq_refl)).
    destruct o as [n|n]; cbn [cop_run opath] in Eo, N; unfold process_tile, process_max_tile in Eo.
    - destruct (m3_raster mul stats_ok f out n); [|discriminate]. cbn [bind] in Eo. injection Eo as <-.
      unfold rput. destruct (list_eq_dec ascii_dec p (m3_path out n)); [contradiction|reflexivity].
    - destruct (m3max_raster stats_ok f out n); [|discriminate]. cbn [bind] in Eo. injection Eo as <-.
      unfold rput. destruct (list_eq_dec ascii_dec p (m3max_path out n)); [contradiction|reflexivity].
  Qed.

End C.

  (** ** Whatever happened, nothing outside the output folder has changed. *)
  Lemma interrupted_outside {G} mul stats_ok (j : job G) f f' : run_ok (names j) (outd j) (lcvf j) (todo j) ->
    interrupted mul stats_ok j f f' -> forall p, under (outd j) p = false -> f' p = f p.
  Proof.
    intros RO I p Hp.
    assert (W : forall t, In t (todo j) -> pwrites (names j) (outd j) t (File p) = false).
    { intros t _. destruct (pwrites _ _ t (File p)) eqn:W; [|reflexivity]. apply written_under in W. congruence. }
    destruct I as [|f' H|s f' S T|f1 ops rest g f' S _ E T].
    - reflexivity.
    - destruct (H p) as [->|[C _]]; [reflexivity|congruence].
    - rewrite (T p Hp). rewrite (state_frame j RO _ _ _ S W). cbn [boot]. unfold prepare. rewrite Hp. reflexivity.
    - rewrite (T p Hp).
      assert (F : g p = f1 (File p)).
      { apply (cops_frame mul stats_ok (outd j) ops (fun p => f1 (File p)) g p E).
        intros o _ ->. rewrite under_opath in Hp. discriminate. }
      rewrite F. rewrite (end_frame j RO _ _ _ S W). cbn [boot]. unfold prepare. rewrite Hp. reflexivity.
  Qed.
