(** * Theorems about interrupted and repeated runs (C92). *)
From Coq Require Import Permutation.
From Verif Require Import Base BaseLemmas TileModel PyStr NameModel NameSpec NameProofs SchedModel SchedSpec SchedProofs SchedStoreProofs
  PipeModel PipeSpec PipeProofs PipeRunProofs PipeProps DistModel DistProofs ConvModel ConvSpec ConvProofs ConvRunSpec ConvRunProofs DistProps HistModel HistProofs.
Open Scope Z_scope.

(** The same run with another number of worker processes. *)
Definition with_workers {G} (j : job G) (k : nat) : job G := Job (tile_type j) (names j) (outd j) (lcvf j) (stg j) (todo j) k.

(** Two runs end alike: both fail, or both succeed and leave the same files. *)
Definition end_alike {G} (r r' : res (rstore G)) : Prop :=
  match r, r' with Ok g, Ok g' => forall p, g p = g' p | Err _, Err _ => True | _, _ => False end.

Lemma under_iff out p : under out p = true <-> exists x, p = pjoin out x.
Proof.
  split.
  - unfold under. destruct (pjoin_base out) as (b & -> & E). intros H.
    assert (K : forall a q, starts a q = true -> exists x, q = a ++ x).
    { induction a as [|c a IH]; intros q Hq; [exists q; reflexivity|]. destruct q as [|c' q]; [discriminate|].
      cbn [starts] in Hq. apply andb_true_iff in Hq. destruct Hq as [H1 H2]. apply Ascii.eqb_eq in H1. subst.
      destruct (IH q H2) as (x & ->). exists x. reflexivity. }
    destruct (K b p H) as (x & ->). exists x. symmetry. apply E.
  - intros (x & ->). apply under_pjoin.
Qed.

(** However many runs into a folder were stopped, wherever they were stopped,
    nothing outside that folder has changed. *)
Theorem C92_outside {G} mul stats_ok out (f0 f : rstore G) p :
  history mul stats_ok out f0 f -> (forall x, p <> pjoin out x) -> f p = f0 p.
Proof.
  intros H Hp. assert (U : under out p = false).
  { destruct (under out p) eqn:U; [|reflexivity]. apply under_iff in U. destruct U as (x & U). exfalso. exact (Hp x U). }
  induction H as [|j f f' _ IH Eo RO I]; [reflexivity|]. subst out.
  rewrite (interrupted_outside mul stats_ok j f f' RO I p U). exact IH.
Qed.
Print Assumptions C92_outside.

Lemma same_start {G} mul stats_ok out (f0 f : rstore G) : history mul stats_ok out f0 f ->
  forall c, boot (prepare out f) c = boot (prepare out f0) c.
Proof.
  intros H [p|t]; [|reflexivity]. cbn [boot]. unfold prepare. destruct (under out p) eqn:U; [reflexivity|].
  apply (C92_outside mul stats_ok out f0 f p H). intros x ->. rewrite under_pjoin in U. discriminate.
Qed.

Lemma end_same {G} (j : job G) k s s' f1 f1' : run_ok (names j) (outd j) (lcvf j) (todo j) -> (forall c, s c = s' c) ->
  tiles_end (with_workers j k) s f1 -> tiles_end j s' f1' -> forall c, f1 c = f1' c.
Proof.
  intros RO Hs E E'. destruct (end_serial (with_workers j k) RO _ _ E) as (g & S & A).
  destruct (end_serial j RO _ _ E') as (g' & S' & A'). pose proof (serial_ext j RO s s' Hs) as X.
  change (serial (jcut j) (jwork j) (todo j) s = Ok g) in S. rewrite S, S' in X. intros c. rewrite A, A'. apply X.
Qed.

(** A run that ends leaves the files it would have left had none of the earlier
    runs happened, whatever the two numbers of processes and schedules. *)
Theorem C92_recovery {G} mul stats_ok (j : job G) k f0 f r0 r :
  run_ok (names j) (outd j) (lcvf j) (todo j) -> history mul stats_ok (outd j) f0 f ->
  complete mul stats_ok j f0 r0 -> complete mul stats_ok (with_workers j k) f r -> end_alike r r0.
Proof.
  intros RO H (f1' & E' & C') (f1 & E & C). cbn [with_workers outd] in E, C.
  pose proof (end_same j k _ _ f1 f1' RO (same_start mul stats_ok (outd j) f0 f H) E E') as X.
  apply (conversion_det mul stats_ok (outd j) (nprocs (with_workers j k)) (nprocs j) (fun p => f1 (File p)) (fun p => f1' (File p)));
    try assumption; try (unfold nprocs; clear; lia). intros p. left. apply X.
Qed.
Print Assumptions C92_recovery.

(** If a run was possible at first then after any history another one is, with
    any number of processes; with at least one worker none of its states is
    blocked. *)
Theorem C92_rerun_possible {G} mul stats_ok (j : job G) k f0 f r0 :
  run_ok (names j) (outd j) (lcvf j) (todo j) -> history mul stats_ok (outd j) f0 f ->
  complete mul stats_ok j f0 r0 ->
  (exists r, complete mul stats_ok (with_workers j k) f r) /\
  forall s, reach (cut_dem (names j) (outd j) (stg j)) (multipliers_calculate (names j) (outd j) (lcvf j) (stg j)) (todo j) k
                  (boot (prepare (outd j) f)) s ->
    finished k s \/ exists s', step (cut_dem (names j) (outd j) (stg j)) (multipliers_calculate (names j) (outd j) (lcvf j) (stg j)) (todo j) k false s s'.
Proof.
  intros RO H (f1' & E' & C'). destruct (end_serial j RO _ _ E') as (g' & S' & _).
  pose proof (serial_ext j RO _ _ (same_start mul stats_ok (outd j) f0 f H)) as X. rewrite S' in X.
  destruct (serial (jcut j) (jwork j) (todo j) (boot (prepare (outd j) f))) as [g|] eqn:S; [|contradiction]. split.
  - destruct (end_exists (with_workers j k) RO _ g S) as (f1 & E).
    destruct (convert_possible (with_workers j k) f f1 (nprocs (with_workers j k)) RO (end_state _ _ _ E)) as (ops & Ho).
    eexists; exists f1. split; [exact E|]. exists ops. split; [exact Ho|reflexivity].
  - intros s R. exact (serial_ok_finishes (preads (names j) (outd j) (lcvf j)) (pwrites (names j) (outd j)) _ _ (todo j) k
      (run_ok_nodup (names j) (outd j) (lcvf j) (todo j) RO) (run_ok_independent (names j) (outd j) (lcvf j) (todo j) RO)
      (fun t => run_ok_cut (names j) (outd j) (lcvf j) (stg j) (todo j) t RO)
      (fun t a => run_ok_work (names j) (outd j) (lcvf j) (stg j) (todo j) t a RO) _ g s S R).
Qed.
Print Assumptions C92_rerun_possible.

(** A run stopped during its conversion, even while combined rasters were being
    written, can be completed by running the conversion alone. *)
Theorem C92_convert_resumes {G} mul stats_ok (j : job G) k f f1 size1 ops rest h d size r r0 :
  run_ok (names j) (outd j) (lcvf j) (todo j) -> 1 <= size1 -> 1 <= size ->
  tiles_end (with_workers j k) (boot (prepare (outd j) f)) f1 ->
  convert_ops (outd j) size1 (fun p => f1 (File p)) (ops ++ rest) ->
  foldM (cop_run mul stats_ok (outd j)) ops (fun p => f1 (File p)) = Ok h ->
  (forall p, d p = h p \/ exists n, In (OpTile n) (ops ++ rest) /\ (p = m3_path (outd j) n \/ p = m3max_path (outd j) n)) ->
  conversion mul stats_ok (outd j) size d r -> complete mul stats_ok j f r0 -> end_alike r r0.
Proof.
  intros RO Hs1 Hs E (li & ct & L & T & I) Hh Hd C (f1' & E' & C').
  pose proof (end_same j k _ _ f1 f1' RO (fun c => eq_refl) E E') as X.
  apply (conversion_det mul stats_ok (outd j) size (nprocs j) d (fun p => f1' (File p))); try assumption; try (unfold nprocs; clear; lia).
  assert (K : forall n, In (OpTile n) (ops ++ rest) -> exists x v, ~ In slash x /\
     f1' (File (pjoin (pjoin (outd j) (lit "shielding")) x)) = Some v /\ n = tile_of_file x).
  { intros n Hn. apply (il_tiles size1 ct (ops ++ rest) n Hs1 I) in Hn. apply (proj2 T) in Hn. destruct Hn as (x & Hx & ->).
    apply L in Hx. destruct Hx as (Hx & v & Hv). rewrite X in Hv. exists x, v. auto. }
  assert (O : forall o, In o (ops ++ rest) -> exists n, In (OpTile n) (ops ++ rest) /\ (o = OpTile n \/ o = OpMax n)).
  { intros o Ho. apply (il_in _ _ I) in Ho. destruct Ho as (q & Hq & Ho). pose proof Hq as Hq0. apply in_map_iff in Hq. destruct Hq as (ts & <- & _).
    unfold cops in Ho. apply in_flat_map in Ho. destruct Ho as (n & Hn & Ho). exists n. split.
    - apply (il_in _ _ I). exists (cops ts). split; [exact Hq0|apply cops_tile; exact Hn].
    - destruct Ho as [<-|[<-|[]]]; auto. }
  intros p. destruct (Hd p) as [Ed|(n & Hn & Ep)].
  - destruct (in_dec (list_eq_dec ascii_dec) p (map (opath (outd j)) ops)) as [D|D].
    + right. apply in_map_iff in D. destruct D as (o & <- & Ho). destruct (O o) as (n & Hn & Eo); [apply in_app_iff; auto|].
      destruct (K n Hn) as (x & v & Hx & Hv & ->). exists o, x, v. auto.
    + left. rewrite Ed, <- X. apply (cops_frame mul stats_ok (outd j) ops (fun p => f1 (File p)) h p Hh).
      intros o Ho ->. apply D, in_map. exact Ho.
  - right. destruct (K n Hn) as (x & v & Hx & Hv & ->).
    destruct Ep as [-> | ->]; [exists (OpTile (tile_of_file x))|exists (OpMax (tile_of_file x))]; exists x, v; auto.
Qed.
Print Assumptions C92_convert_resumes.

(** ** A run stopped earlier cannot: the conversion alone may silently give
    other values. *)
Definition r11 (a : Q) : raster Z := Raster 5 [Band [] (Grid 1 1 (fun _ _ => Num a))].
Definition ex_sg3 : stages bool (raster Z) :=
  Stages (fun _ : bool => r11 4) (fun _ : raster Z => true) (fun l _ : raster Z => l) (fun _ : raster Z => false)
    (fun (_ : bool) (_ : raster Z) (_ : dir) => r11 (3 # 4)) (fun v : raster Z => v)
    (fun (_ : bool) (_ _ : raster Z) (_ : dir) => r11 (9 # 10)) (fun (_ : bool) (_ : raster Z) (_ : dir) => r11 2).
Definition ex_job (k : nat) : job Z := Job bool ex_name (lit "/data/out") (lit "/in/landcover.tif") ex_sg3 [true] k.
Definition ex_disk : rstore Z := fun p => if list_eq_dec ascii_dec p (lit "/in/landcover.tif") then Some (r11 1) else None.

Definition top (r : option (raster Z)) : num :=
  match r with Some (Raster _ (b :: _)) => g_at (b_data b) 0 0 | _ => NaN end.

Lemma conv_top (j : job Z) f s t x v size q : run_ok (names j) (outd j) (lcvf j) (todo j) -> 1 <= size -> todo j = [t] ->
  tiles_state j (boot (prepare (outd j) f)) s -> ~ In slash x ->
  s (File (pjoin (pjoin (outd j) (lit "shielding")) x)) = Some v ->
  top (m3max_of Qmult (fun _ => true) (outd j) (fun p => s (File p)) (names j t)) = Num q ->
  exists g, conversion Qmult (fun _ => true) (outd j) size (fun p => s (File p)) (Ok g) /\
    top (g (m3max_path (outd j) (names j t))) = Num q.
Proof.
  intros RO Hs Ht S Hx Hv Hq. destruct (convert_possible j f s size RO S) as (ops & Ho).
  pose proof Ho as (li & ct & L & T & I).
  pose proof (C15_parallel_conversion Qmult (fun _ => true) (outd j) (fun p => s (File p)) size ct ops Hs I) as P.
  assert (K : forall n, In n ct <-> n = names j t).
  { intros n. rewrite (proj2 T n). split.
    - intros (y & Hy & ->). apply L in Hy. destruct Hy as (Hy & w & Hw).
      destruct (in_shielding j RO f s y w S Hy Hw) as (t' & k & It & _ & ->). rewrite Ht in It. destruct It as [<-|[]]. reflexivity.
    - intros ->. exists x. split; [apply L; split; [exact Hx|exists v; exact Hv]|].
      destruct (in_shielding j RO f s x v S Hx Hv) as (t' & k & It & _ & ->). rewrite Ht in It. destruct It as [<-|[]]. reflexivity. }
  destruct (foldM _ ops _) as [g|e] eqn:E.
  - exists g. split; [exists ops; split; [exact Ho|exact E]|].
    destruct (proj1 P (names j t) (proj2 (K _) eq_refl)) as (_ & _ & _ & ->). exact Hq.
  - exfalso. destruct P as (n & Hn & P). apply K in Hn. subst n. unfold m3max_of in P, Hq.
    destruct (m3_of _ _ _ _ _); [|discriminate]. destruct P as [P|P]; [discriminate|]. rewrite P in Hq. discriminate.
Qed.

Lemma ex_ok : run_ok ex_name (lit "/data/out") (lit "/in/landcover.tif") [true].
Proof.
  split; [|split; [|split]].
  - intros q E. apply (f_equal (@rev ascii)) in E. rewrite rev_app_distr in E. discriminate.
  - intros t _. destruct t; (split; [notin_lit|]); (split; [notin_lit|]); eexists; eexists; (split; [reflexivity|discriminate]).
  - constructor; [intros []|constructor].
  - intros t [<-|[]]. vm_compute. reflexivity.
Qed.

Lemma stop_between n : forall (s : @store cell (raster Z)),
  run_actions (firstn n (jwork (ex_job 0) true)) (jcut (ex_job 0) true (boot (prepare (lit "/data/out") ex_disk))) = Ok s ->
  tiles_state (ex_job 0) (boot (prepare (lit "/data/out") ex_disk)) s.
Proof.
  intros s E. apply (ts_within (ex_job 0) _ [] true [] (boot (prepare (lit "/data/out") ex_disk)) (firstn n (jwork (ex_job 0) true)) (skipn n (jwork (ex_job 0) true)) s);
    try reflexivity; [symmetry; apply firstn_skipn|exact E].
Qed.

Lemma ex_noslash : ~ In slash (ex_name true ++ lit "_ms_n.nc").
Proof. apply notin_app; notin_lit. Qed.

Theorem C92_convert_only_refuted :
  exists (j : job Z) f0 f g0 g n,
    run_ok (names j) (outd j) (lcvf j) (todo j) /\
    interrupted Qmult (fun _ => true) j f0 f /\
    complete Qmult (fun _ => true) j f0 (Ok g0) /\
    conversion Qmult (fun _ => true) (outd j) 1 f (Ok g) /\
    top (g0 (m3max_path (outd j) n)) = Num (54 # 40) /\ top (g (m3max_path (outd j) n)) = Num (27 # 40).
Proof.
  set (s0 := boot (prepare (lit "/data/out") ex_disk)).
  destruct (run_actions (firstn 20 (jwork (ex_job 0) true)) (jcut (ex_job 0) true s0)) as [s|e] eqn:E.
  2:{ exfalso. assert (C : match run_actions (firstn 20 (jwork (ex_job 0) true)) (jcut (ex_job 0) true s0) with Ok _ => true | Err _ => false end = true)
        by (vm_compute; reflexivity). rewrite E in C. discriminate. }
  destruct (serial (jcut (ex_job 0)) (jwork (ex_job 0)) [true] s0) as [f1|e] eqn:E1.
  2:{ exfalso. assert (C : match serial (jcut (ex_job 0)) (jwork (ex_job 0)) [true] s0 with Ok _ => true | Err _ => false end = true)
        by (vm_compute; reflexivity). rewrite E1 in C. discriminate. }
  assert (T1 : tiles_end (ex_job 0) s0 f1) by (apply te_serial; [reflexivity|exact E1]).
  pose proof ex_noslash as N.
  assert (V : exists v, s (File (pjoin (pjoin (lit "/data/out") (lit "shielding")) (ex_name true ++ lit "_ms_n.nc"))) = Some v).
  { assert (C : match run_actions (firstn 20 (jwork (ex_job 0) true)) (jcut (ex_job 0) true s0) with
                | Ok s => match s (File (pjoin (pjoin (lit "/data/out") (lit "shielding")) (ex_name true ++ lit "_ms_n.nc"))) with Some _ => true | None => false end
                | Err _ => false end = true) by (vm_compute; reflexivity).
    rewrite E in C. destruct (s _) as [v|]; [exists v; reflexivity|discriminate]. }
  assert (V1 : exists v, f1 (File (pjoin (pjoin (lit "/data/out") (lit "shielding")) (ex_name true ++ lit "_ms_n.nc"))) = Some v).
  { assert (C : match serial (jcut (ex_job 0)) (jwork (ex_job 0)) [true] s0 with
                | Ok s => match s (File (pjoin (pjoin (lit "/data/out") (lit "shielding")) (ex_name true ++ lit "_ms_n.nc"))) with Some _ => true | None => false end
                | Err _ => false end = true) by (vm_compute; reflexivity).
    rewrite E1 in C. destruct (f1 _) as [v|]; [exists v; reflexivity|discriminate]. }
  assert (Q : top (m3max_of Qmult (fun _ => true) (lit "/data/out") (fun p => s (File p)) (ex_name true)) = Num (27 # 40)).
  { assert (C : match run_actions (firstn 20 (jwork (ex_job 0) true)) (jcut (ex_job 0) true s0) with
                | Ok s => top (m3max_of Qmult (fun _ => true) (lit "/data/out") (fun p => s (File p)) (ex_name true)) | Err _ => NaN end = Num (27 # 40)) by (vm_compute; reflexivity).
    rewrite E in C. exact C. }
  assert (Q1 : top (m3max_of Qmult (fun _ => true) (lit "/data/out") (fun p => f1 (File p)) (ex_name true)) = Num (54 # 40)).
  { assert (C : match serial (jcut (ex_job 0)) (jwork (ex_job 0)) [true] s0 with
                | Ok s => top (m3max_of Qmult (fun _ => true) (lit "/data/out") (fun p => s (File p)) (ex_name true)) | Err _ => NaN end = Num (54 # 40)) by (vm_compute; reflexivity).
    rewrite E1 in C. exact C. }
  destruct V as (v & V), V1 as (v1 & V1).
  destruct (conv_top (ex_job 0) ex_disk s true _ v 1 _ ex_ok (Z.le_refl 1) eq_refl (stop_between 20 s E) N V Q) as (g & C & W).
  destruct (conv_top (ex_job 0) ex_disk f1 true _ v1 1 _ ex_ok (Z.le_refl 1) eq_refl (end_state _ _ _ T1) N V1 Q1) as (g0 & C0 & W0).
  exists (ex_job 0), ex_disk, (fun p => s (File p)), g0, g, (ex_name true).
  split; [exact ex_ok|]. split; [apply (in_tiles _ _ _ _ s); [exact (stop_between 20 s E)|intros p _; reflexivity]|].
  split; [exists f1; split; [exact T1|exact C0]|]. split; [exact C|]. split; [exact W0|exact W].
Qed.
Print Assumptions C92_convert_only_refuted.

(** After the interrupted run of that case a complete run with two workers is
    possible, and all such runs leave the files of the undisturbed run. *)
Example C92_ex : exists (j : job Z) (f0 f g0 : rstore Z),
  run_ok (names j) (outd j) (lcvf j) (todo j) /\ history Qmult (fun _ => true) (outd j) f0 f /\
  complete Qmult (fun _ => true) j f0 (Ok g0) /\
  (exists r, complete Qmult (fun _ => true) (with_workers j 2) f r) /\
  forall r, complete Qmult (fun _ => true) (with_workers j 2) f r -> exists g, r = Ok g /\ forall p, g p = g0 p.
Proof.
  destruct C92_convert_only_refuted as (j & f0 & f & g0 & g & n & RO & I & C & _).
  assert (H : history Qmult (fun _ => true) (outd j) f0 f) by (apply (h_interrupted _ _ _ _ j f0); [apply h_start|reflexivity|exact RO|exact I]).
  exists j, f0, f, g0. split; [exact RO|]. split; [exact H|]. split; [exact C|].
  split; [exact (proj1 (C92_rerun_possible _ _ j 2 f0 f _ RO H C))|].
  intros r R. pose proof (C92_recovery _ _ j 2 f0 f _ r RO H C R) as E. destruct r as [h|]; [|contradiction]. exists h. split; [reflexivity|exact E].
Qed.
