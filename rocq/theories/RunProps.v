(** * Theorems about the output folder and the working directory (C59, C61). *)
From Coq Require Import Ascii String.
From Verif Require Import Base BaseLemmas PyStr NameModel NameSpec PipeModel RunModel RunSpec RunProofs.
Open Scope Z_scope.

(** ** C59: the output folder is recreated from scratch *)

(** Preparation succeeds exactly when neither the output folder nor a folder
    on the way to it is taken by a file. *)
Theorem C59_succeeds_iff : forall f o, wf f -> o <> [] ->
  ((exists f', do_output_directory_creation f o = Ok f') <-> f o <> Some FileE /\ forall q, above o q -> f q <> Some FileE).
Proof.
  intros f o W N. split.
  - intros (f' & E). unfold do_output_directory_creation in E.
    split; [intros X|intros q A X]; rewrite recreate_err in E; try assumption; try discriminate; [left; exact X|right; exists q; auto].
  - intros [H1 H2]. destruct (creation_ok f o W N H1 H2) as (f' & E & _). exists f'. exact E.
Qed.

(** Afterwards it holds exactly the five empty folders, whatever was there
    before, and nothing outside it has changed except that missing folders on
    the way to it now exist. *)
Theorem C59_fresh : forall f o f', wf f -> o <> [] -> do_output_directory_creation f o = Ok f' -> fresh_output f o f'.
Proof.
  intros f o f' W N E. assert (S : exists f', do_output_directory_creation f o = Ok f') by (exists f'; exact E).
  apply (C59_succeeds_iff f o W N) in S. destruct S as [H1 H2]. destruct (creation_ok f o W N H1 H2) as (g & Eg & Fr). rewrite E in Eg. injection Eg as ->. exact Fr.
Qed.

(** In particular every file that was below the output folder is deleted,
    inputs included. *)
Theorem C59_inputs_deleted : forall f o f' p, wf f -> o <> [] -> do_output_directory_creation f o = Ok f' ->
  f p = Some FileE -> at_or_below o p -> f' p <> Some FileE.
Proof.
  intros f o f' p W N E Fp B. destruct (C59_fresh f o f' W N E) as (H1 & H2 & H3 & _ & _).
  destruct (peqb_spec p o) as [->|Np]; [rewrite H1; discriminate|].
  destruct (in_dec path_eq_dec p (map (fun s => o ++ [s]) subdirs_1)) as [I|I].
  - apply in_map_iff in I. destruct I as (s & <- & Hs). rewrite H2; [discriminate|]. exists s. split; [reflexivity|exact Hs].
  - rewrite H3; [discriminate|exact B|exact Np|]. intros (s & -> & Hs). apply I. apply in_map_iff. exists s. split; [reflexivity|exact Hs].
Qed.

(** Otherwise it raises. *)
Theorem C59_blocked : forall f o q, wf f -> o <> [] -> q = o \/ above o q -> f q = Some FileE -> do_output_directory_creation f o = Err OSError.
Proof.
  intros f o q W N H E. unfold do_output_directory_creation. rewrite recreate_err; [reflexivity|exact W|exact N|]. destruct H as [->|H]; [left; exact E|right; exists q; auto].
Qed.

(** ** C61: the working directory *)

(** All tiles done from an absolute output folder, whatever the working
    directory. *)
Lemma absolute_tiles base f o : fresh_output f o base -> forall tiles done cwd g, between base o done g ->
  exists g', run_tiles (Abs o) tiles (cwd, g) = Ok (if existsb snd tiles then o ++ [lit "shielding"] else cwd, g') /\ between base o (done ++ tiles) g'.
Proof.
  intros Fr. unfold run_tiles. induction tiles as [|[t b] tiles IH]; intros done cwd g B; cbn [foldM existsb].
  - exists g. rewrite app_nil_r. split; [reflexivity|exact B].
  - cbn [fst snd]. destruct b.
    + destruct (tile_full base f o t done g cwd Fr B) as (h & E & Bh). rewrite E. cbn [bind orb]. destruct (IH (done ++ [(t, true)]) (o ++ [lit "shielding"]) h Bh) as (g' & E' & B'). exists g'. rewrite E', <- app_assoc in *.
      split; [destruct (existsb snd tiles); reflexivity|exact B'].
    + destruct (tile_empty base f o Fr (Abs o) cwd eq_refl t done g B) as (h & E & Bh). rewrite E. cbn [bind orb]. destruct (IH (done ++ [(t, false)]) cwd h Bh) as (g' & E' & B'). exists g'. rewrite E', <- app_assoc in *. split; [reflexivity|exact B'].
Qed.
Lemma between_nil base o : between base o [] base.
Proof. split; [intros p t []|reflexivity]. Qed.

(** With an absolute output folder the run completes and leaves the result
    files of exactly the tiles with data in the fresh folder, and nothing else,
    whatever the working directory. *)
Theorem C61_absolute : forall cwd f o tiles base, wf f -> o <> [] -> do_output_directory_creation f o = Ok base ->
  exists cwd' f', run cwd f (Abs o) tiles = Ok (cwd', f') /\
    (forall t p, In (t, true) tiles -> result_file o t p -> f' p = Some FileE) /\
    (forall p, (forall t, In (t, true) tiles -> ~ result_file o t p) -> f' p = base p).
Proof.
  intros cwd f o tiles base W N E. pose proof (C59_fresh f o base W N E) as Fr. unfold run. cbn [resolve]. rewrite E. cbn [bind].
  destruct (absolute_tiles base f o Fr tiles [] cwd base (between_nil base o)) as (g & Eg & [A B]). do 2 eexists. split; [exact Eg|]. split; [intros t p; apply A|exact B].
Qed.

(** The working directory is not restored. *)
Theorem C61_cwd_moved : forall cwd f o tiles cwd' f', wf f -> o <> [] -> run cwd f (Abs o) tiles = Ok (cwd', f') ->
  cwd' = if existsb snd tiles then o ++ [lit "shielding"] else cwd.
Proof.
  intros cwd f o tiles cwd' f' W N R. unfold run in R. cbn [resolve] in R. destruct (do_output_directory_creation f o) as [base|] eqn:E; [|discriminate]. cbn [bind] in R.
  destruct (absolute_tiles base f o (C59_fresh f o base W N E) tiles [] cwd base (between_nil base o)) as (g & Eg & _). rewrite Eg in R. injection R as <- _. reflexivity.
Qed.

(** With a relative output folder the run completes exactly when no tile has
    any data. *)
Theorem C61_relative_iff : forall cwd f o tiles base, wf f -> o <> [] -> do_output_directory_creation f (cwd ++ o) = Ok base ->
  ((exists st, run cwd f (Rel o) tiles = Ok st) <-> forall t, In t tiles -> snd t = false).
Proof.
  intros cwd f o tiles base W N E. assert (N' : cwd ++ o <> []) by (intros X; apply app_eq_nil in X; tauto). pose proof (C59_fresh f (cwd ++ o) base W N' E) as Fr.
  unfold run. cbn [resolve]. rewrite E. cbn [bind]. unfold run_tiles.
  assert (K : forall tiles done g, between base (cwd ++ o) done g ->
    ((exists st, foldM (fun st t => foldM exec (tile_ops (Rel o) (fst t) (snd t)) st) tiles (cwd, g) = Ok st) <-> forall t, In t tiles -> snd t = false)); [|exact (K tiles [] base (between_nil base _))].
  clear tiles. induction tiles as [|[t b] tiles IH]; intros done g B; cbn [foldM].
  - split; [intros _ t []|intros _; eexists; reflexivity].
  - cbn [fst snd]. destruct b.
    + rewrite (tile_relative base f cwd o t done g N Fr B). cbn [bind]. split; [intros (st & X); discriminate|]. intros H. specialize (H (t, true) (or_introl eq_refl)). discriminate.
    + destruct (tile_empty base f (cwd ++ o) Fr (Rel o) cwd eq_refl t done g B) as (h & Eh & Bh). rewrite Eh. cbn [bind]. rewrite (IH _ h Bh). split; [intros H t' [<-|Ht]; [reflexivity|exact (H t' Ht)]|intros H t' Ht; apply H; right; exact Ht].
Qed.

(** ** Examples *)
(** A disk with /data/out/in.img (an input kept inside the output folder),
    /data/out/old and a file /data/x. *)
Definition ex_fs : fsys := fun p =>
  if existsb (peqb p) [[]; [lit "data"]; [lit "data"; lit "out"]; [lit "data"; lit "out"; lit "old"]] then Some DirE
  else if existsb (peqb p) [[lit "data"; lit "out"; lit "in.img"]; [lit "data"; lit "x"]] then Some FileE else None.
Lemma ex_wf : wf ex_fs.
Proof.
  split; [reflexivity|]. intros p x H. unfold ex_fs in H.
  assert (K : In (p ++ [x]) [[]; [lit "data"]; [lit "data"; lit "out"]; [lit "data"; lit "out"; lit "old"]; [lit "data"; lit "out"; lit "in.img"]; [lit "data"; lit "x"]]).
  { destruct (existsb (peqb (p ++ [x])) [[]; [lit "data"]; [lit "data"; lit "out"]; [lit "data"; lit "out"; lit "old"]]) eqn:E1; [|destruct (existsb (peqb (p ++ [x])) [[lit "data"; lit "out"; lit "in.img"]; [lit "data"; lit "x"]]) eqn:E2; [|contradiction]].
    - apply existsb_exists in E1. destruct E1 as (y & Hy & E). destruct (peqb_spec (p ++ [x]) y); [subst y|discriminate]. apply (in_or_app _ [_; _] _ (or_introl Hy)).
    - apply existsb_exists in E2. destruct E2 as (y & Hy & E). destruct (peqb_spec (p ++ [x]) y); [subst y|discriminate]. apply (in_or_app [_; _; _; _] _ _ (or_intror Hy)). }
  assert (P : In p (map (@removelast str) [[lit "data"]; [lit "data"; lit "out"]; [lit "data"; lit "out"; lit "old"]; [lit "data"; lit "out"; lit "in.img"]; [lit "data"; lit "x"]])).
  { destruct K as [K|K]; [destruct p; discriminate|]. apply in_map_iff. exists (p ++ [x]). split; [apply removelast_snoc|exact K]. }
  cbn [map removelast] in P. repeat (destruct P as [<-|P]; [reflexivity|]). destruct P.
Qed.
Example C59_ex : match do_output_directory_creation ex_fs [lit "data"; lit "out"] with
  | Ok f => (f [lit "data"; lit "out"; lit "in.img"], f [lit "data"; lit "out"; lit "M3"], f [lit "data"; lit "x"]) = (None, Some DirE, Some FileE)
  | Err _ => False end.
Proof. vm_compute. reflexivity. Qed.
Example C59_ex_blocked : do_output_directory_creation ex_fs [lit "data"; lit "x"; lit "out"] = Err OSError.
Proof. vm_compute. reflexivity. Qed.
Example C61_ex : match run [lit "data"] ex_fs (Abs [lit "data"; lit "out"]) [(lit "a", true); (lit "b", false)] with
  | Ok (c, f) => (c, f [lit "data"; lit "out"; lit "topographic"; lit "a_mt_n.nc"], f [lit "data"; lit "out"; lit "topographic"; lit "b_mt_n.nc"], f [lit "data"; lit "out"; lit "a_dem.img"])
                 = ([lit "data"; lit "out"; lit "shielding"], Some FileE, None, None)
  | Err _ => False end.
Proof. vm_compute. reflexivity. Qed.
(** The same run with the output folder given as "out" from /data fails. *)
Theorem C61_relative_refuted : exists cwd f o tiles st, wf f /\ run cwd f (Abs (cwd ++ o)) tiles = Ok st /\ run cwd f (Rel o) tiles = Err OSError.
Proof.
  exists [lit "data"], ex_fs, [lit "out"], [(lit "a", true); (lit "b", false)].
  destruct (C61_absolute [lit "data"] ex_fs [lit "data"; lit "out"] [(lit "a", true); (lit "b", false)]) with (base := match do_output_directory_creation ex_fs [lit "data"; lit "out"] with Ok f => f | Err _ => ex_fs end) as (c & g & E & _).
  - exact ex_wf.
  - discriminate.
  - destruct (proj2 (C59_succeeds_iff ex_fs [lit "data"; lit "out"] ex_wf ltac:(discriminate))) as (f' & E); [|rewrite E; reflexivity].
    split; [discriminate|]. intros q (x & r & E) X. destruct q as [|a [|b [|d q]]]; cbn in E; injection E; intros; subst; try discriminate.
  - exists (c, g). split; [exact ex_wf|]. split; [exact E|]. vm_compute. reflexivity.
Qed.

Print Assumptions C59_succeeds_iff.
Print Assumptions C59_fresh.
Print Assumptions C59_inputs_deleted.
Print Assumptions C59_blocked.
Print Assumptions C61_absolute.
Print Assumptions C61_cwd_moved.
Print Assumptions C61_relative_iff.
Print Assumptions C61_relative_refuted.
