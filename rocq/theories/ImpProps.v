(** * C99: which programs start. *)
From Verif Require Import Base BaseLemmas PyStr UtilModel ImpSpec ImpModel ImpProofs.
Open Scope Z_scope.

(** Run from the directory of the repository with the libraries installed,
    all_multipliers.py gets past its imports exactly when three further modules
    are found on the rest of the search path. *)
Theorem C99_starts rest : installed (Root :: rest) ->
  ((exists st, all_multipliers_py (Root :: rest) = inl st) <->
   offers rest (lit "meta") [lit "print_call"] /\
   offers rest (lit "convert") [lit "Converter"; lit "create_sub_dirs_for_convert"] /\
   offers rest (lit "parallel") [lit "attempt_parallel"]).
Proof.
  intros I. pose proof (check_spec _ _ _ _ (all_checked rest I)) as (S & _). cbv zeta in S.
  rewrite <- (good_offers rest _ _ meta_places), <- (good_offers rest _ _ convert_places), <- (good_offers rest _ _ parallel_places).
  destruct (all_multipliers_py (Root :: rest)) as [st|e]; cbn [started] in S; symmetry in S.
  - rewrite !andb_true_iff in S. split; [intros _; tauto|eauto].
  - split; [intros [st E]; discriminate|]. intros (A & B & C). unfold meta_names, convert_names, parallel_names in S. unfold ds in S. cbn [map] in A, B, C. unfold n_meta, n_convert, n_parallel in *. rewrite A, B, C in S. discriminate.
Qed.
Print Assumptions C99_starts.

(** Refuted: installed as documented, it does not start.  The first import of
    [meta] fails, before any setting is read. *)
Theorem C99_documented_refuted rest : installed (Root :: rest) -> (forall p, In p rest -> ~ top_of p (lit "meta")) ->
  all_multipliers_py (Root :: rest) = inr (NotFound [lit "meta"]).
Proof.
  intros I N. pose proof (check_spec _ _ _ _ (all_checked rest I)) as (_ & A & _). apply A. apply find_none in N. unfold n_meta. rewrite N. reflexivity.
Qed.
Print Assumptions C99_documented_refuted.

(** It starts with the directory [utilities] on the path before any stranger. *)
Theorem C99_with_utilities before rest : installed (Root :: before ++ Inside (lit "utilities") :: rest) ->
  (forall p n, In p before -> In n [lit "meta"; lit "convert"; lit "parallel"] -> ~ top_of p n) ->
  exists st, all_multipliers_py (Root :: before ++ Inside (lit "utilities") :: rest) = inl st.
Proof.
  intros I N. apply (C99_starts _ I).
  assert (F : forall n, In n [lit "meta"; lit "convert"; lit "parallel"] -> first_with n (before ++ Inside (lit "utilities") :: rest) (Inside (lit "utilities"))).
  { intros n J. clear I. induction before as [|p before IH]; cbn [app].
    - apply First_here. left. split; [reflexivity|]. cbn in J |- *. intuition auto.
    - apply First_later; [apply (N p n); [left; reflexivity|exact J]|]. apply IH. intros q k K. apply N. right. exact K. }
  repeat split; left; apply F; cbn; auto.
Qed.
Print Assumptions C99_with_utilities.

(** The copies in the package are never used: the converter, the communicator of
    the converter's program and the call logger are those found first on the path. *)
Theorem C99_whose rest st : installed (Root :: rest) -> all_multipliers_py (Root :: rest) = inl st ->
  forall me n x, In (me, n, x) [(dd "utilities" "blrb", lit "meta", lit "print_call"); (dd "utilities" "mpi_runner", lit "convert", lit "Converter");
      (dd "utilities" "mpi_runner", lit "convert", lit "create_sub_dirs_for_convert"); (dd "utilities" "mpi_runner", lit "parallel", lit "attempt_parallel")] ->
  (first_with n rest (Inside (lit "utilities")) /\ name_in st me x = Some (Made [n] x)) \/
  (exists has, first_with n rest (Elsewhere has) /\ name_in st me x = Some (Library [n; x])).
Proof.
  intros I E me n x J. pose proof (check_spec _ _ _ _ (all_checked rest I)) as (S & _ & B). rewrite E in B, S. cbn [started] in B, S. destruct (B eq_refl) as (B1 & B2 & B3 & B4 & _). clear B. cbn [bound] in *.
  symmetry in S. rewrite !andb_true_iff in S. destruct S as [[S1 S2] S3].
  assert (G : forall names k o, (forall p, top_of p k -> p = Inside n_utilities \/ exists h, p = Elsewhere h) -> good (answer_of k names (find_module rest k)) = true -> o = made k x (answer_of k names (find_module rest k)) ->
    (first_with k rest (Inside (lit "utilities")) /\ o = Some (Made [k] x)) \/ (exists has, first_with k rest (Elsewhere has) /\ o = Some (Library [k; x]))).
  { intros names k o P Gd ->. destruct (find_module rest k) as [t|] eqn:F; [|discriminate]. apply find_some in F. destruct F as (p & F & ->). pose proof (proj1 (first_top _ _ _ F)) as T. destruct (P p T) as [->|[h ->]]; [left; auto|right; eauto]. }
  cbn [In] in J. destruct J as [J|[J|[J|[J|[]]]]]; injection J as <- <- <-.
  - exact (G meta_names n_meta _ meta_places S1 B1).
  - exact (G convert_names n_convert _ convert_places S2 B2).
  - exact (G convert_names n_convert _ convert_places S2 B3).
  - exact (G parallel_names n_parallel _ parallel_places S3 B4).
Qed.
Print Assumptions C99_whose.

(** Functions kept to the first process: once the program has looked for MPI they
    run there and nowhere else; without mpi4py they run.  Before, they raise
    NameError, and looking for MPI in the converter's program does not help. *)
Theorem C99_first_process rest st mpi4py g : installed (Root :: rest) -> all_multipliers_py (Root :: rest) = inl st ->
  call_wrapped st main (call_attempt st main mpi4py g) = (match mpi4py with Some (size, rank) => if (1 <? size) && (0 <? rank) then Skipped else Runs | None => Runs end) /\
  call_wrapped st main (fun _ => None) = NoMPI /\
  call_wrapped st main (call_attempt st (dd "utilities" "mpi_runner") mpi4py (fun _ => None)) = NoMPI.
Proof.
  intros I E. pose proof (check_spec _ _ _ _ (all_checked rest I)) as (S & _ & B). rewrite E in B, S. cbn [started] in B, S. destruct (B eq_refl) as (_ & _ & _ & B4 & B5 & B6). clear B. cbn [bound] in *.
  unfold call_wrapped, call_attempt. rewrite B4, B5, B6. unfold disable_on_workers, attempt_parallel. split; [|split; [reflexivity|]].
  - destruct (name_eq (dd "utilities" "parallel") (dd "utilities" "parallel")) as [_|N]; [|congruence]. destruct mpi4py as [[size rank]|]; reflexivity.
  - unfold made. destruct (answer_of n_parallel parallel_names (find_module rest n_parallel)) as [|key|bs]; reflexivity.
Qed.
Print Assumptions C99_first_process.

(** The preparation programs need nothing more than the libraries. *)
Theorem C99_preparation rest : installed (Root :: rest) ->
  (exists st, pre_process_py (Root :: rest) = inl st) /\ exists st, rasterize_start (Root :: rest) = inl st.
Proof.
  intros I. unfold pre_process_py, rasterize_start. rewrite !(start_own rest _ I). pose proof (checked_own (find_module (Root :: rest))) as C. apply andb_true_iff in C. destruct C as [C1 C2].
  destruct (run_own _ (ds "pre_process")), (run_own _ (ds "rasterize")); try discriminate. eauto.
Qed.
Print Assumptions C99_preparation.

(** The converter as a program is run from [utilities]; it needs the repository
    itself on the path, or a stranger with the right parts. *)
Theorem C99_converter rest : installed (Inside (lit "utilities") :: rest) ->
  ((exists st, mpi_runner_py (Inside (lit "utilities") :: rest) = inl st) <->
   first_with (lit "utilities") rest Root \/
   exists has, first_with (lit "utilities") rest (Elsewhere has) /\
     forall q, In q [[lit "convert"]; [lit "convert"; lit "Converter"]; [lit "convert"; lit "create_sub_dirs_for_convert"]; [lit "parallel"]; [lit "parallel"; lit "attempt_parallel"]] -> has (lit "utilities" :: q) = true).
Proof.
  intros I. change (Inside (lit "utilities")) with (Inside n_utilities) in *. rewrite (start_mpi rest I). assert (Sk : find_module (Inside n_utilities :: rest) n_utilities = find_module rest n_utilities) by reflexivity.
  pose proof (in_mpi_answers (Inside n_utilities :: rest)) as A. pose proof (proj1 (forallb_forall _ _) (checked_mpi (find_module (Inside n_utilities :: rest)) (stranger (find_module (Inside n_utilities :: rest)) n_utilities)) _ A) as K. cbv beta in K.
  unfold check_mpi in K. apply andb_true_iff in K. destruct K as [K _]. apply Bool.eqb_prop in K.
  assert (G : good (answer_of n_utilities utilities_names (find_module (Inside n_utilities :: rest) n_utilities)) = true <-> first_with (lit "utilities") rest Root \/
     exists has, first_with (lit "utilities") rest (Elsewhere has) /\ forall q, In q utilities_names -> has (lit "utilities" :: q) = true).
  { rewrite Sk. split.
    - intros G. destruct (find_module rest n_utilities) as [t|] eqn:E; [|discriminate]. apply find_some in E. destruct E as (p & F & ->). pose proof (proj1 (first_top _ _ _ F)) as T.
      destruct (utilities_places p T) as [->|[h ->]]; [left; exact F|]. right. exists h. split; [exact F|]. cbn [target_of answer_of good] in G. rewrite forallb_forall in G. intros q J. apply (G (h (n_utilities :: q))). apply (in_map (fun q => h (n_utilities :: q))). exact J.
    - intros [F|(h & F & X)]; apply find_first in F; unfold n_utilities; rewrite F; cbn [target_of answer_of good]; [reflexivity|]. apply forallb_forall. intros b J. apply in_map_iff in J. destruct J as (q & <- & J). apply X. exact J. }
  etransitivity; [|exact G]. rewrite <- K. destruct (run_mpi _ _ _) as [st|e]; cbn [started]; [split; eauto|]. split; [intros [st E]; discriminate|discriminate].
Qed.
Print Assumptions C99_converter.

(** A directory with the libraries alone. *)
Definition libraries (q : list str) : bool := if in_dec name_eq q prefixes then true else false.
Example C99_ex :
  installed [Root; Elsewhere libraries] /\ (forall p, In p [Elsewhere libraries] -> ~ top_of p (lit "meta")) /\
  installed [Root; Inside (lit "utilities"); Elsewhere libraries] /\
  (exists st, all_multipliers_py [Root; Inside (lit "utilities"); Elsewhere libraries] = inl st /\ length st = 26%nat).
Proof.
  assert (D : forall path, (forall q, In q needed -> forall p, In p path -> ~ top_of p (hd [] q)) -> installed (path ++ [Elsewhere libraries])).
  { intros path N q J. exists libraries.
    assert (P : forall k, (0 < k <= length q)%nat -> libraries (firstn k q) = true).
    { intros k K. unfold libraries. destruct (in_dec name_eq (firstn k q) prefixes) as [_|X]; [reflexivity|]. elim X. apply in_flat_map. exists q. split; [exact J|]. apply in_map_iff. exists k. split; [reflexivity|]. apply in_seq. lia. }
    split; [|exact P]. assert (T : top_of (Elsewhere libraries) (hd [] q)).
    { assert (L : (1 <= length q)%nat) by (cbn in J; repeat (destruct J as [<-|J]; [cbn; lia|]); destruct J). cbn [top_of]. specialize (P 1%nat ltac:(lia)). destruct q as [|x q]; [cbn in L; lia|]. exact P. }
    specialize (N q J). induction path as [|p path IH]; cbn [app]; [apply First_here; exact T|]. apply First_later; [apply N; left; reflexivity|]. apply IH. intros r K. apply N. right. exact K. }
  assert (Nn : forall A (o : option A), match o with None => true | _ => false end = true -> o = None) by (intros A [a|] O; [discriminate|reflexivity]).
  assert (R : forall q, In q needed -> ~ top_of Root (hd [] q)).
  { intros q J. rewrite top_root. assert (F : forallb (fun q => match repo_file [hd [] q] with None => true | _ => false end) needed = true) by (vm_compute; reflexivity).
    rewrite forallb_forall in F. specialize (F q J). cbv beta in F. intros H. apply H. exact (Nn _ _ F). }
  assert (U : forall q, In q needed -> ~ top_of (Inside (lit "utilities")) (hd [] q)).
  { intros q J. rewrite top_inside. assert (F : forallb (fun q => match repo_file [lit "utilities"; hd [] q] with None => true | _ => false end) needed = true) by (vm_compute; reflexivity).
    rewrite forallb_forall in F. specialize (F q J). cbv beta in F. intros H. apply H. exact (Nn _ _ F). }
  split; [apply (D [Root]); intros q J p [<-|[]]; exact (R q J)|]. split; [intros p [<-|[]] H; vm_compute in H; discriminate|].
  split; [apply (D [Root; Inside (lit "utilities")]); intros q J p [<-|[<-|[]]]; [exact (R q J)|exact (U q J)]|].
  assert (E : match all_multipliers_py [Root; Inside (lit "utilities"); Elsewhere libraries] with inl st => Nat.eqb (length st) 26 | inr _ => false end = true) by (vm_compute; reflexivity).
  destruct (all_multipliers_py [Root; Inside (lit "utilities"); Elsewhere libraries]) as [st|]; [|discriminate]. exists st. split; [reflexivity|apply Nat.eqb_eq; exact E].
Qed.
