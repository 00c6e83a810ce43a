(** * Theorems about log files (C73, C74). *)
From Coq Require Import Ascii String.
From Verif Require Import Base BaseLemmas PyStr NameModel NameProofs LogModel LogProofs.
Open Scope Z_scope.

(** ** C73: starting a log *)

(** The first call, when the directory of the file exists or can be made: afterwards
    it exists, nothing else was made, and messages go to that file (started anew or
    continued as asked) and, if asked for on a terminal, to the console. *)
Theorem C73_named_file : forall rp can cwd stamp tty isdir f (verbose newlog : bool),
  isdir (dirname (rp f)) = true \/ can (dirname (rp f)) = true ->
  exists isdir', start_log rp can cwd stamp tty f verbose false newlog (LogW isdir [])
      = (LogW isdir' (FileHandler f newlog :: if verbose && tty then [StreamHandler] else []), None) /\
    forall d, isdir' d = true <-> isdir d = true \/ d = dirname (rp f).
Proof.
  intros rp can cwd stamp tty isdir f v n H. unfold start_log. cbn [l_isdir l_handlers].
  destruct (isdir (dirname (rp f))) eqn:E.
  - rewrite E. exists isdir. split; [destruct (v && tty); reflexivity|]. intros d. split; [auto|]. intros [A| ->]; assumption.
  - destruct H as [H|H]; [discriminate|]. rewrite H, str_eqb_refl. cbn [orb].
    eexists. split; [destruct (v && tty); reflexivity|]. intros d. cbn beta. rewrite orb_true_iff, str_eqb_eq. tauto.
Qed.
Print Assumptions C73_named_file.

(** The first call when the directory neither exists nor can be made: the file of the
    same name in the working directory; if that cannot be opened either, an error and
    no log. *)
Theorem C73_fallback : forall rp can cwd stamp tty isdir d name (verbose newlog : bool), ~ In slash name ->
  isdir (dirname (rp (d ++ slash :: name))) = false -> can (dirname (rp (d ++ slash :: name))) = false ->
  start_log rp can cwd stamp tty (d ++ slash :: name) verbose false newlog (LogW isdir []) =
    if isdir (dirname (rp (pjoin cwd name)))
    then (LogW isdir (FileHandler (pjoin cwd name) newlog :: if verbose && tty then [StreamHandler] else []), None)
    else (LogW isdir [], Some OSError).
Proof.
  intros rp can cwd stamp tty isdir d name v n Hn E C. unfold start_log. cbn [l_isdir l_handlers]. rewrite E, C.
  assert (B : basename (d ++ slash :: name) = name).
  { unfold basename. rewrite rfind_mid by exact Hn. change (d ++ slash :: name) with (d ++ [slash] ++ name). rewrite app_assoc.
    replace (zlen d + 1) with (zlen (d ++ [slash])) by (rewrite zlen_app; reflexivity). apply skipn_zlen. }
  rewrite B. destruct (isdir (dirname (rp (pjoin cwd name)))); [|reflexivity]. destruct (v && tty); reflexivity.
Qed.
Print Assumptions C73_fallback.

(** Asking for a time in the name is asking for another name in the same directory: the
    time goes before the extension, and a name without extension ends with a dot.
    Different times give different names. *)
Theorem C73_stamp : forall rp can cwd stamp tty verbose newlog w,
  (forall p c ext, ~ In dot ext -> ~ In slash ext -> c <> dot -> c <> slash -> ~ In slash stamp ->
     let plain := (p ++ [c]) ++ lit "." ++ ext in let timed s := (p ++ [c]) ++ lit "." ++ s ++ lit "." ++ ext in
     start_log rp can cwd stamp tty plain verbose true newlog w = start_log rp can cwd stamp tty (timed stamp) verbose false newlog w /\
     dirname (timed stamp) = dirname plain /\ (forall other, other <> stamp -> timed other <> timed stamp)) /\
  (forall d name, ~ In dot name -> ~ In slash name ->
     start_log rp can cwd stamp tty (d ++ lit "/" ++ name) verbose true newlog w =
     start_log rp can cwd stamp tty (d ++ lit "/" ++ name ++ lit "." ++ stamp ++ lit ".") verbose false newlog w).
Proof.
  intros rp can cwd stamp tty v n w. split.
  - intros p c ext H1 H2 H3 H4 H5 plain timed. split; [|split].
    + unfold start_log. unfold plain. change ((p ++ [c]) ++ lit "." ++ ext) with ((p ++ [c]) ++ dot :: ext).
      rewrite stamped_ext by assumption. reflexivity.
    + unfold timed, plain. rewrite (dirname_app (p ++ [c]) (lit "." ++ stamp ++ lit "." ++ ext)), (dirname_app (p ++ [c]) (lit "." ++ ext)); [reflexivity| |].
      * cbn. intros [C|C]; [discriminate|contradiction].
      * cbn. rewrite in_app_iff. cbn. intros [C|[C|[C|C]]]; try discriminate; contradiction.
    + intros other N E. apply N. unfold timed in E. apply app_inv_head in E. apply app_inv_head in E. apply app_inv_tail in E. exact E.
  - intros d name H1 H2. unfold start_log. change (d ++ lit "/" ++ name) with (d ++ slash :: name).
    rewrite stamped_noext by assumption. reflexivity.
Qed.
Print Assumptions C73_stamp.

(** Any number of calls: once the first has succeeded none fails, all messages go to the
    file of the first call, and at most once to the console, namely if some call asked
    for it on a terminal. *)
Theorem C73_calls : forall rp can cwd stamp tty isdir f (verbose datestamp newlog : bool) calls isdir' hs,
  start_log rp can cwd stamp tty f verbose datestamp newlog (LogW isdir []) = (LogW isdir' hs, None) ->
  exists g w, hs = FileHandler g newlog :: (if tty && verbose then [StreamHandler] else []) /\
    start_logs rp can cwd stamp tty ((f, verbose, datestamp, newlog) :: calls) (LogW isdir []) = (w, None) /\
    l_handlers w = FileHandler g newlog ::
      (if tty && existsb (fun c => let '(_, v, _, _) := c in v) ((f, verbose, datestamp, newlog) :: calls) then [StreamHandler] else []).
Proof.
  intros rp can cwd stamp tty isdir f v d n calls isdir' hs E.
  assert (H : exists g, hs = FileHandler g n :: (if tty && v then [StreamHandler] else [])).
  { unfold start_log in E. cbn [l_isdir l_handlers] in E.
    destruct (if isdir _ then _ else _) as [i g] in E. destruct (i (dirname (rp g))); [|discriminate].
    exists g. injection E as _ <-. destruct v, tty; reflexivity. }
  destruct H as [g ->]. exists g.
  destruct (start_logs_later rp can cwd stamp tty calls (LogW isdir' (FileHandler g n :: (if tty && v then [StreamHandler] else []))) g n (tty && v) eq_refl) as [S H].
  cbn [start_logs]. rewrite E. destruct (start_logs _ _ _ _ _ _ _) as [w x]. cbn [fst snd] in S, H. subst x.
  exists w. split; [reflexivity|]. split; [reflexivity|]. rewrite H. cbn [existsb]. f_equal.
  replace (existsb (fun c : str * bool * bool * bool => snd (fst (fst c))) calls) with (existsb (fun c : str * bool * bool * bool => let '(_, v, _, _) := c in v) calls).
  2:{ clear. induction calls as [|[[[a b] c] e] calls IH]; [reflexivity|]. cbn. f_equal. exact IH. }
  destruct tty, v; reflexivity.
Qed.
Print Assumptions C73_calls.

(** "A call starts logging to its file" is false of a second call: its directory is made,
    its file is not opened. *)
Theorem C73_second_file_refuted : exists w,
  start_logs (fun p => p) (fun _ => true) (lit "/w") [] false [(lit "/a/one.log", false, false, true); (lit "/b/two.log", false, false, true)]
    (LogW (fun _ => false) []) = (w, None) /\
  l_isdir w (lit "/b") = true /\ l_handlers w = [FileHandler (lit "/a/one.log") true].
Proof. eexists. split; [cbn; reflexivity|]. split; reflexivity. Qed.
Print Assumptions C73_second_file_refuted.

Example C73_example :
  start_log (fun p => p) (fun _ => false) (lit "/w") (lit "202601021530") true (lit "/a/one.log") true true false (LogW (str_eqb (lit "/w")) [])
  = (LogW (str_eqb (lit "/w")) [FileHandler (lit "/w/one.202601021530.log") false; StreamHandler], None).
Proof. vm_compute. reflexivity. Qed.

(** ** C74: the log files of the processes of a run *)

(** No two processes log to the same file, in whatever order they look for the directory
    and make it. *)
Theorem C74_distinct : forall n can e0 s cwd logdir name i j a b,
  lreach n can e0 s -> (e0 = false -> logdir <> cwd) -> (i < n)%nat -> (j < n)%nat -> i <> j ->
  ls_pc s i = LDone a -> ls_pc s j = LDone b -> log_of n cwd logdir name i a <> log_of n cwd logdir name j b.
Proof.
  intros n can e0 s cwd logdir name i j a b R Hd Hi Hj Hij Ha Hb E.
  pose proof (inv_reach n can e0 s R) as I. unfold log_of in E.
  assert (N : forall base, fst (log_args n i base false) <> fst (log_args n j base false)).
  { intros base. apply log_args_inj; assumption. }
  destruct a, b; apply pair_equal_spec in E as [E1 E2].
  - exact (N _ E2).
  - apply Hd; [|congruence]. apply (i_fall _ _ _ _ I i Ha).
  - apply Hd; [|congruence]. apply (i_fall _ _ _ _ I j Hb).
  - exact (N _ E2).
Qed.
Print Assumptions C74_distinct.

(** The names: rank 0 takes the configured name, the others append their rank; only rank 0
    may write to the console.  A process that has turned to the working directory takes the
    name multipliers.log in the same way. *)
Theorem C74_names : forall n cwd logdir name verbose,
  log_args n 0 name verbose = (name, verbose) /\ log_of n cwd logdir name 0 false = (logdir, name) /\
  log_of n cwd logdir name 0 true = (cwd, lit "multipliers.log") /\
  forall i, (0 < i < n)%nat -> log_args n i name verbose = (name ++ lit "_" ++ dec i, false) /\
    log_of n cwd logdir name i false = (logdir, name ++ lit "_" ++ dec i) /\
    log_of n cwd logdir name i true = (cwd, lit "multipliers.log_" ++ dec i).
Proof.
  intros n cwd logdir name v. unfold log_of, log_args. rewrite andb_false_r. do 3 (split; [reflexivity|]).
  intros i H. replace (1 <? n)%nat with true by (symmetry; apply Nat.ltb_lt; lia).
  replace (0 <? i)%nat with true by (symmetry; apply Nat.ltb_lt; lia). repeat split.
Qed.
Print Assumptions C74_names.

(** A process that logs to the log directory finds it there.  A process turns to the working
    directory only if the directory was missing at the start and either cannot be made or has
    been made by another process since; so never if it was there, and if it can be made and
    some process has finished, some process logs to it. *)
Theorem C74_place : forall n can e0 s i, lreach n can e0 s -> (i < n)%nat ->
  (ls_pc s i = LDone false -> ls_exists s = true) /\
  (ls_pc s i = LDone true -> e0 = false /\ (can = false \/ exists j, (j < n)%nat /\ j <> i /\ ls_pc s j = LDone false)) /\
  (can = true -> (exists b, ls_pc s i = LDone b) -> exists j, (j < n)%nat /\ ls_pc s j = LDone false) /\
  (can = false -> e0 = false -> forall b, ls_pc s i = LDone b -> b = true).
Proof.
  intros n can e0 s i R Hi. pose proof (inv_reach n can e0 s R) as I. repeat split.
  - apply (i_done _ _ _ _ I).
  - apply (i_fall _ _ _ _ I i H).
  - apply (i_fall _ _ _ _ I i H).
  - intros Hc (b & Hb). destruct b; [|eauto]. destruct (i_fall _ _ _ _ I i Hb) as [_ [C|(j & A & _ & B)]]; [congruence|eauto].
  - intros Hc He b Hb. destruct b; [reflexivity|]. pose proof (i_done _ _ _ _ I i Hb) as X. rewrite (i_can _ _ _ _ I Hc) in X. congruence.
Qed.
Print Assumptions C74_place.

(** One process alone logs to the log directory if that exists or can be made. *)
Theorem C74_single : forall can e0 s b, lreach 1 can e0 s -> e0 = true \/ can = true -> ls_pc s 0%nat = LDone b -> b = false.
Proof.
  intros can e0 s b R H Hb. destruct b; [|reflexivity].
  destruct (i_fall _ _ _ _ (inv_reach _ _ _ _ R) _ Hb) as [A [B|(j & C & D & _)]]; [destruct H; congruence|lia].
Qed.
Print Assumptions C74_single.

(** As long as a process has not settled, it can take a step. *)
Theorem C74_progress : forall n can s i, (i < n)%nat -> (exists b, ls_pc s i = LDone b) \/
  exists s', lstep n can s s' /\ ls_pc s' i <> ls_pc s i /\ forall j, j <> i -> ls_pc s' j = ls_pc s j.
Proof.
  intros n can s i Hi. destruct (ls_pc s i) eqn:E; [right|right|left; eauto].
  - eexists. split; [apply ls_check; eassumption|]. split; [rewrite lset_same; destruct (ls_exists s); discriminate|]. intros j N. apply lset_other. exact N.
  - eexists. split; [apply ls_create; eassumption|]. split.
    + destruct (_ || _); rewrite lset_same; discriminate.
    + intros j N. destruct (_ || _); apply lset_other; exact N.
Qed.
Print Assumptions C74_progress.

(** "All logs are in the log directory if it can be made" is false of every run of two or
    more processes: two that look before either makes it part company. *)
Theorem C74_race_refuted : forall n, (2 <= n)%nat -> exists s, lreach n true false s /\ ls_exists s = true /\
  ls_pc s 0%nat = LDone true /\ ls_pc s 1%nat = LDone false.
Proof.
  intros n H. eexists. split.
  - eapply lr_step; [eapply lr_step; [eapply lr_step; [eapply lr_step; [apply lr_init|]|]|]|].
    + apply (ls_check n true _ 0); [lia|reflexivity].
    + apply (ls_check n true _ 1); [lia|reflexivity].
    + apply (ls_create n true _ 1); [lia|reflexivity].
    + apply (ls_create n true _ 0); [lia|reflexivity].
  - repeat split.
Qed.
Print Assumptions C74_race_refuted.

Example C74_example : exists s, lreach 3 true false s /\ ls_pc s 2%nat = LDone false /\
  log_of 3 (lit "/w") (lit "/logs") (lit "m.log") 2 false = (lit "/logs", lit "m.log_2") /\
  log_of 3 (lit "/w") (lit "/logs") (lit "m.log") 0 true = (lit "/w", lit "multipliers.log").
Proof.
  eexists. split.
  - eapply lr_step; [eapply lr_step; [apply lr_init|]|].
    + apply (ls_check 3 true _ 2); [lia|reflexivity].
    + apply (ls_create 3 true _ 2); [lia|reflexivity].
  - repeat split.
Qed.
