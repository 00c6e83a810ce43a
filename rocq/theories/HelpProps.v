(** * C95: helpers that look at the calling program and at files. *)
From Verif Require Import Base BaseLemmas PyStr NameModel NameProofs LogProofs HelpSpec HelpModel HelpProofs.
Open Scope Z_scope.

(** Asked from a function, [fl_module_path] gives the directory, name and
    extension of the file that function is in; level [k] those of the [k]-th
    caller. *)
Theorem C95_module_path rp this ver callers k f d name : nth_error callers k = Some f -> file_in (rp (fr_file f)) d name ->
  exists base ext, module_path rp this ver callers (Z.of_nat k + 1) = Ok (written d, base, ext) /\ has_ext name base ext /\
    (forall base' ext', has_ext name base' ext' -> base' = base /\ ext' = ext) /\ d ++ slash :: base ++ ext = rp (fr_file f).
Proof.
  intros Hk F. unfold module_path, getframe. replace (Z.to_nat (Z.of_nat k + 1)) with (S k) by lia. cbn [nth_error]. rewrite Hk. cbn [bind].
  rewrite (dir_of _ d name F), (base_of _ d name F). destruct F as (E & N & T). pose proof (splitext_ext name N) as X.
  eexists. eexists. split; [reflexivity|]. split; [exact X|]. split; [intros b e H; exact (has_ext_unique _ _ _ _ _ H X)|]. destruct X as [X _]. rewrite <- X. symmetry. exact E.
Qed.
Print Assumptions C95_module_path.

(** From however deep it is called, [fl_config_file] names the file beside the
    main program, with the prefix and the extension exchanged. *)
Theorem C95_config_file rp this ver callers main level extension prefix d base ext :
  level = None \/ level = Some 0 -> file_in (rp (fr_file main)) d (base ++ ext) -> has_ext (base ++ ext) base ext ->
  config_file rp this ver (callers ++ [main]) extension prefix level = Ok (d ++ slash :: prefix ++ base ++ extension).
Proof.
  intros L F X. unfold config_file.
  set (stack := own this ver (lit "fl_config_file") :: callers ++ [main]).
  replace (match level with None => zlen stack | Some l => if l =? 0 then zlen stack else l end) with (zlen stack) by (destruct L as [-> | ->]; reflexivity).
  assert (E : zlen stack = Z.of_nat (S (length callers)) + 1) by (unfold stack, zlen; cbn [length]; rewrite app_length; cbn [length]; lia). rewrite E.
  assert (Hk : nth_error stack (S (length callers)) = Some main) by (unfold stack; cbn [nth_error]; rewrite nth_error_app2, Nat.sub_diag by lia; reflexivity).
  destruct (C95_module_path rp this ver stack (S (length callers)) main d (base ++ ext) Hk F) as (b & e & M & _ & U & _). rewrite M. cbn [bind].
  destruct (U base ext X) as [<- _]. f_equal. apply pjoin_written. apply F.
Qed.
Print Assumptions C95_config_file.

(** From however deep it is called, [fl_program_version] gives the version of
    the main program, or nothing. *)
Theorem C95_program_version this ver callers main level : level = None \/ level = Some 0 ->
  program_version this ver (callers ++ [main]) level = Ok (match fr_version main with Some v => v | None => [] end).
Proof.
  intros L. unfold program_version. set (stack := own this ver (lit "fl_program_version") :: callers ++ [main]).
  replace (match level with None => zlen stack - 1 | Some l => if l =? 0 then zlen stack - 1 else l end) with (zlen stack - 1) by (destruct L as [-> | ->]; reflexivity).
  assert (E : Z.to_nat (zlen stack - 1) = S (length callers)) by (unfold stack, zlen; cbn [length]; rewrite app_length; cbn [length]; lia). unfold getframe. rewrite E. unfold stack. cbn [nth_error].
  rewrite nth_error_app2, Nat.sub_diag by lia. reflexivity.
Qed.
Print Assumptions C95_program_version.

(** An explicit level means different functions to the two: level [k + 1] is
    caller [k] to one and caller [k - 1] to the other, which with level 1 names
    a file beside files.py itself. *)
Theorem C95_level rp this ver callers k f extension prefix : nth_error callers k = Some f ->
  program_version this ver callers (Some (Z.of_nat k + 1)) = Ok (match fr_version f with Some v => v | None => [] end) /\
  (forall d base ext, file_in (rp (fr_file f)) d (base ++ ext) -> has_ext (base ++ ext) base ext ->
     config_file rp this ver callers extension prefix (Some (Z.of_nat k + 2)) = Ok (d ++ slash :: prefix ++ base ++ extension)) /\
  (forall d base ext, file_in (rp this) d (base ++ ext) -> has_ext (base ++ ext) base ext ->
     config_file rp this ver callers extension prefix (Some 1) = Ok (d ++ slash :: prefix ++ base ++ extension)).
Proof.
  intros Hk. split; [|split].
  - unfold program_version. destruct (Z.of_nat k + 1 =? 0) eqn:Z0; [lia|]. unfold getframe. replace (Z.to_nat (Z.of_nat k + 1)) with (S k) by lia. cbn [nth_error]. rewrite Hk. reflexivity.
  - intros d base ext F X. unfold config_file. destruct (Z.of_nat k + 2 =? 0) eqn:Z0; [lia|]. replace (Z.of_nat k + 2) with (Z.of_nat (S k) + 1) by lia.
    destruct (C95_module_path rp this ver (own this ver (lit "fl_config_file") :: callers) (S k) f d (base ++ ext) Hk F) as (b & e & M & _ & U & _). rewrite M. cbn [bind].
    destruct (U base ext X) as [<- _]. f_equal. apply pjoin_written. apply F.
  - intros d base ext F X. unfold config_file. cbn [Z.eqb]. change 1 with (Z.of_nat 0 + 1).
    destruct (C95_module_path rp this ver (own this ver (lit "fl_config_file") :: callers) 0 _ d (base ++ ext) eq_refl F) as (b & e & M & _ & U & _). rewrite M. cbn [bind].
    destruct (U base ext X) as [<- _]. f_equal. apply pjoin_written. apply F.
Qed.
Print Assumptions C95_level.
(** Levels beyond the main program raise. *)
Theorem C95_level_too_high rp this ver callers l extension prefix : zlen callers < l ->
  module_path rp this ver callers l = Err ValueError /\ module_name this ver callers l = Err ValueError /\
  program_version this ver callers (Some l) = Err ValueError /\ config_file rp this ver callers extension prefix (Some (l + 1)) = Err ValueError.
Proof.
  intros H. unfold zlen in H. assert (N : nth_error callers (Z.to_nat l - 1) = None) by (apply nth_error_None; lia).
  assert (G : forall f, getframe (f :: callers) l = Err ValueError).
  { intros f. unfold getframe. replace (Z.to_nat l) with (S (Z.to_nat l - 1)) by lia. cbn [nth_error]. rewrite N. reflexivity. }
  split; [unfold module_path; rewrite G; reflexivity|]. split; [unfold module_name; rewrite G; reflexivity|]. split.
  - unfold program_version. destruct (l =? 0) eqn:Z0; [lia|]. rewrite G. reflexivity.
  - unfold config_file, module_path, getframe. destruct (l + 1 =? 0) eqn:Z0; [lia|]. replace (Z.to_nat (l + 1)) with (S (S (Z.to_nat l - 1))) by lia. cbn [nth_error]. rewrite N. reflexivity.
Qed.
Print Assumptions C95_level_too_high.

(** [fl_module_name] promises the name of the caller's module and gives the name
    of the calling function: it keeps the promise exactly when they agree. *)
Theorem C95_module_name rp this ver callers k f d base ext : nth_error callers k = Some f -> file_in (rp (fr_file f)) d (base ++ ext) -> has_ext (base ++ ext) base ext ->
  (module_name this ver callers (Z.of_nat k + 1) = Ok base <-> fr_func f = base).
Proof.
  intros Hk _ _. unfold module_name, getframe. replace (Z.to_nat (Z.of_nat k + 1)) with (S k) by lia. cbn [nth_error]. rewrite Hk. cbn [bind]. split; [intros H; congruence|intros ->; reflexivity].
Qed.
Print Assumptions C95_module_name.
Theorem C95_module_name_refuted : exists f, file_in (fr_file f) (lit "/foo/bar") (lit "baz.py") /\
  module_name (lit "/w/files.py") [] [f] 1 <> Ok (lit "baz").
Proof.
  exists (Frame (lit "/foo/bar/baz.py") (lit "<module>") None). split; [|discriminate]. split; [reflexivity|]. split.
  - intros H. cbn in H. repeat (destruct H as [H|H]; [discriminate|]). destruct H.
  - intros d' E. apply (f_equal (@rev ascii)) in E. rewrite rev_app_distr in E. discriminate.
Qed.
Print Assumptions C95_module_name_refuted.

(** [fl_save_file] never saves under a name without a directory: the system
    has no directory with the empty name and cannot make one. *)
Theorem C95_save_bare_refuted {W} isdir makedirs savetxt filename (w : W) : (forall w, isdir w [] = false) -> (forall w, makedirs w [] = Err OSError) ->
  ~ In slash filename -> save_file isdir makedirs savetxt filename w = Err OSError.
Proof.
  intros Hi Hm N. unfold save_file. assert (E : dirname filename = []) by (unfold dirname; rewrite (rfind_notin slash filename N); reflexivity). rewrite E, Hi. cbn [negb]. rewrite Hm. reflexivity.
Qed.
Print Assumptions C95_save_bare_refuted.
(** Otherwise it makes the directory if need be and writes, leaving out the
    header when the library does not accept one. *)
Theorem C95_save {W} (isdir : W -> str -> bool) makedirs savetxt p d name (w w' : W) : file_in p d name ->
  (isdir w (written d) = true /\ w' = w \/ isdir w (written d) = false /\ makedirs w (written d) = Ok w') ->
  save_file isdir makedirs savetxt p w = match savetxt true w' with Err TypeError => savetxt false w' | r => r end.
Proof.
  intros F H. unfold save_file. rewrite (dir_of p d name F). destruct H as [[-> ->]|[-> H]]; cbn [negb]; [reflexivity|]. rewrite H. reflexivity.
Qed.
Print Assumptions C95_save.

(** [fl_get_stat]: what is not text is an IOError, not the TypeError promised,
    except a number that is an open descriptor: that is closed. *)
Theorem C95_stat digest f a chunk :
  (forall e, snd (get_stat digest f a chunk) = Err e -> e = OSError \/ e = TypeError) /\
  (snd (get_stat digest f a chunk) = Err TypeError <-> exists n, a = Number n /\ fs_open f n = true) /\
  (forall n, a = Number n -> fs_open (fst (get_stat digest f a chunk)) n = false) /\
  (forall s d name, a = Text s -> file_in s d name -> forall content moddate, fs_read f s = Some (content, moddate) ->
     get_stat digest f a chunk = (f, Ok (written d, name, digest chunk content, moddate))).
Proof.
  split; [|split; [|split]].
  - intros e H. destruct a as [s|n|]; cbn in H; [destruct (fs_read f s) as [[c m]|]; [discriminate|]|destruct (fs_open f n)|]; cbn in H; injection H as <-; auto.
  - split.
    + intros H. destruct a as [s|n|]; cbn in H; [destruct (fs_read f s) as [[c m]|]; discriminate| |discriminate]. exists n. split; [reflexivity|]. destruct (fs_open f n); [reflexivity|discriminate].
    + intros (n & -> & E). cbn. rewrite E. reflexivity.
  - intros n ->. cbn. destruct (fs_open f n) eqn:E; cbn; [rewrite Z.eqb_refl; reflexivity|exact E].
  - intros s d name -> F content moddate E. cbn. rewrite E, (dir_of s d name F), (base_of s d name F). reflexivity.
Qed.
Print Assumptions C95_stat.

(** A process that gives up through [fl_log_fatal_error] reports success; every
    line is logged, in order, without its leading white space. *)
Theorem C95_fatal_status_refuted lines : snd (log_fatal_error lines) = 0 /\ length (fst (log_fatal_error lines)) = length lines /\
  forall i l, nth_error lines i = Some l -> exists sp m, nth_error (fst (log_fatal_error lines)) i = Some m /\ l = sp ++ m /\
    (forall x, In x sp -> blank x) /\ (forall x r, m = x :: r -> ~ blank x).
Proof.
  split; [reflexivity|]. split; [apply map_length|]. intros i l H. cbn [log_fatal_error fst]. rewrite nth_error_map, H.
  destruct (lstrip_blank l) as (sp & G). exists sp, (lstrip l). split; [reflexivity|exact G].
Qed.
Print Assumptions C95_fatal_status_refuted.

(** A program in /foo/bar/baz.tar.py whose function calls another one. *)
Example C95_ex : let main := Frame (lit "/foo/bar/baz.tar.py") (lit "<module>") (Some (lit "2.0")) in
  let g := Frame (lit "/foo/lib.py") (lit "g") None in
  file_in (fr_file main) (lit "/foo/bar") (lit "baz.tar" ++ lit ".py") /\ has_ext (lit "baz.tar" ++ lit ".py") (lit "baz.tar") (lit ".py") /\
  config_file (fun x => x) (lit "/w/files.py") [] [g; main] (lit ".ini") [] None = Ok (lit "/foo/bar/baz.tar.ini") /\
  program_version (lit "/w/files.py") (lit "x") [g; main] None = Ok (lit "2.0") /\
  config_file (fun x => x) (lit "/w/files.py") [] [g; main] (lit ".ini") [] (Some 1) = Ok (lit "/w/files.ini").
Proof.
  cbv zeta. split; [|split; [|split; [reflexivity|split; reflexivity]]].
  - split; [reflexivity|]. split.
    + intros H. cbn in H. repeat (destruct H as [H|H]; [discriminate|]). destruct H.
    + intros d' E. apply (f_equal (@rev ascii)) in E. rewrite rev_app_distr in E. discriminate.
  - split; [reflexivity|]. right. exists (lit "py"), "b"%char. split; [reflexivity|]. split; [|split; [left; reflexivity|discriminate]].
    intros H. cbn in H. repeat (destruct H as [H|H]; [discriminate|]). destruct H.
Qed.
