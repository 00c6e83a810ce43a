(** * Property theorems: configuration, elapsed time, checksum (C51, C54, C55). *)
From Coq Require Import Ascii String.
From Verif Require Import Base BaseLemmas Rounding PyStr NameSpec NameProofs UtilModel UtilSpec UtilProofs.
Open Scope Z_scope.

(** ** C51: configuration

    The parser starts from the default file (if there is one) and loads any
    sequence of files; each load sees the disk as it is at that moment. *)
(** An option of a section has the value given by the last file that gives
    it one, however its name is capitalised. *)
Theorem C51_section_value : forall d0 def loads p s o v, history d0 def loads p ->
  last_given (found ((d0, def) :: loads)) s o v -> cfg_get (p_conf p) s o = Ok v.
Proof.
  intros d0 def loads p s o v (p0 & Start & Loaded) L. apply last_given_spec in L. destruct (after_history _ _ _ _ _ Start Loaded) as (A1 & _ & A3). unfold cfg_get. rewrite (A1 _ _ _ L).
  destruct (str_eqb_spec s default_section) as [->|N]; [reflexivity|]. cbn [orb]. replace (existsb (str_eqb s) (c_sections (p_conf p))) with true; [reflexivity|].
  symmetry. apply existsb_str, A3. split; [|exact N]. destruct L as (b & f & a & E & (opts & o' & G & _) & _). exists f. split; [rewrite E; apply in_or_app; right; left; reflexivity|exists opts; exact G].
Qed.

(** An option no file gives in an existing section is the last DEFAULT value. *)
Theorem C51_default_value : forall d0 def loads p s o v, history d0 def loads p -> (exists f, In f (found ((d0, def) :: loads)) /\ mentions f s) ->
  never_given (found ((d0, def) :: loads)) s o -> last_given (found ((d0, def) :: loads)) (lit "DEFAULT") o v -> cfg_get (p_conf p) s o = Ok v.
Proof.
  change (lit "DEFAULT") with default_section.
  intros d0 def loads p s o v (p0 & Start & Loaded) M N L. apply last_given_spec in L. apply never_given_spec in N. destruct (after_history _ _ _ _ _ Start Loaded) as (A1 & A2 & A3). unfold cfg_get. rewrite (A2 _ _ N), (A1 _ _ _ L).
  destruct (str_eqb_spec s default_section) as [->|ND]; [reflexivity|]. cbn [orb]. replace (existsb (str_eqb s) (c_sections (p_conf p))) with true; [reflexivity|].
  symmetry. apply existsb_str, A3. auto.
Qed.

(** An option no file gives, or a section no file mentions, raises. *)
Theorem C51_unset : forall d0 def loads p s o, history d0 def loads p ->
  (never_given (found ((d0, def) :: loads)) s o /\ never_given (found ((d0, def) :: loads)) (lit "DEFAULT") o) \/
  (s <> lit "DEFAULT" /\ forall f, In f (found ((d0, def) :: loads)) -> ~ mentions f s) -> cfg_get (p_conf p) s o = Err KeyError.
Proof.
  change (lit "DEFAULT") with default_section.
  intros d0 def loads p s o (p0 & Start & Loaded) H. destruct (after_history _ _ _ _ _ Start Loaded) as (A1 & A2 & A3). unfold cfg_get. destruct H as [[N1 N2]|[N1 N2]].
  - apply never_given_spec in N1, N2. rewrite (A2 _ _ N1), (A2 _ _ N2). destruct (_ || _)%bool; reflexivity.
  - destruct (str_eqb_spec s default_section) as [->|ND]; [contradiction|]. cbn [orb]. destruct (existsb (str_eqb s) (c_sections (p_conf p))) eqn:X; [|reflexivity].
    apply existsb_str, A3 in X. destruct X as [(f & Hf & M) _]. exfalso. exact (N2 f Hf M).
Qed.

(** One load, from any earlier state: the options in the file are overridden ... *)
Theorem C51_override : forall d n f p p' s o v, d n = Some f -> set_config_file d n p = Ok p' ->
  gives f s o v -> cfg_get (p_conf p') s o = Ok v.
Proof.
  intros d n f p p' s o v D H G. apply gives_spec in G. unfold set_config_file, read_file, cfg_read in H. cbn [p_readonce p_file p_conf] in H. rewrite D in H.
  destruct (read_sections f [] [] (p_conf p)) as [c|] eqn:E; [|discriminate]. cbn [bind] in H. injection H as <-. cbn [p_conf]. destruct (read_sections_ok _ _ _ _ _ E) as (B1 & _ & _ & B4).
  unfold cfg_get. rewrite (B1 _ _ _ G). destruct (str_eqb_spec s default_section) as [->|N]; [reflexivity|]. cbn [orb]. replace (existsb (str_eqb s) (c_sections c)) with true; [reflexivity|].
  symmetry. apply existsb_str, B4. right. split; [|exact N]. destruct G as (opts & o' & G & _). exists opts. exact G.
Qed.
(** ... and every other one keeps the value it had. *)
Theorem C51_kept : forall d n f p p' s o v, d n = Some f -> set_config_file d n p = Ok p' ->
  cfg_get (p_conf p) s o = Ok v -> (forall w, ~ gives f s o w) -> (forall w, ~ gives f (lit "DEFAULT") o w) ->
  cfg_get (p_conf p') s o = Ok v.
Proof.
  change (lit "DEFAULT") with default_section.
  intros d n f p p' s o v D H G N1 N2. setoid_rewrite gives_spec in N1. setoid_rewrite gives_spec in N2. unfold set_config_file, read_file, cfg_read in H. cbn [p_readonce p_file p_conf] in H. rewrite D in H.
  destruct (read_sections f [] [] (p_conf p)) as [c|] eqn:E; [|discriminate]. cbn [bind] in H. injection H as <-. cbn [p_conf]. destruct (read_sections_ok _ _ _ _ _ E) as (_ & B2 & _ & B4).
  unfold cfg_get in *. rewrite (B2 _ _ N1), (B2 _ _ N2). destruct (str_eqb_spec s default_section) as [->|N]; [exact G|]. cbn [orb] in *.
  destruct (existsb (str_eqb s) (c_sections (p_conf p))) eqn:X; [|discriminate]. replace (existsb (str_eqb s) (c_sections c)) with true; [exact G|].
  symmetry. apply existsb_str, B4. left. apply existsb_str. exact X.
Qed.
(** A missing file raises nothing and changes no value. *)
Theorem C51_missing_file : forall d n p, d n = None -> exists p', set_config_file d n p = Ok p' /\ forall s o, cfg_get (p_conf p') s o = cfg_get (p_conf p) s o.
Proof. intros d n p D. unfold set_config_file, read_file, cfg_read. cbn [p_readonce p_file p_conf]. rewrite D. cbn [bind]. eexists. split; [reflexivity|]. reflexivity. Qed.
(** A file loads exactly when it names no section twice and no option of a
    section twice. *)
Theorem C51_accepted_iff : forall d n f p, d n = Some f ->
  ((exists p', set_config_file d n p = Ok p') <-> NoDup (sections_of f) /\ options_once f).
Proof.
  intros d n f p D. rewrite options_once_spec. unfold set_config_file, read_file, cfg_read. cbn [p_readonce p_file p_conf]. rewrite D. pose proof (read_sections_accepts f [] [] (p_conf p)) as K. split.
  - intros (p' & H). destruct (read_sections f [] [] (p_conf p)) as [c|] eqn:E; [|discriminate]. assert (X : exists r, Ok c = Ok r) by (exists c; reflexivity). apply K in X. tauto.
  - intros (H1 & H2). destruct (proj2 K) as (c & E); [repeat split; auto|]. rewrite E. cbn [bind]. eexists. reflexivity.
Qed.

Definition ex_default : cfgfile := [(lit "inputValues", [(lit "root", lit "/"); (lit "upwind_length", lit "0.01")]); (lit "Logging", [(lit "LogFile", lit "a.log")])].
Definition ex_user : cfgfile := [(lit "inputValues", [(lit "Upwind_Length", lit "0.02")])].
Definition ex_disk (n : str) : option cfgfile := if str_eqb n (lit "multiplier_conf.cfg") then Some ex_default else if str_eqb n (lit "user.cfg") then Some ex_user else None.
Example C51_example :
  match new_parser ex_disk (lit "multiplier_conf.cfg") with
  | Ok p0 => match foldM (fun p l => set_config_file (fst l) (snd l) p) [(ex_disk, lit "user.cfg"); (ex_disk, lit "absent.cfg")] p0 with
             | Ok p => match cfg_get (p_conf p) (lit "inputValues") (lit "upwind_length"), cfg_get (p_conf p) (lit "Logging") (lit "logfile") with
                       | Ok a, Ok b => (str_eqb a (lit "0.02") && str_eqb b (lit "a.log"))%bool
                       | _, _ => false end
             | Err _ => false end
  | Err _ => false end = true.
Proof. vm_compute. reflexivity. Qed.

(** ** C54: elapsed time *)

(** For every duration below 2^53 seconds and every admissible rounding, the
    message is hours, minutes and seconds, each of at least two digits, that
    add up to the whole seconds elapsed. *)
Theorem C54_decodes : forall fl t, fl_ok fl -> (0 <= t)%Q -> (t < inject_Z (2 ^ 53))%Q ->
  exists h m s, elapsed fl t = h ++ lit ":" ++ m ++ lit ":" ++ s ++ lit " " /\
    forallb is_digit h = true /\ forallb is_digit m = true /\ forallb is_digit s = true /\
    (2 <= length h)%nat /\ length m = 2%nat /\ length s = 2%nat /\
    0 <= int_val h /\ 0 <= int_val m < 60 /\ 0 <= int_val s < 60 /\
    3600 * int_val h + 60 * int_val m + int_val s = Qfloor t.
Proof.
  intros fl t F H0 H1. unfold elapsed. change 60%Q with (inject_Z 60).
  destruct (divmod_nonneg fl F t 60 H0 H1 ltac:(lia)) as (s & -> & Es & Bs). set (q := Qfloor (t / inject_Z 60)) in *.
  assert (Q0 : 0 <= q) by (apply Qfloor_nonneg; apply Qle_shift_div_l; [reflexivity|lra]).
  assert (Qb : (inject_Z q < inject_Z (2 ^ 53))%Q). { assert (0 <= inject_Z q)%Q by (rewrite <- (Zle_Qle 0); exact Q0). change (inject_Z 60) with 60%Q in *. lra. }
  destruct (divmod_nonneg fl F (inject_Z q) 60 ltac:(rewrite <- (Zle_Qle 0); exact Q0) Qb ltac:(lia)) as (m & -> & Em & Bm). set (h := Qfloor (inject_Z q / inject_Z 60)) in *.
  assert (Eh : h = q / 60). { unfold h. apply Qfloor_unique; change (inject_Z 60) with 60%Q; [apply Qle_shift_div_l; [reflexivity|]|apply Qlt_shift_div_r; [reflexivity|]].
    - change 60%Q with (inject_Z 60). rewrite <- inject_Z_mult, <- Zle_Qle. pose proof (Z.mul_div_le q 60). lia.
    - change 60%Q with (inject_Z 60). change 1%Q with (inject_Z 1). rewrite <- inject_Z_plus, <- inject_Z_mult, <- Zlt_Qlt. pose proof (Z.mul_succ_div_gt q 60). lia. }
  assert (Hh : 0 <= h) by (rewrite Eh; apply Z.div_pos; lia). assert (Mq : (m == inject_Z (q - 60 * h))%Q) by (rewrite Em, inject_Z_minus, inject_Z_mult; reflexivity).
  assert (Fm : Qfloor m = q - 60 * h) by (rewrite Mq; apply Qfloor_Z).
  assert (Bm' : 0 <= q - 60 * h < 60). { pose proof (Z.div_mod q 60 ltac:(lia)). pose proof (Z.mod_pos_bound q 60 ltac:(lia)). lia. }
  assert (Fs : Qfloor t = 60 * q + Qfloor s).
  { apply Qfloor_unique; destruct (Qfloor_spec s) as [S1 S2]; rewrite inject_Z_plus, inject_Z_mult; change (inject_Z 60) with 60%Q in *; lra. }
  assert (Bs' : 0 <= Qfloor s < 60). { split; [apply Qfloor_nonneg; lra|]. rewrite Zlt_Qlt. destruct (Qfloor_spec s) as [S1 _]. lra. }
  destruct (fmt_02d_ok (inject_Z h)) as (A1 & A2 & A3 & _); [rewrite <- (Zle_Qle 0); exact Hh|]. destruct (fmt_02d_ok m) as (B1 & B2 & B3 & B4); [lra|]. destruct (fmt_02d_ok s) as (C1 & C2 & C3 & C4); [lra|]. cbv zeta in *. rewrite Qfloor_Z in A1.
  exists (fmt_02d (inject_Z h)), (fmt_02d m), (fmt_02d s). split; [reflexivity|]. rewrite A1, B1, C1, Fm. repeat (split; [first [assumption|lia|apply B4; lia|apply C4; lia]|]). lia.
Qed.

(** The wrapped function's result is passed on; a raised error is passed on
    and nothing is logged. *)
Theorem C54_transparent : forall A fl t1 t2 (r : res A), fst (timed fl t1 t2 r) = r /\ (snd (timed fl t1 t2 r) = None <-> exists e, r = Err e).
Proof. intros A fl t1 t2 [a|e]; cbn; split; try reflexivity; split; try discriminate; eauto. intros (e & X); discriminate. Qed.

(** The message of a call that returns tells the whole seconds of the difference of the two clock
    readings, as far as this is a floating point number. *)
Theorem C54_logged : forall A fl t1 t2 (a : A), fl_ok fl -> (t1 <= t2)%Q -> (t2 - t1 < inject_Z (2 ^ 53))%Q -> (fl (t2 - t1) == t2 - t1)%Q ->
  exists h m s, snd (timed fl t1 t2 (Ok a)) = Some (h ++ lit ":" ++ m ++ lit ":" ++ s ++ lit " ") /\
    0 <= int_val m < 60 /\ 0 <= int_val s < 60 /\ 3600 * int_val h + 60 * int_val m + int_val s = Qfloor (t2 - t1).
Proof.
  intros A fl t1 t2 a F H0 H1 E. cbn [timed snd].
  destruct (C54_decodes fl (fl (t2 - t1)%Q) F) as (h & m & s & -> & _ & _ & _ & _ & _ & _ & _ & Hm & Hs & T); [rewrite E; lra|rewrite E; exact H1|].
  exists h, m, s. rewrite E in T. auto.
Qed.
Print Assumptions C54_logged.

(** Between two whole clock readings that go backwards (less than 2^53 seconds) the hours are
    negative, and the minutes and seconds count on from there. *)
Lemma divmod_int fl n : fl_ok fl -> - 2 ^ 53 < n < 0 ->
  exists m, py_divmod fl (inject_Z n) 60 = (inject_Z (n / 60), m) /\ (m == inject_Z (n mod 60))%Q.
Proof.
  intros F Hn. unfold py_divmod, fmod. change 60%Q with (inject_Z 60).
  assert (P : py_int (inject_Z n / inject_Z 60) = Z.quot n 60).
  { unfold py_int. replace (Qle_bool 0 (inject_Z n / inject_Z 60)) with false.
    - unfold Qceiling. replace n with (- - n) at 1 by lia. rewrite inject_Z_opp. assert (E : (- (- inject_Z (- n) / inject_Z 60) == inject_Z (- n) / inject_Z 60)%Q) by (field; discriminate).
      rewrite E. replace (Qfloor (inject_Z (- n) / inject_Z 60)) with (- n / 60).
      + rewrite <- (Z.opp_involutive n) at 2. rewrite Z.quot_opp_l by lia. rewrite Z.quot_div_nonneg by lia. reflexivity.
      + symmetry. apply Qfloor_unique; [apply Qle_shift_div_l; [reflexivity|]|apply Qlt_shift_div_r; [reflexivity|]].
        * rewrite <- inject_Z_mult, <- Zle_Qle. pose proof (Z.mul_div_le (- n) 60). lia.
        * change 1%Q with (inject_Z 1). rewrite <- inject_Z_plus, <- inject_Z_mult, <- Zlt_Qlt. pose proof (Z.mul_succ_div_gt (- n) 60). lia.
    - symmetry. apply not_true_is_false. rewrite Qle_bool_iff. apply Qlt_not_le. apply Qlt_shift_div_r; [reflexivity|]. rewrite Qmult_0_l. change 0%Q with (inject_Z 0). rewrite <- Zlt_Qlt. lia. }
  rewrite P. set (q := Z.quot n 60). set (m := (inject_Z n - inject_Z 60 * inject_Z q)%Q).
  assert (R : Z.rem n 60 = n - 60 * q) by (unfold q; pose proof (Z.quot_rem' n 60); lia).
  assert (RB : -60 < Z.rem n 60 <= 0) by (pose proof (Z.rem_bound_neg_pos n 60); lia).
  assert (M : (m == inject_Z (n - 60 * q))%Q) by (unfold m; rewrite inject_Z_minus, inject_Z_mult; reflexivity).
  assert (Bq : - 2 ^ 53 < 60 * q <= 0) by lia.
  assert (D : (fl (fl (inject_Z n - m) / inject_Z 60) == inject_Z q)%Q).
  { rewrite (fl_proper fl F _ (inject_Z q)); [apply (fl_int fl F); lia|]. rewrite (fl_proper fl F (inject_Z n - m) (inject_Z (60 * q))) by (rewrite inject_Z_mult; unfold m; ring).
    rewrite (fl_int fl F) by lia. rewrite inject_Z_mult. field. }
  set (d := fl (fl (inject_Z n - m) / inject_Z 60)%Q) in *.
  assert (T : forall (x y : Q) z, (x == inject_Z z)%Q ->
    (let f := inject_Z (Qfloor x) in let f0 := if Qltb (1#2) (fl (x - f)%Q) then (f + 1)%Q else f in (f0, y)) = (inject_Z z, y)).
  { intros x y z Ex. cbv zeta. assert (Ef : Qfloor x = z) by (rewrite Ex; apply Qfloor_Z). rewrite Ef.
    replace (Qltb (1#2) (fl (x - inject_Z z)%Q)) with false; [reflexivity|]. symmetry. apply Qltb_ge.
    rewrite (fl_proper fl F _ (inject_Z 0)) by (change (inject_Z 0) with 0%Q; lra). rewrite (fl_int fl F) by lia. discriminate. }
  destruct (Qltb m 0) eqn:L.
  - apply Qltb_lt in L. rewrite M in L. change 0%Q with (inject_Z 0) in L; rewrite <- Zlt_Qlt in L.
    assert (DM : n / 60 = q - 1 /\ n mod 60 = n - 60 * q + 60).
    { pose proof (Z.div_mod n 60 ltac:(lia)). pose proof (Z.mod_pos_bound n 60 ltac:(lia)). lia. } destruct DM as [-> ->].
    assert (D1 : (fl (d - 1) == inject_Z (q - 1))%Q).
    { rewrite (fl_proper fl F _ (inject_Z (q - 1))) by (rewrite inject_Z_minus, D; reflexivity). apply (fl_int fl F). lia. }
    assert (M1 : (fl (m + inject_Z 60) == inject_Z (n - 60 * q + 60))%Q).
    { rewrite (fl_proper fl F _ (inject_Z (n - 60 * q + 60))) by (rewrite (inject_Z_plus _ 60), M; reflexivity). apply (fl_int fl F). lia. }
    eexists. split; [apply (T _ _ (q - 1)); exact D1|exact M1].
  - apply Qltb_ge in L. rewrite M in L. change 0%Q with (inject_Z 0) in L; rewrite <- Zle_Qle in L.
    assert (DM : n / 60 = q /\ n mod 60 = n - 60 * q).
    { pose proof (Z.div_mod n 60 ltac:(lia)). pose proof (Z.mod_pos_bound n 60 ltac:(lia)). lia. } destruct DM as [-> ->].
    exists m. split; [apply (T _ _ q); exact D|exact M].
Qed.
Lemma py_int_Z x n : (x == inject_Z n)%Q -> py_int x = n.
Proof. intros E. unfold py_int, Qceiling. destruct (Qle_bool 0 x); [rewrite E; apply Qfloor_Z|]. rewrite E, <- inject_Z_opp, Qfloor_Z. lia. Qed.

Theorem C54_backwards : forall fl n, fl_ok fl -> - 2 ^ 53 < n < 0 ->
  exists h m s, elapsed fl (inject_Z n) = lit "-" ++ h ++ lit ":" ++ m ++ lit ":" ++ s ++ lit " " /\
    forallb is_digit h = true /\ forallb is_digit m = true /\ forallb is_digit s = true /\ 0 < int_val h /\ (int_val h < 10 -> length h = 1%nat) /\
    length m = 2%nat /\ length s = 2%nat /\ 0 <= int_val m < 60 /\ 0 <= int_val s < 60 /\
    - 3600 * int_val h + 60 * int_val m + int_val s = n.
Proof.
  intros fl n F Hn. unfold elapsed. destruct (divmod_int fl n F Hn) as (s & -> & Es).
  pose proof (Z.div_mod n 60 ltac:(lia)) as D1. pose proof (Z.mod_pos_bound n 60 ltac:(lia)) as D2.
  destruct (divmod_int fl (n / 60) F ltac:(lia)) as (m & -> & Em).
  pose proof (Z.div_mod (n / 60) 60 ltac:(lia)) as D3. pose proof (Z.mod_pos_bound (n / 60) 60 ltac:(lia)) as D4.
  set (h := n / 60 / 60) in *.
  assert (Fh : fmt_02d (inject_Z h) = lit "-" ++ dec (- h)). { unfold fmt_02d. rewrite (py_int_Z (inject_Z h) h) by reflexivity. replace (h <? 0) with true by lia. reflexivity. }
  destruct (dec_ok (- h) ltac:(lia)) as (A1 & A2 & _).
  assert (Q0 : forall x k, (x == inject_Z k)%Q -> 0 <= k < 60 -> int_val (fmt_02d x) = k /\ forallb is_digit (fmt_02d x) = true /\ length (fmt_02d x) = 2%nat).
  { intros x k Ex Hk. destruct (fmt_02d_ok x) as (B1 & B2 & _ & B4); [rewrite Ex; change 0%Q with (inject_Z 0); rewrite <- Zle_Qle; lia|].
    assert (Ef : Qfloor x = k) by (rewrite Ex; apply Qfloor_Z). cbv zeta in *. rewrite Ef in *. split; [exact B1|]. split; [exact B2|apply B4; lia]. }
  destruct (Q0 m _ Em ltac:(lia)) as (B1 & B2 & B3). destruct (Q0 s _ Es ltac:(lia)) as (C1 & C2 & C3).
  exists (dec (- h)), (fmt_02d m), (fmt_02d s). rewrite Fh, A1, B1, C1. split; [rewrite <- !app_assoc; reflexivity|]. repeat (split; [first [assumption|lia|intros; apply dec_one; lia]|]). lia.
Qed.
Print Assumptions C54_backwards.

Example C54_backwards_example : elapsed rnd53 (-1)%Q = lit "-1:59:59 ".
Proof. vm_compute. reflexivity. Qed.

Example C54_example : elapsed rnd53 (3725 + (1#4))%Q = lit "01:02:05 ".
Proof. vm_compute. reflexivity. Qed.

(** ** C55: checksum *)

(** For every block size other than zero the checksum is that of the whole content ... *)
Theorem C55_whole : forall H D (new : H) update (hexdigest : H -> D) chunk content, streaming update -> update new [] = new -> chunk <> 0 ->
  checksum new update hexdigest chunk content = hexdigest (update new content).
Proof.
  intros H D new update hexdigest chunk content St U N. unfold checksum. f_equal. destruct content as [|a l].
  - cbn. unfold file_read. destruct (chunk <? 0); rewrite ?firstn_nil; symmetry; exact U.
  - apply hash_loop_all; [exact St|exact N|cbn; lia|discriminate].
Qed.
(** ... so it does not depend on the block size. *)
Theorem C55_block_size : forall H D (new : H) update (hexdigest : H -> D) chunk chunk' content, streaming update -> chunk <> 0 -> chunk' <> 0 ->
  checksum new update hexdigest chunk content = checksum new update hexdigest chunk' content.
Proof.
  intros H D new update hexdigest chunk chunk' content St N N'. unfold checksum. f_equal. destruct content as [|a l].
  - cbn. unfold file_read. destruct (chunk <? 0), (chunk' <? 0); rewrite ?firstn_nil; reflexivity.
  - rewrite !hash_loop_all; try assumption; try discriminate; try (cbn; lia). reflexivity.
Qed.
(** Block size zero gives every file the checksum of the empty file. *)
Theorem C55_zero_refuted : forall H D (new : H) update (hexdigest : H -> D) content, checksum new update hexdigest 0 content = hexdigest new.
Proof. reflexivity. Qed.

(** The hash object that keeps all it was given is one; its digest separates contents. *)
Example C55_example : streaming (fun m c : str => m ++ c) /\
  checksum [] (fun m c : str => m ++ c) (fun m => m) 3 (lit "abcdefgh") = lit "abcdefgh" /\
  checksum [] (fun m c : str => m ++ c) (fun m => m) 65536 (lit "abcdefgh") = lit "abcdefgh".
Proof. split; [intros m a b; rewrite app_assoc; reflexivity|]. vm_compute. split; reflexivity. Qed.

Print Assumptions C51_section_value.
Print Assumptions C51_unset.
Print Assumptions C51_kept.
Print Assumptions C51_accepted_iff.
Print Assumptions C54_decodes.
Print Assumptions C55_whole.
