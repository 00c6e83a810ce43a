(** * Proofs for the start of a run. *)
From Verif Require Import Base PyStr BaseLemmas RunModel RunSpec RunProofs RunProps StartModel StartSpec.
From Coq Require Import Lia.
Open Scope Z_scope.

Lemma keeps_refl f : keeps f f.
Proof. intros p _. reflexivity. Qed.
Lemma keeps_trans f g h : keeps f g -> keeps g h -> keeps f h.
Proof. intros A B p N. rewrite (B p); [apply A; exact N|]. rewrite (A p N). exact N. Qed.
Lemma keeps_upd f p e : f p = None \/ f p = Some e -> keeps f (upd f p (Some e)).
Proof.
  intros H q N. destruct (path_eq_dec q p) as [->|D]; [|apply upd_other; exact D]. rewrite upd_same. destruct H; congruence.
Qed.
Lemma mkdir_keeps f p f' : mkdir f p = Ok f' -> keeps f f'.
Proof.
  unfold mkdir. destruct (f p) eqn:E; [discriminate|]. destruct (f (removelast p)) as [[]|]; try discriminate.
  intros [= <-]. apply keeps_upd. left. exact E.
Qed.
Lemma makedirs_keeps r : forall f f', makedirs_rev r f = Ok f' -> keeps f f'.
Proof.
  induction r as [|x r IH]; intros f f'; [discriminate|]. cbn [makedirs_rev]. destruct (f (rev r)) eqn:E.
  - cbn [bind]. apply mkdir_keeps.
  - destruct (makedirs_rev r f) as [g|e] eqn:M; cbn [bind]; [|discriminate]. intros H.
    apply (keeps_trans f g f'); [apply IH; exact M|apply (mkdir_keeps g (rev (x :: r))); exact H].
Qed.

Lemma log_place_keeps w l f : keeps f (fst (log_place w l f)).
Proof.
  unfold log_place. destruct (f (removelast (w_path w l))) as [[]|]; cbn [fst]; try apply keeps_refl;
    (destruct (makedirs f _) as [g|e] eqn:E; cbn [fst]; [|apply keeps_refl]); apply (makedirs_keeps _ _ _ E).
Qed.
Lemma open_log_keeps f lf f' : open_log f lf = Ok f' -> keeps f f'.
Proof.
  unfold open_log. destruct (f lf) as [[]|] eqn:E; destruct (f (removelast lf)) as [[]|]; try discriminate;
    intros [= <-]; apply keeps_upd; rewrite E; auto.
Qed.

(** The run up to the output folder. *)
Lemma start_cases w verbose data f f' r : start w verbose data f = (f', r) ->
  (r <> None /\ keeps f f' /\ forall log lcv dem out, complete w verbose log lcv dem out ->
     (exists g lf e, log_place w log f = (g, lf) /\ open_log g lf = Err e) \/
     (exists g lf h e, log_place w log f = (g, lf) /\ open_log g lf = Ok h /\ do_output_directory_creation h (w_path w out) = Err e)) \/
  exists log lcv dem out g lf h k, complete w verbose log lcv dem out /\ log_place w log f = (g, lf) /\ open_log g lf = Ok h /\
    do_output_directory_creation h (w_path w out) = Ok k /\ f' = k /\
    r = match check_raster w k (w_path w dem) with Some e => Some e | None => if data then first_tile w k lcv else None end.
Proof.
  unfold start, complete.
  destruct (w_get w (lit "inputValues") (lit "root")) as [ro|] eqn:E1;
    [|intros [= <- <-]; left; split; [discriminate|]; split; [apply keeps_refl|]; intros log lcv dem out (C & _); congruence].
  destruct (w_get w (lit "inputValues") (lit "upwind_length")) as [u|] eqn:E2;
    [|intros [= <- <-]; left; split; [discriminate|]; split; [apply keeps_refl|]; intros log lcv dem out (_ & (u & C & _) & _); congruence].
  destruct (w_float w u) eqn:E3; cbn [negb];
    [|intros [= <- <-]; left; split; [discriminate|]; split; [apply keeps_refl|]; intros log lcv dem out (_ & (u' & C & C') & _); congruence].
  destruct (w_get w (lit "Logging") (lit "LogFile")) as [l|] eqn:E4;
    [|intros [= <- <-]; left; split; [discriminate|]; split; [apply keeps_refl|]; intros log lcv dem out (_ & _ & C & _); congruence].
  pose proof (log_place_keeps w l f) as K0. destruct (log_place w l f) as [g lf] eqn:EL. cbn [fst] in K0.
  destruct (w_get w (lit "Logging") (lit "LogLevel")) as [lv|] eqn:E5;
    [|intros [= <- <-]; left; split; [discriminate|]; split; [exact K0|]; intros log lcv dem out (_ & _ & _ & (x & C & _) & _); congruence].
  set (V := if verbose then None else match w_get w (lit "Logging") (lit "Verbose") with None => Some KeyError | Some v => if w_bool w v then None else Some ValueError end).
  assert (EV : V = None <-> (verbose = true \/ exists v, w_get w (lit "Logging") (lit "Verbose") = Some v /\ w_bool w v = true)).
  { unfold V. destruct verbose; [split; [intros _; left; reflexivity|reflexivity]|].
    destruct (w_get w (lit "Logging") (lit "Verbose")) as [v|].
    - destruct (w_bool w v) eqn:B; split; intros H; try reflexivity; try discriminate.
      + right. exists v. split; [reflexivity|exact B].
      + destruct H as [H|(v' & [= <-] & H)]; congruence.
    - split; [discriminate|]. intros [H|(v & H & _)]; discriminate. }
  clearbody V. destruct V as [ve|].
  { intros [= <- <-]. left. split; [discriminate|]. split; [exact K0|]. intros log lcv dem out (_ & _ & _ & _ & C & _). apply EV in C. discriminate C. }
  destruct (w_level w lv) as [le|] eqn:E6.
  { intros [= <- <-]. left. split; [discriminate|]. split; [exact K0|]. intros log lcv dem out (_ & _ & _ & (x & C & C') & _). congruence. }
  destruct (open_log g lf) as [h|e] eqn:EO.
  2:{ intros [= <- <-]. left. split; [discriminate|]. split; [exact K0|]. intros log lcv dem out (_ & _ & C & _).
      assert (log = l) by congruence. subst log. left. exists g, lf, e. split; [exact EL|exact EO]. }
  assert (K1 : keeps f h) by (apply (keeps_trans f g h); [exact K0|apply (open_log_keeps g lf); exact EO]).
  destruct (w_get w (lit "inputValues") (lit "terrain_data")) as [lcv0|] eqn:E7;
    [|intros [= <- <-]; left; split; [discriminate|]; split; [exact K1|]; intros log lcv dem out (_ & _ & _ & _ & _ & C & _); congruence].
  destruct (w_get w (lit "inputValues") (lit "dem_data")) as [dem0|] eqn:E8;
    [|intros [= <- <-]; left; split; [discriminate|]; split; [exact K1|]; intros log lcv dem out (_ & _ & _ & _ & _ & _ & C & _); congruence].
  destruct (w_get w (lit "Output") (lit "output_dir")) as [out0|] eqn:E9;
    [|intros [= <- <-]; left; split; [discriminate|]; split; [exact K1|]; intros log lcv dem out (_ & _ & _ & _ & _ & _ & _ & C); congruence].
  destruct (do_output_directory_creation h (w_path w out0)) as [k|e] eqn:ED.
  2:{ intros [= <- <-]. left. split; [discriminate|]. split; [exact K1|]. intros log lcv dem out (_ & _ & C & _ & _ & _ & _ & C').
      assert (log = l) by congruence. assert (out = out0) by congruence. subst log out. right. exists g, lf, h, e. repeat split; assumption. }
  intros H. right. exists l, lcv0, dem0, out0, g, lf, h, k.
  split. { split; [discriminate|]. split; [exists u; split; [reflexivity|exact E3]|]. split; [reflexivity|]. split; [exists lv; split; [reflexivity|exact E6]|].
           split; [apply EV; reflexivity|]. repeat split; reflexivity. }
  split; [exact EL|]. split; [exact EO|]. split; [exact ED|].
  destruct (check_raster w k (w_path w dem0)) as [e|]; [injection H as <- <-; split; reflexivity|].
  destruct data; injection H as <- <-; split; reflexivity.
Qed.

(** What is new before the output folder is touched. *)
Definition only_log (w : world) (log : str) (f f' : fsys) : Prop :=
  forall p, f p = None -> f' p <> None -> at_or_below p (w_path w log) \/ p = w_cwd w ++ [lit "multipliers.log"].

Lemma mkdir_new f p f' q : mkdir f p = Ok f' -> f q = None -> f' q <> None -> q = p.
Proof.
  unfold mkdir. destruct (f p) eqn:E; [discriminate|]. destruct (f (removelast p)) as [[]|]; try discriminate.
  intros [= <-] N M. destruct (path_eq_dec q p) as [D|D]; [exact D|]. rewrite upd_other in M by exact D. contradiction.
Qed.
Lemma makedirs_new r : forall f f' q, makedirs_rev r f = Ok f' -> f q = None -> f' q <> None -> exists t, rev r = q ++ t.
Proof.
  induction r as [|x r IH]; intros f f' q; [discriminate|]. cbn [makedirs_rev]. destruct (f (rev r)) eqn:E.
  - cbn [bind]. intros H N M. exists []. rewrite app_nil_r. symmetry. apply (mkdir_new f (rev (x :: r)) f' q H N M).
  - destruct (makedirs_rev r f) as [g|e] eqn:G; cbn [bind]; [|discriminate]. intros H N M.
    destruct (g q) eqn:Q.
    + destruct (IH f g q G N) as [t T]; [congruence|]. exists (t ++ [x]). cbn [rev]. rewrite T, app_assoc. reflexivity.
    + exists []. rewrite app_nil_r. symmetry. apply (mkdir_new g (rev (x :: r)) f' q H Q M).
Qed.
Lemma removelast_below (p q : list str) : at_or_below q (removelast p) -> at_or_below q p.
Proof.
  intros [t E]. destruct p as [|a p] using rev_ind; [exists t; exact E|].
  rewrite removelast_last in E. exists (t ++ [a]). rewrite E, app_assoc. reflexivity.
Qed.
Lemma log_place_new w l f : only_log w l f (fst (log_place w l f)).
Proof.
  intros p N M. left. unfold log_place in M.
  destruct (f (removelast (w_path w l))) as [[]|]; cbn [fst] in M; try contradiction;
    (destruct (makedirs f _) as [g|e] eqn:E; cbn [fst] in M; [|contradiction]);
    apply removelast_below; destruct (makedirs_new _ _ _ p E N M) as [t T]; exists t; rewrite rev_involutive in T; exact T.
Qed.
Lemma log_place_name w l f g lf : log_place w l f = (g, lf) -> lf = w_path w l \/ lf = w_cwd w ++ [lit "multipliers.log"].
Proof.
  unfold log_place. destruct (f (removelast (w_path w l))) as [[]|]; [|intros [= _ <-]; left; reflexivity|];
    destruct (makedirs f _); intros [= _ <-]; auto.
Qed.
Lemma open_log_new w l f g lf h : log_place w l f = (g, lf) -> open_log g lf = Ok h -> only_log w l f h.
Proof.
  intros E O p N M. pose proof (log_place_new w l f p N) as K. rewrite E in K. cbn [fst] in K.
  destruct (g p) eqn:G; [apply K; discriminate|]. clear K.
  assert (p = lf) as ->.
  { unfold open_log in O. destruct (path_eq_dec p lf) as [D|D]; [exact D|].
    destruct (g lf) as [[]|]; destruct (g (removelast lf)) as [[]|]; try discriminate; injection O as <-; rewrite upd_other in M by exact D; contradiction. }
  destruct (log_place_name _ _ _ _ _ E) as [->| ->]; [left; exists []; symmetry; apply app_nil_r|right; reflexivity].
Qed.

Lemma start_new w verbose data f f' r : start w verbose data f = (f', r) -> keeps f f' ->
  (forall log lcv dem out, ~ complete w verbose log lcv dem out) ->
  forall p, f p = None -> f' p <> None -> exists log, w_get w (lit "Logging") (lit "LogFile") = Some log /\
    (at_or_below p (w_path w log) \/ p = w_cwd w ++ [lit "multipliers.log"]).
Proof.
  intros S _ NC p N M. destruct (start_cases _ _ _ _ _ _ S) as [_|(log & lcv & dem & out & g & lf & h & k & C & _)]; [|exfalso; exact (NC _ _ _ _ C)].
  revert S. unfold start.
  destruct (w_get w (lit "inputValues") (lit "root")) as [ro|] eqn:E1; [|intros [= <- _]; contradiction].
  destruct (w_get w (lit "inputValues") (lit "upwind_length")) as [u|] eqn:E2; [|intros [= <- _]; contradiction].
  destruct (w_float w u) eqn:E3; cbn [negb]; [|intros [= <- _]; contradiction].
  destruct (w_get w (lit "Logging") (lit "LogFile")) as [l|] eqn:E4; [|intros [= <- _]; contradiction].
  pose proof (log_place_new w l f p N) as K0. destruct (log_place w l f) as [g lf] eqn:EL. cbn [fst] in K0.
  intros S. exists l. split; [reflexivity|]. revert S.
  destruct (w_get w (lit "Logging") (lit "LogLevel")) as [lv|] eqn:E5; [|intros [= <- _]; apply K0; exact M].
  match goal with |- match ?V with _ => _ end = _ -> _ => destruct V as [ve|] eqn:EV end; [intros [= <- _]; apply K0; exact M|].
  destruct (w_level w lv) as [le|] eqn:E6; [intros [= <- _]; apply K0; exact M|].
  destruct (open_log g lf) as [h|e] eqn:EO; [|intros [= <- _]; apply K0; exact M].
  pose proof (open_log_new w l f g lf h EL EO p N) as K1.
  destruct (w_get w (lit "inputValues") (lit "terrain_data")) as [lcv0|] eqn:E7; [|intros [= <- _]; apply K1; exact M].
  destruct (w_get w (lit "inputValues") (lit "dem_data")) as [dem0|] eqn:E8; [|intros [= <- _]; apply K1; exact M].
  destruct (w_get w (lit "Output") (lit "output_dir")) as [out0|] eqn:E9; [|intros [= <- _]; apply K1; exact M].
  exfalso. apply (NC l lcv0 dem0 out0). repeat split; try congruence; eauto.
  destruct verbose; [left; reflexivity|]. right. destruct (w_get w (lit "Logging") (lit "Verbose")) as [v|]; [|discriminate].
  exists v. split; [reflexivity|]. destruct (w_bool w v); [reflexivity|discriminate].
Qed.

(** The run with the settings right. *)
Lemma wf_log f lf : wf f -> f (removelast lf) = Some DirE -> f lf <> Some DirE -> wf (upd f lf (Some FileE)).
Proof.
  intros [R W] P N. split.
  - rewrite upd_other; [exact R|]. intros <-. contradiction.
  - intros p x H. destruct (path_eq_dec p lf) as [->|D].
    + exfalso. apply H. rewrite upd_other.
      * destruct (f (lf ++ [x])) eqn:E; [|reflexivity]. exfalso. apply N. apply (W lf x). congruence.
      * intros E. apply (f_equal (@length str)) in E. rewrite app_length in E. cbn in E. lia.
    + rewrite upd_other by exact D. destruct (path_eq_dec (p ++ [x]) lf) as [<-|D'].
      * rewrite removelast_last in P. exact P.
      * rewrite upd_other in H by exact D'. apply (W p x H).
Qed.
Lemma start_at w verbose data f log lcv dem out lf :
  wf f -> complete w verbose log lcv dem out -> log_place w log f = (f, lf) -> log_ready f lf (w_path w out) -> out_ready f (w_path w out) ->
  exists k, fresh_output (upd f lf (Some FileE)) (w_path w out) k /\
    start w verbose data f = (k, match check_raster w k (w_path w dem) with Some e => Some e | None => if data then first_tile w k lcv else None end).
Proof.
  intros W C EL (L1 & L2 & L3 & L4) (O1 & O2 & O3).
  destruct (start w verbose data f) as [f' r] eqn:S.
  assert (EO : open_log f lf = Ok (upd f lf (Some FileE))).
  { unfold open_log. rewrite L1. destruct (f lf) as [[]|]; try reflexivity. contradiction. }
  assert (W' := wf_log f lf W L1 L2).
  assert (CR : exists k, do_output_directory_creation (upd f lf (Some FileE)) (w_path w out) = Ok k).
  { apply C59_succeeds_iff; [exact W'|exact O1|]. split.
    - rewrite upd_other; [exact O2|]. congruence.
    - intros q A. rewrite upd_other; [apply O3; exact A|]. intros ->. contradiction. }
  destruct CR as [k ED]. exists k. split; [apply (C59_fresh _ _ _ W' O1 ED)|].
  destruct (start_cases _ _ _ _ _ _ S) as [(_ & _ & H)|(log' & lcv' & dem' & out' & g & lf' & h & k' & C' & EL' & EO' & ED' & -> & ->)].
  - destruct (H _ _ _ _ C) as [(g & lf' & e & X & Y)|(g & lf' & h & e & X & Y & Z)]; rewrite EL in X; injection X as <- <-; rewrite EO in Y; [discriminate|].
    injection Y as <-. rewrite ED in Z. discriminate.
  - destruct C as (_ & _ & C1 & _ & _ & C2 & C3 & C4). destruct C' as (_ & _ & C1' & _ & _ & C2' & C3' & C4').
    assert (log' = log) by congruence. assert (lcv' = lcv) by congruence. assert (dem' = dem) by congruence. assert (out' = out) by congruence. subst.
    rewrite EL in EL'. injection EL' as <- <-. rewrite EO in EO'. injection EO' as <-. rewrite ED in ED'. injection ED' as <-. reflexivity.
Qed.
Lemma start_ready w verbose data f log lcv dem out :
  wf f -> complete w verbose log lcv dem out -> log_ready f (w_path w log) (w_path w out) -> out_ready f (w_path w out) ->
  exists k, fresh_output (upd f (w_path w log) (Some FileE)) (w_path w out) k /\
    start w verbose data f = (k, match check_raster w k (w_path w dem) with Some e => Some e | None => if data then first_tile w k lcv else None end).
Proof.
  intros W C L O. apply (start_at w verbose data f log lcv dem out (w_path w log) W C); [|exact L|exact O].
  unfold log_place. destruct L as (-> & _). reflexivity.
Qed.
Lemma log_place_blocked w log f q : wf f -> f q = Some FileE -> above (w_path w log) q -> log_place w log f = (f, w_cwd w ++ [lit "multipliers.log"]).
Proof.
  intros W F A. unfold log_place. destruct (w_path w log) as [|a p _] using rev_ind; [destruct A as (x & t & E); destruct q; discriminate|].
  rewrite removelast_last. apply above_snoc in A.
  assert (N : f p <> Some DirE).
  { destruct A as [->|A]; [congruence|]. intros D. assert (f q = Some DirE) by (apply (wf_above f p q W); [rewrite D; discriminate|exact A]). congruence. }
  assert (M : makedirs f p = Err OSError).
  { unfold makedirs. destruct A as [->|A].
    - destruct p as [|x p _] using rev_ind; [destruct W as [W _]; congruence|]. rewrite rev_unit. cbn [makedirs_rev]. rewrite rev_involutive.
      assert (D : f p = Some DirE) by (apply (proj2 W p x); congruence). rewrite D. cbn [bind].
      unfold mkdir. cbn [rev]. rewrite rev_involutive, F. reflexivity.
    - apply (makedirs_err (rev p) q); [exact W| |exact F]. rewrite rev_involutive. exact A. }
  destruct (f p) as [[]|]; try contradiction; rewrite M; reflexivity.
Qed.

(** Which files are still there. *)
Lemma fresh_file f log out k p : p <> log -> out_ready f out -> fresh_output (upd f log (Some FileE)) out k ->
  (k p = Some FileE <-> safe_file f out p).
Proof.
  intros D (O1 & O2 & O3) (F1 & F2 & F3 & F4 & F5). unfold safe_file. split.
  - intros K. assert (NB : ~ at_or_below out p).
    { intros B. destruct (path_eq_dec p out) as [->|N]; [congruence|].
      destruct (in_dec path_eq_dec p (map (fun s => out ++ [s]) subdirs_1)) as [I|I].
      - apply in_map_iff in I. destruct I as (s & <- & Hs). rewrite F2 in K; [discriminate|]. exists s. split; [reflexivity|exact Hs].
      - rewrite F3 in K; [discriminate|exact B|exact N|]. intros (s & -> & Hs). apply I. apply in_map_iff. exists s. split; [reflexivity|exact Hs]. }
    split; [|exact NB]. rewrite F5 in K; [rewrite upd_other in K by exact D; exact K|exact NB|]. intros A. rewrite F4 in K by exact A. discriminate.
  - intros [E NB]. rewrite F5; [rewrite upd_other by exact D; exact E|exact NB|]. intros A. apply (O3 p A). exact E.
Qed.
