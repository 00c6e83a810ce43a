(** * Theorems about the start of a run (C82). *)
From Coq Require Import Ascii String.
From Verif Require Import Base PyStr BaseLemmas RunModel RunSpec RunProofs RunProps StartModel StartSpec StartProofs.
From Coq Require Import Lia.
Open Scope Z_scope.

(** ** What is checked first *)

(** A run whose settings are not all there, or not acceptable, fails and leaves
    everything as it was; only the log file and the folders leading to it can be
    new. *)
Theorem C82_incomplete : forall w verbose data f f' r, (forall log lcv dem out, ~ complete w verbose log lcv dem out) ->
  start w verbose data f = (f', r) ->
  r <> None /\ keeps f f' /\
  forall p, f p = None -> f' p <> None -> exists log, w_get w (lit "Logging") (lit "LogFile") = Some log /\
    (at_or_below p (w_path w log) \/ p = w_cwd w ++ [lit "multipliers.log"]).
Proof.
  intros w verbose data f f' r NC S. destruct (start_cases _ _ _ _ _ _ S) as [(H1 & H2 & _)|(log & lcv & dem & out & g & lf & h & k & C & _)]; [|exfalso; exact (NC _ _ _ _ C)].
  split; [exact H1|]. split; [exact H2|]. apply (start_new _ _ _ _ _ _ S H2 NC).
Qed.

(** Whatever the settings: if anything that was there is lost, all of them were
    right and the output folder has been made afresh; a run that does not get
    that far loses nothing. *)
Theorem C82_guarded : forall w verbose data f f' r, start w verbose data f = (f', r) ->
  (r <> None /\ keeps f f') \/
  exists log lcv dem out h, complete w verbose log lcv dem out /\ keeps f h /\ do_output_directory_creation h (w_path w out) = Ok f'.
Proof.
  intros w verbose data f f' r S. destruct (start_cases _ _ _ _ _ _ S) as [(H1 & H2 & _)|(log & lcv & dem & out & g & lf & h & k & C & EL & EO & ED & -> & _)]; [left; split; assumption|].
  right. exists log, lcv, dem, out, h. split; [exact C|]. split; [|exact ED].
  apply (keeps_trans f g h); [|apply (open_log_keeps g lf h EO)]. pose proof (log_place_keeps w log f) as K. rewrite EL in K. exact K.
Qed.

(** ** What is checked too late *)

(** With the settings there, whatever the input files are like, the output
    folder is emptied; only then are the inputs looked at, and the run goes on to
    its tiles exactly when the elevation raster, and when some tile has data
    also the land cover and the table, were there, readable and not below the
    output folder.  The kind of failure, case by case. *)
Theorem C82_outcome : forall w verbose data f log lcv dem out,
  wf f -> complete w verbose log lcv dem out -> log_ready f (w_path w log) (w_path w out) -> out_ready f (w_path w out) ->
  w_path w dem <> w_path w log -> w_path w lcv <> w_path w log ->
  (forall t, w_get w (lit "inputValues") (lit "terrain_table") = Some t -> w_path w t <> w_path w log) ->
  exists f' r, start w verbose data f = (f', r) /\ emptied f' (w_path w out) /\
    (forall p, ~ at_or_below (w_path w out) p -> ~ above (w_path w out) p -> p <> w_path w log -> f' p = f p) /\
    let o := w_path w out in
    (~ safe_raster w f o (w_path w dem) -> r = Some OSError) /\
    (safe_raster w f o (w_path w dem) -> data = false -> r = None) /\
    (safe_raster w f o (w_path w dem) -> data = true -> ~ safe_raster w f o (w_path w lcv) -> r = Some OSError) /\
    (safe_raster w f o (w_path w dem) -> data = true -> safe_raster w f o (w_path w lcv) ->
       (w_get w (lit "inputValues") (lit "terrain_table") = None -> r = Some KeyError) /\
       (forall t, w_get w (lit "inputValues") (lit "terrain_table") = Some t ->
          (~ safe_file f o (w_path w t) -> r = Some SystemExit) /\ (safe_file f o (w_path w t) -> r = None))).
Proof.
  intros w verbose data f log lcv dem out W C L O D1 D2 D3. destruct (start_ready w verbose data f log lcv dem out W C L O) as (k & F & S).
  do 2 eexists. split; [exact S|].
  pose proof F as (F1 & F2 & F3 & F4 & F5).
  split.
  { split; [exact F1|]. intros p B N K.
    destruct (in_dec path_eq_dec p (map (fun s => w_path w out ++ [s]) subdirs_1)) as [I|I].
    - apply in_map_iff in I. destruct I as (s & <- & Hs). assert (SF : stage_folder (w_path w out) (w_path w out ++ [s])) by (exists s; split; [reflexivity|exact Hs]).
      split; [exact SF|apply F2; exact SF].
    - exfalso. apply K. apply F3; [exact B|exact N|]. intros (s & -> & Hs). apply I. apply in_map_iff. exists s. split; [reflexivity|exact Hs]. }
  split. { intros p B A N. rewrite F5 by assumption. apply upd_other. exact N. }
  assert (CK : forall p, p <> w_path w log ->
    (safe_raster w f (w_path w out) p -> check_raster w k p = None) /\ (~ safe_raster w f (w_path w out) p -> check_raster w k p = Some OSError)).
  { intros p D. pose proof (fresh_file f (w_path w log) (w_path w out) k p D O F) as K. unfold safe_raster, check_raster. split.
    - intros [A B]. rewrite (proj2 K A), B. reflexivity.
    - intros N. destruct (k p) as [[]|]; try reflexivity. destruct (w_raster w p) eqn:R; [|reflexivity]. exfalso. apply N. split; [apply K; reflexivity|reflexivity]. }
  cbn zeta. destruct (CK _ D1) as [A1 A2]. destruct (CK _ D2) as [B1 B2].
  split. { intros H. rewrite (A2 H). reflexivity. }
  split. { intros H ->. rewrite (A1 H). reflexivity. }
  split. { intros H -> N. rewrite (A1 H). unfold first_tile. rewrite (B2 N). reflexivity. }
  intros H -> N. rewrite (A1 H). unfold first_tile. rewrite (B1 N).
  split; [intros ->; reflexivity|]. intros t E. rewrite E. pose proof (fresh_file f (w_path w log) (w_path w out) k (w_path w t) (D3 t E) O F) as K.
  split; intros T.
  - destruct (k (w_path w t)) as [[]|]; try reflexivity. exfalso. apply T, K. reflexivity.
  - rewrite (proj2 K T). reflexivity.
Qed.

(** So a mistyped name of an input file costs the results of the run before. *)
Theorem C82_results_lost_refuted : forall w verbose data f log lcv dem out p,
  wf f -> complete w verbose log lcv dem out -> log_ready f (w_path w log) (w_path w out) -> out_ready f (w_path w out) ->
  w_path w dem <> w_path w log -> f (w_path w dem) <> Some FileE ->
  f p = Some FileE -> at_or_below (w_path w out) p ->
  exists f', start w verbose data f = (f', Some OSError) /\ f' p <> Some FileE.
Proof.
  intros w verbose data f log lcv dem out p W C L O D1 N P B. destruct (start_ready w verbose data f log lcv dem out W C L O) as (k & F & S).
  exists k. split.
  - rewrite S. unfold check_raster. pose proof (fresh_file f (w_path w log) (w_path w out) k (w_path w dem) D1 O F) as K.
    destruct (k (w_path w dem)) as [[]|]; try reflexivity. exfalso. apply N. apply K. reflexivity.
  - destruct (path_eq_dec p (w_path w log)) as [->|D].
    + destruct F as (F1 & F2 & F3 & _). destruct (path_eq_dec (w_path w log) (w_path w out)) as [E|E]; [rewrite E, F1; discriminate|].
      destruct (in_dec path_eq_dec (w_path w log) (map (fun s => w_path w out ++ [s]) subdirs_1)) as [I|I].
      * apply in_map_iff in I. destruct I as (s & E' & Hs). rewrite F2; [discriminate|]. exists s. split; [symmetry; exact E'|exact Hs].
      * rewrite F3; [discriminate|exact B|exact E|]. intros (s & E' & Hs). apply I. apply in_map_iff. exists s. split; [symmetry; exact E'|exact Hs].
    + intros K. apply (fresh_file f (w_path w log) (w_path w out) k p D O F) in K. destruct K as [_ K]. contradiction.
Qed.

(** An elevation raster kept below the output folder is itself deleted, and the
    run fails for want of it. *)
Theorem C82_dem_inside : forall w verbose data f log lcv dem out,
  wf f -> complete w verbose log lcv dem out -> log_ready f (w_path w log) (w_path w out) -> out_ready f (w_path w out) ->
  w_path w dem <> w_path w log -> at_or_below (w_path w out) (w_path w dem) ->
  exists f', start w verbose data f = (f', Some OSError) /\ f' (w_path w dem) <> Some FileE.
Proof.
  intros w verbose data f log lcv dem out W C L O D1 B. destruct (start_ready w verbose data f log lcv dem out W C L O) as (k & F & S).
  assert (K : k (w_path w dem) <> Some FileE).
  { intros K. apply (fresh_file f (w_path w log) (w_path w out) k (w_path w dem) D1 O F) in K. destruct K as [_ K]. contradiction. }
  exists k. split; [|exact K]. rewrite S. unfold check_raster. destruct (k (w_path w dem)) as [[]|]; try reflexivity. contradiction.
Qed.

(** A log file kept below the output folder is gone once the run has started,
    whatever becomes of the run. *)
Theorem C82_log_inside : forall w verbose data f f' r log lcv dem out,
  wf f -> complete w verbose log lcv dem out -> log_ready f (w_path w log) (w_path w out) -> out_ready f (w_path w out) ->
  at_or_below (w_path w out) (w_path w log) -> start w verbose data f = (f', r) -> f' (w_path w log) <> Some FileE.
Proof.
  intros w verbose data f f' r log lcv dem out W C L O B S. destruct (start_ready w verbose data f log lcv dem out W C L O) as (k & F & S').
  rewrite S in S'. injection S' as -> _. destruct F as (F1 & F2 & F3 & _).
  destruct (path_eq_dec (w_path w log) (w_path w out)) as [E|E]; [rewrite E, F1; discriminate|].
  destruct (in_dec path_eq_dec (w_path w log) (map (fun s => w_path w out ++ [s]) subdirs_1)) as [I|I].
  - apply in_map_iff in I. destruct I as (s & E' & Hs). rewrite F2; [discriminate|]. exists s. split; [symmetry; exact E'|exact Hs].
  - rewrite F3; [discriminate|exact B|exact E|]. intros (s & E' & Hs). apply I. apply in_map_iff. exists s. split; [symmetry; exact E'|exact Hs].
Qed.

(** If a file stands where the folder of the log should be, the log goes to
    multipliers.log in the working directory, and the run is not affected. *)
Theorem C82_log_elsewhere : forall w verbose data f log lcv dem out q,
  wf f -> complete w verbose log lcv dem out -> f q = Some FileE -> above (w_path w log) q ->
  let lf := w_cwd w ++ [lit "multipliers.log"] in
  log_ready f lf (w_path w out) -> out_ready f (w_path w out) -> ~ at_or_below (w_path w out) lf ->
  w_path w dem <> lf -> safe_raster w f (w_path w out) (w_path w dem) ->
  exists f' r, start w verbose data f = (f', r) /\ f' lf = Some FileE /\ (data = false -> r = None) /\
    (f (w_path w log) = None -> ~ at_or_below (w_path w out) (w_path w log) -> ~ above (w_path w out) (w_path w log) -> w_path w log <> lf -> f' (w_path w log) = None).
Proof.
  intros w verbose data f log lcv dem out q W C Q A lf L O B D S.
  destruct (start_at w verbose data f log lcv dem out lf W C (log_place_blocked w log f q W Q A) L O) as (k & F & E).
  do 2 eexists. split; [exact E|]. pose proof F as (_ & _ & _ & _ & F5). destruct L as (_ & _ & _ & L4). split; [|split].
  - rewrite F5; [apply upd_same|exact B|exact L4].
  - intros ->. destruct S as [S R]. unfold check_raster. rewrite (proj2 (fresh_file f lf (w_path w out) k (w_path w dem) D O F) S), R. reflexivity.
  - intros N X Y Z. rewrite F5 by assumption. rewrite upd_other by exact Z. exact N.
Qed.

(** ** The hypotheses are met *)

(** /data/out holds an earlier result, /data/x is a file; the log goes to
    /data/log.  The elevation raster is called [dem]. *)
Definition ex_world (dem : list str) : world :=
  World (fun s o => if peqb [o] [lit "root"] then Some (lit "/r") else if peqb [o] [lit "upwind_length"] then Some (lit "0.01")
                    else if peqb [o] [lit "LogFile"] then Some (lit "log") else if peqb [o] [lit "LogLevel"] then Some (lit "INFO")
                    else if peqb [o] [lit "Verbose"] then Some (lit "False") else if peqb [o] [lit "terrain_data"] then Some (lit "lcv")
                    else if peqb [o] [lit "dem_data"] then Some (lit "dem") else if peqb [o] [lit "output_dir"] then Some (lit "out")
                    else if peqb [o] [lit "terrain_table"] then Some (lit "lcv") else None)
        (fun s => peqb [s] [lit "0.01"]) (fun s => peqb [s] [lit "False"]) (fun s => if peqb [s] [lit "INFO"] then None else Some AttributeError)
        (fun s => if peqb [s] [lit "dem"] then dem else if peqb [s] [lit "lcv"] then [lit "data"; lit "x"] else [lit "data"; s])
        (fun _ => true) [lit "data"].

Lemma ex_out_ready : out_ready ex_fs [lit "data"; lit "out"].
Proof.
  split; [discriminate|]. split; [vm_compute; discriminate|]. intros q (x & r & E) X.
  destruct q as [|a [|b [|d q]]]; cbn in E; injection E; intros; subst; discriminate.
Qed.
Lemma ex_log_ready : log_ready ex_fs [lit "data"; lit "log"] [lit "data"; lit "out"].
Proof.
  split; [reflexivity|]. split; [vm_compute; discriminate|]. split; [discriminate|]. intros (x & q & E). discriminate E.
Qed.
Lemma ex_complete dem : complete (ex_world dem) false (lit "log") (lit "lcv") (lit "dem") (lit "out").
Proof.
  split; [discriminate|]. split; [eexists; split; reflexivity|]. split; [reflexivity|]. split; [eexists; split; reflexivity|].
  split; [right; eexists; split; reflexivity|]. repeat split; reflexivity.
Qed.

(** A mistyped elevation raster: the earlier result is gone. *)
Example C82_example : exists f', start (ex_world [lit "data"; lit "y"]) false true ex_fs = (f', Some OSError) /\ f' [lit "data"; lit "out"; lit "in.img"] <> Some FileE.
Proof.
  apply (C82_results_lost_refuted (ex_world [lit "data"; lit "y"]) false true ex_fs (lit "log") (lit "lcv") (lit "dem") (lit "out")).
  - exact ex_wf.
  - apply ex_complete.
  - exact ex_log_ready.
  - exact ex_out_ready.
  - discriminate.
  - vm_compute. discriminate.
  - reflexivity.
  - exists [lit "in.img"]. reflexivity.
Qed.
(** The same with the raster below the output folder, and with the right one. *)
Example C82_example_inside : snd (start (ex_world [lit "data"; lit "out"; lit "in.img"]) false true ex_fs) = Some OSError.
Proof. vm_compute. reflexivity. Qed.
Example C82_example_right : snd (start (ex_world [lit "data"; lit "x"]) false true ex_fs) = None.
Proof. vm_compute. reflexivity. Qed.
(** The log kept below /data/x, which is a file: it goes to /data/multipliers.log. *)
Example C82_example_elsewhere :
  let w := ex_world [lit "data"; lit "x"] in
  let w' := World (w_get w) (w_float w) (w_bool w) (w_level w) (fun s => if peqb [s] [lit "log"] then [lit "data"; lit "x"; lit "log"] else w_path w s) (w_raster w) (w_cwd w) in
  complete w' false (lit "log") (lit "lcv") (lit "dem") (lit "out") /\ above (w_path w' (lit "log")) [lit "data"; lit "x"] /\
  log_ready ex_fs [lit "data"; lit "multipliers.log"] (w_path w' (lit "out")) /\
  snd (start w' false true ex_fs) = None /\ fst (start w' false true ex_fs) [lit "data"; lit "multipliers.log"] = Some FileE.
Proof.
  cbn zeta. split; [exact (ex_complete [lit "data"; lit "x"])|]. split; [exists (lit "log"), []; reflexivity|].
  split; [|split; vm_compute; reflexivity]. split; [reflexivity|]. split; [vm_compute; discriminate|]. split; [discriminate|]. intros (x & q & E). discriminate E.
Qed.

(** A level of detail that does not exist: nothing is lost. *)
Example C82_example_incomplete :
  let w := ex_world [lit "data"; lit "y"] in
  let w' := World (fun s o => if peqb [o] [lit "LogLevel"] then Some (lit "LOUD") else w_get w s o) (w_float w) (w_bool w) (w_level w) (w_path w) (w_raster w) (w_cwd w) in
  (forall log lcv dem out, ~ complete w' false log lcv dem out) /\
  snd (start w' false true ex_fs) = Some AttributeError /\ fst (start w' false true ex_fs) [lit "data"; lit "out"; lit "in.img"] = Some FileE.
Proof.
  cbn zeta. split; [|split; vm_compute; reflexivity]. intros log lcv dem out (_ & _ & _ & (l & E & L) & _). vm_compute in E. injection E as <-. discriminate L.
Qed.

Print Assumptions C82_incomplete.
Print Assumptions C82_guarded.
Print Assumptions C82_outcome.
Print Assumptions C82_results_lost_refuted.
Print Assumptions C82_dem_inside.
Print Assumptions C82_log_inside.
Print Assumptions C82_log_elsewhere.
