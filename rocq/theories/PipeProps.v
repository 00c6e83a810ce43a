(** * Theorems about the files a run produces (C12 continued, C60, C63). *)
From Verif Require Import Base BaseLemmas Rounding TileModel TileSpec PyStr NameModel NameSpec NameProofs TileNameProofs TileProps
  SchedModel SchedSpec SchedProofs PipeModel PipeSpec PipeProofs PipeRunProofs.
Open Scope nat_scope.

(** ** C12, for the file operations the tile pipeline performs: whatever the
    stages compute, with any number of workers and any schedule, the run never
    blocks and when it ends every file of every tile is the one computed from
    that tile alone, and no other file has changed. *)
Theorem C12_pipeline {T V} (name : T -> str) out lcv (sg : stages T V) tiles k s0 l s :
  run_ok name out lcv tiles -> s0 (File lcv) = Some l -> 1 <= k ->
  reach (cut_dem name out sg) (multipliers_calculate name out lcv sg) tiles k s0 s ->
  (finished k s \/ exists s', step (cut_dem name out sg) (multipliers_calculate name out lcv sg) tiles k false s s') /\
  (m s = MDone ->
    (forall t c, In t tiles -> pwrites name out t c = true -> fs s c = tile_result name out sg s0 l t c) /\
    (forall c, (forall t, In t tiles -> pwrites name out t c = false) -> fs s c = s0 c)).
Proof. intros H1 H2. exact (pipeline_result name out lcv sg tiles k s0 l s H1 (or_introl H2)). Qed.
Print Assumptions C12_pipeline.

(** The single-process run has the same result. *)
Theorem C12_pipeline_serial {T V} (name : T -> str) out lcv (sg : stages T V) tiles s0 l :
  run_ok name out lcv tiles -> s0 (File lcv) = Some l ->
  exists g, serial (cut_dem name out sg) (multipliers_calculate name out lcv sg) tiles s0 = Ok g /\
    (forall t c, In t tiles -> pwrites name out t c = true -> g c = tile_result name out sg s0 l t c) /\
    (forall c, (forall t, In t tiles -> pwrites name out t c = false) -> g c = s0 c).
Proof. intros H1 H2. exact (serial_result name out lcv sg tiles s0 l H1 (or_introl H2)). Qed.
Print Assumptions C12_pipeline_serial.

(** The naming conditions in [run_ok] hold for the tiles of any grid whose
    names are distinct (see C07 for when they are). *)
Theorem C12_tiles_of_grid fl show upwind ds tg infos :
  fl_ok fl -> good_raster upwind ds -> mk_tilegrid fl upwind ds = Ok tg ->
  prints_floats show -> coords_printable fl tg -> names_distinct fl show tg ->
  get_tiles fl show tg = Ok infos ->
  NoDup (map info_name infos) /\ (forall i, In i infos -> good_tile (info_name i)).
Proof. exact (tiles_names fl show upwind ds tg infos). Qed.
Print Assumptions C12_tiles_of_grid.

(** ** C60: after a run that started without left-overs no temporary file of
    any tile remains. *)
Theorem C60_temporaries_removed {T V} (name : T -> str) out lcv (sg : stages T V) tiles k s0 l s t p :
  run_ok name out lcv tiles -> s0 (File lcv) = Some l -> 1 <= k ->
  (forall t p, In t tiles -> In p (temp_files out (name t)) -> s0 (File p) = None) ->
  reach (cut_dem name out sg) (multipliers_calculate name out lcv sg) tiles k s0 s -> m s = MDone ->
  In t tiles -> In p (temp_files out (name t)) -> fs s (File p) = None.
Proof.
  intros H1 H2 H3 H4 H5 H6 H7 H8.
  destruct (pipeline_result name out lcv sg tiles k s0 l s H1 (or_introl H2) H3 H5) as [_ Q].
  destruct (Q H6) as [Q1 _]. rewrite (Q1 t (File p) H7).
  - exact (temp_gone name out lcv sg tiles s0 l t p H1 H7 (fun p => H4 t p H7) H8).
  - apply pw_spec. right. destruct H8 as [<-|[<-|[<-|[]]]]; [exists FDem|exists FLcv|exists FMs]; reflexivity.
Qed.
Print Assumptions C60_temporaries_removed.

(** A tile without data only loses its DEM. *)
Theorem C60_empty_tile {T V} (name : T -> str) out lcv (sg : stages T V) t f :
  has_data sg (clip sg t) = false ->
  exists g, run_actions (multipliers_calculate name out lcv sg t) (cut_dem name out sg t f) = Ok g /\
    forall c, g c = if cell_eqb c (File (dem_tmp out (name t))) || cell_eqb c (Local (name t)) then None else f c.
Proof. exact (calc_nodata name out lcv sg t f). Qed.
Print Assumptions C60_empty_tile.

(** Crash points: the DEM tile is there after any number of completed
    operations up to its removal (the 29th), and gone afterwards. *)
Theorem C60_crash_points {T V} (name : T -> str) out lcv (sg : stages T V) t n f g :
  ok_dir out -> good_tile (name t) ->
  run_actions (firstn n (multipliers_calculate name out lcv sg t)) (cut_dem name out sg t f) = Ok g ->
  g (File (dem_tmp out (name t))) = if n <=? 28 then Some (clip sg t) else None.
Proof. intros H1 H2. exact (crash name out lcv sg t H1 H2 n f g). Qed.
Print Assumptions C60_crash_points.

(** Whatever happens, processing a tile leaves the files of others alone. *)
Theorem C60_other_files {T V} (name : T -> str) out lcv (sg : stages T V) t n f g c :
  ok_dir out -> good_tile (name t) -> pwrites name out t c = false ->
  run_actions (firstn n (multipliers_calculate name out lcv sg t)) (cut_dem name out sg t f) = Ok g -> g c = f c.
Proof.
  intros H1 H2 H3 H4.
  rewrite (SchedStoreProofs.run_frame (preads name out lcv) (pwrites name out) t
    (firstn n (multipliers_calculate name out lcv sg t))
    (fun a Ha => calc_local name out lcv sg t H1 H2 a (in_firstn' n a _ Ha)) _ _ _ H4 H3).
  apply (cut_local name out lcv sg t). exact H3.
Qed.
Print Assumptions C60_other_files.

(** ** C63: two tiles of the same name: one worker may remove the DEM the other
    one is about to open; that worker then fails and the run can never end. *)
Theorem C63_shared_name_refuted {T V} (name : T -> str) out lcv (sg : stages T V) t1 t2 s0 l :
  ok_dir out -> good_tile (name t1) -> name t1 = name t2 ->
  s0 (File lcv) = Some l -> pwrites name out t1 (File lcv) = false ->
  exists s, reach (cut_dem name out sg) (multipliers_calculate name out lcv sg) [t1; t2] 2 s0 s /\ wk s 2 = WFail t2.
Proof. intros H1 H2 H3 H4 H5. exact (clash name out lcv sg t1 t2 s0 l H1 H2 H3 (or_intror (conj H4 H5))). Qed.
Print Assumptions C63_shared_name_refuted.

(** With different names no worker ever fails. *)
Theorem C63_distinct_names_safe {T V} (name : T -> str) out lcv (sg : stages T V) tiles k s0 l s d t :
  run_ok name out lcv tiles -> s0 (File lcv) = Some l ->
  reach (cut_dem name out sg) (multipliers_calculate name out lcv sg) tiles k s0 s ->
  1 <= d <= k -> wk s d <> WFail t.
Proof.
  intros H1 H2 H3 H4.
  destruct (serial_result name out lcv sg tiles s0 l H1 (or_introl H2)) as (g & E & _).
  exact (SchedStoreProofs.serial_ok_no_fail (preads name out lcv) (pwrites name out) _ _ tiles k
    (run_ok_nodup name out lcv tiles H1) (run_ok_independent name out lcv tiles H1)
    (fun t => run_ok_cut name out lcv sg tiles t H1) (fun t a => run_ok_work name out lcv sg tiles t a H1) s0 g s d t E H3 H4).
Qed.
Print Assumptions C63_distinct_names_safe.

(** ** A concrete case: two tiles, contents are numbers. *)
Definition ex_name (t : bool) : str := if t then lit "e114.5000s11.5000" else lit "e115.0000s11.5000".
Definition ex_sg : stages bool nat :=
  Stages (fun t : bool => if t then 7 else 0) (fun v : nat => negb (Nat.eqb v 0)) Nat.add (fun _ : nat => false)
    (fun (_ : bool) (v : nat) (_ : dir) => v + 1) (fun v : nat => v + 2)
    (fun (_ : bool) (v w : nat) (_ : dir) => v + w) (fun (_ : bool) (v : nat) (_ : dir) => v * 2).
Definition ex_fs : @store cell nat := fun c => if cell_eqb c (File (lit "/in/landcover.tif")) then Some 3 else None.

Example C12_pipeline_ex : run_ok ex_name (lit "/data/out") (lit "/in/landcover.tif") [true; false] /\
  ex_fs (File (lit "/in/landcover.tif")) = Some 3 /\
  exists g, serial (cut_dem ex_name (lit "/data/out") ex_sg)
     (multipliers_calculate ex_name (lit "/data/out") (lit "/in/landcover.tif") ex_sg) [true; false] ex_fs = Ok g /\
    g (File (lit "/data/out/shielding/e114.5000s11.5000_ms_ne.nc")) = Some 19 /\
    g (File (lit "/data/out/topographic/e114.5000s11.5000_mt_w.nc")) = Some 14 /\
    g (File (lit "/data/out/topographic/e115.0000s11.5000_mt_w.nc")) = None /\
    g (File (lit "/data/out/e114.5000s11.5000_dem.img")) = None.
Proof.
  split; [|split; [reflexivity|]].
  - split; [|split; [|split]].
    + intros q C. apply (f_equal (@rev _)) in C. rewrite rev_app_distr in C. discriminate.
    + intros t _. destruct t; (split; [notin_lit|]; split; [notin_lit|]; eexists _, _; split; [reflexivity|discriminate]).
    + repeat constructor; simpl; intuition discriminate.
    + intros t _. destruct t; vm_compute; reflexivity.
  - eexists. split; [vm_compute; reflexivity|]. repeat split; vm_compute; reflexivity.
Qed.
