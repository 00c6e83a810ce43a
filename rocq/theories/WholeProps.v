(** * Theorems about the whole run: tile phase and conversion together (C64). *)
From Coq Require Import Permutation.
From Verif Require Import Base BaseLemmas TileModel PyStr NameModel NameSpec NameProofs SchedModel SchedSpec PipeModel PipeSpec PipeProofs PipeRunProofs PipeProps
  DistModel DistProofs ConvModel ConvSpec ConvProofs ConvRunSpec ConvRunProofs DistProps WholeSpec WholeProofs.
Open Scope Z_scope.

(** ** C64: the tiles the conversion works on are the tiles that had data,
    whatever the schedule of the tile phase. *)
Theorem C64_converted_tiles {T V} (name : T -> str) out lcv (sg : stages T V) tiles k s0 l s listing ctiles :
  run_ok name out lcv tiles -> s0 (File lcv) = Some l -> (1 <= k)%nat ->
  empty_dir s0 (pjoin out (lit "shielding")) ->
  reach (cut_dem name out sg) (multipliers_calculate name out lcv sg) tiles k s0 s -> m s = MDone ->
  lists (fs s) (pjoin out (lit "shielding")) listing -> tile_list listing ctiles ->
  NoDup ctiles /\ forall n, In n ctiles <-> exists t, In t tiles /\ has_data sg (clip sg t) = true /\ name t = n.
Proof.
  intros H1 H2 H3 H4 H5 H6 H7 H8. split; [apply H8|].
  destruct (pipeline_result name out lcv sg tiles k s0 l s H1 (or_introl H2) H3 H5) as [_ Q].
  intros n. exact (converter_tiles name out lcv sg tiles s0 l (fs s) H1 (Q H6) H4 listing ctiles H7 H8 n).
Qed.
Print Assumptions C64_converted_tiles.

(** Whatever the numbers of processes and the schedules of both phases: if the
    run ends without error then for every tile with data and land cover, the
    combined raster holds in each direction's band the product of the three
    multipliers the stages computed for that tile, and the maximum raster
    holds the maximum of those. *)
Theorem C64_end_to_end {T G} (name : T -> str) out lcv (sg : stages T (raster G)) tiles k s0 l s listing ctiles
    mul stats_ok size ops g t nx ny vms vmz vmt :
  run_ok name out lcv tiles -> s0 (File lcv) = Some l -> (1 <= k)%nat ->
  empty_dir s0 (pjoin out (lit "shielding")) ->
  reach (cut_dem name out sg) (multipliers_calculate name out lcv sg) tiles k s0 s -> m s = MDone ->
  lists (fs s) (pjoin out (lit "shielding")) listing -> tile_list listing ctiles ->
  stats_spec stats_ok -> 1 <= size -> interleaving (map cops (split_tiles size ctiles)) ops ->
  foldM (cop_run mul stats_ok out) ops (files (fs s)) = Ok g ->
  In t tiles -> has_data sg (clip sg t) = true ->
  no_terrain sg (resample sg l (clip sg t)) = false ->
  (forall d, shows (ms sg t (ms_init sg (resample sg l (clip sg t))) (clip sg t) d) nx ny (vms d)) ->
  (forall d, shows (mz sg t (resample sg l (clip sg t)) d) nx ny (vmz d)) ->
  (forall d, shows (mt sg t (clip sg t) d) nx ny (vmt d)) ->
  let prod d r c := product3 mul (vms d r c) (vmz d r c) (vmt d r c) in
  exists geo bs b1 b2,
    g (m3_path out (name t)) = Some (Raster geo bs) /\
    Forall2 (fun d b => is_band b (dir_str d) nx ny (prod d)) band_dirs bs /\
    g (m3max_path out (name t)) = Some (Raster geo [b1; b2]) /\
    forall r c, 0 <= r < ny -> 0 <= c < nx -> is_max (map (fun d => prod d r c) band_dirs) (g_at (b_data b1) r c).
Proof.
  intros H1 H2 H3 H4 H5 H6 H7 H8 Hst Hsz Hil Hg Ht Hd Hnt Sms Smz Smt prod.
  destruct (pipeline_result name out lcv sg tiles k s0 l s H1 (or_introl H2) H3 H5) as [_ Q]. specialize (Q H6).
  assert (Hc : In (name t) ctiles)
    by (apply (converter_tiles name out lcv sg tiles s0 l (fs s) H1 Q H4 listing ctiles H7 H8); exists t; auto).
  pose proof (C15_parallel_conversion mul stats_ok out (files (fs s)) size ctiles ops Hsz Hil) as P. rewrite Hg in P.
  destruct P as [P _]. destruct (P _ Hc) as (N1 & E1 & N2 & E2).
  destruct H1 as (Hdir & Hgood & Hrest). pose proof (Hgood t Ht) as Gt.
  set (v := fun ty d => match ty with Shielding => vms d | Terrain => vmz d | Topographic => vmt d end).
  assert (Hin : forall ty d, holds (files (fs s)) (convert_nc out (name t) ty d) nx ny (v ty d)).
  { intros ty d. unfold holds, files.
    rewrite (proj1 Q t _ Ht (nc_written name out t ty d)), (result_nc name out sg s0 l t ty d Gt Hd), Hnt.
    destruct ty; [destruct (Sms d) as (b & rest & H)|destruct (Smz d) as (b & rest & H)|destruct (Smt d) as (b & rest & H)];
      eexists; exists b, rest; (split; [reflexivity|exact H]). }
  destruct (Hin Shielding E_) as (e & b0 & rest0 & He & _).
  assert (Hn : files (fs s) (convert_nc out (name t) Shielding N_) <> None)
    by (destruct (Hin Shielding N_) as (? & ? & ? & -> & _); discriminate).
  pose proof (m3_main mul stats_ok (files (fs s)) out (name t) nx ny v (fun ty d => or_introl (Hin ty d)) e He Hn) as M.
  unfold m3_of in N1, E1. destruct (m3_raster mul stats_ok (files (fs s)) out (name t)) as [r|] eqn:Em; [|contradiction].
  destruct (m3_success mul stats_ok Hst (files (fs s)) out (name t) nx ny v (fun ty d => or_introl (Hin ty d)) e He Hn) as (bs & Eb & Hb).
  { intros d. destruct (forallb _ directions) eqn:Ef in M; [|discriminate]. rewrite forallb_forall in Ef.
    apply (out_stats mul stats_ok Hst (files (fs s)) out (name t) nx ny v (fun ty d => or_introl (Hin ty d))). apply Ef. apply dirs_all. }
  rewrite Em in Eb. injection Eb as ->.
  unfold m3max_of, m3_of in N2, E2. rewrite Em in N2, E2.
  assert (Hb' : Forall2 (fun d b => is_band b (dir_str d) nx ny (prod d)) band_dirs bs) by exact Hb.
  pose proof (m3max_eq stats_ok (fun _ => Some (Raster (r_geo e) bs)) out (name t) nx ny (r_geo e) bs prod eq_refl Hb') as X.
  rewrite X in N2, E2. destruct (stats_ok _) in N2, E2; [|contradiction].
  exists (r_geo e), bs. eexists; eexists. split; [exact E1|]. split; [exact Hb'|]. split; [exact E2|].
  intros r c Hr Hc'. exact (max_at nx ny bs prod Hb' r c Hr Hc').
Qed.
Print Assumptions C64_end_to_end.

(** A tile with elevation but without any land cover gets no terrain files;
    unless it is square the conversion then fails, in every schedule. *)
Theorem C64_no_land_cover_refuted {T G} (name : T -> str) out lcv (sg : stages T (raster G)) tiles k s0 l s listing ctiles
    mul stats_ok size ops t nx ny vms :
  run_ok name out lcv tiles -> s0 (File lcv) = Some l -> (1 <= k)%nat ->
  empty_dir s0 (pjoin out (lit "shielding")) -> empty_dir s0 (pjoin out (lit "terrain")) ->
  reach (cut_dem name out sg) (multipliers_calculate name out lcv sg) tiles k s0 s -> m s = MDone ->
  lists (fs s) (pjoin out (lit "shielding")) listing -> tile_list listing ctiles ->
  1 <= size -> interleaving (map cops (split_tiles size ctiles)) ops ->
  In t tiles -> has_data sg (clip sg t) = true ->
  no_terrain sg (resample sg l (clip sg t)) = true ->
  shows (ms sg t (ms_init sg (resample sg l (clip sg t))) (clip sg t) N_) nx ny vms -> nx <> ny ->
  exists er, foldM (cop_run mul stats_ok out) ops (files (fs s)) = Err er.
Proof.
  intros H1 H2 H3 H4 H4' H5 H6 H7 H8 Hsz Hil Ht Hd Hnt Sms Hne.
  destruct (pipeline_result name out lcv sg tiles k s0 l s H1 (or_introl H2) H3 H5) as [_ Q]. specialize (Q H6).
  assert (Hc : In (name t) ctiles)
    by (apply (converter_tiles name out lcv sg tiles s0 l (fs s) H1 Q H4 listing ctiles H7 H8); exists t; auto).
  destruct H1 as (Hdir & Hgood & Hrest). pose proof (Hgood t Ht) as Gt.
  pose proof (C15_parallel_conversion mul stats_ok out (files (fs s)) size ctiles ops Hsz Hil) as P.
  destruct (foldM _ ops _) as [g|er]; [|exists er; reflexivity]. exfalso.
  destruct P as [P _]. destruct (P _ Hc) as (N1 & _).
  assert (E : exists er, m3_raster mul stats_ok (files (fs s)) out (name t) = Err er).
  { apply (m3_not_square mul stats_ok (files (fs s)) out (name t) nx ny vms Terrain N_); [| |exact Hne].
    - destruct Sms as (b & rest & H). unfold holds, files.
      rewrite (proj1 Q t _ Ht (nc_written name out t Shielding N_)), (result_nc name out sg s0 l t _ _ Gt Hd).
      eexists; exists b, rest. split; [reflexivity|exact H].
    - unfold files. rewrite (proj1 Q t _ Ht (nc_written name out t Terrain N_)), (result_nc name out sg s0 l t _ _ Gt Hd), Hnt.
      apply (H4' (name t ++ lit "_mz_n.nc")). destruct Gt as (Gs & _). apply notin_app; [exact Gs|notin_lit]. }
  destruct E as (er & E). unfold m3_of in N1. rewrite E in N1. contradiction.
Qed.
Print Assumptions C64_no_land_cover_refuted.

(** ** Concrete case: two tiles, one with data; tile phase then conversion. *)
Definition r1 (a b : Q) : raster Z := Raster 5 [Band [] (Grid 1 2 (fun _ c => if c =? 0 then Num a else Num b))].
Definition ex_sg2 : stages bool (raster Z) :=
  Stages (fun t : bool => if t then r1 4 6 else Raster 5 []) (fun v : raster Z => match r_bands v with [] => false | _ => true end)
    (fun l _ : raster Z => l) (fun _ : raster Z => false)
    (fun (_ : bool) (_ : raster Z) (d : dir) => match d with N_ => r1 (3 # 4) 1 | _ => r1 1 1 end) (fun v : raster Z => v)
    (fun (_ : bool) (_ _ : raster Z) (_ : dir) => r1 (9 # 10) 1) (fun (_ : bool) (_ : raster Z) (d : dir) => match d with SW => r1 2 (3 # 2) | _ => r1 1 1 end).
Definition ex_fs2 : @store cell (raster Z) := fun c => if cell_eqb c (File (lit "/in/landcover.tif")) then Some (r1 1 1) else None.
Example C64_ex : empty_dir ex_fs2 (pjoin (lit "/data/out") (lit "shielding")) /\
  exists f g bs mx b2, serial (cut_dem ex_name (lit "/data/out") ex_sg2)
     (multipliers_calculate ex_name (lit "/data/out") (lit "/in/landcover.tif") ex_sg2) [true; false] ex_fs2 = Ok f /\
    converter_run Qmult (fun _ => true) (lit "/data/out") [ex_name true] (files f) = Ok g /\
    g (lit "/data/out/M3/e114.5000s11.5000.tif") = Some (Raster 5 bs) /\
    map (fun b => glist (b_data b)) (firstn 2 bs) = [[[Num (9 # 10); Num 1]]; [[Num (27 # 40); Num 1]]] /\
    g (lit "/data/out/M3_max/e114.5000s11.5000.tif") = Some (Raster 5 [mx; b2]) /\
    glist (b_data mx) = [[Num (18 # 10); Num (3 # 2)]].
Proof.
  split.
  - intros x _. unfold ex_fs2. destruct (cell_eqb _ _) eqn:E; [|reflexivity]. apply cell_eqb_spec in E. discriminate.
  - do 5 eexists. split; [vm_compute; reflexivity|]. split; [vm_compute; reflexivity|]. repeat split; vm_compute; reflexivity.
Qed.
