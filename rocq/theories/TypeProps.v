(** * C91: which elevation rasters the topographic stage accepts. *)
From Coq Require Import Qabs.
From Verif Require Import Base BaseLemmas PyStr Rounding TileModel ClipModel NameModel TopoModel TopoSpec TopoMhProofs TopoStageProofs TopoProps ReprModel ReprSpec ReprProofs TileSpec TileProofs TileProps ReprProps ConvModel PipeModel StageModel StageSpec StageProofs.
Open Scope Z_scope.

(** topomult on a raster file of any type: an integer type is refused, whatever the
    cells; on the other types all eight directions are computed and exactly the missing
    heights are missing. *)
Theorem C91_types t fl M sqrt2 cellsize x_left y_upper nodata dem : fl_line fl M -> (0 < sqrt2)%Q -> (0 < cellsize)%Q ->
  1 <= g_rows dem <= M -> 1 <= g_cols dem <= M ->
  (In t [UInt8; Int16; UInt16; Int32; UInt32] -> topo_of_type t fl sqrt2 cellsize x_left y_upper nodata dem = Err ValueError) /\
  (In t [Float32; Float64] -> exists outs, topo_of_type t fl sqrt2 cellsize x_left y_upper nodata dem = Ok outs /\
    map fst outs = [N_; S_; E_; W_; NE; NW; SE; SW] /\
    forall d o, In (d, o) outs -> g_rows o = g_rows dem /\ g_cols o = g_cols dem /\ forall r c, (g_at o r c = NaN <-> dem_missing nodata (g_at dem r c))).
Proof.
  intros Hf Hs Hc Hr Hl. split.
  - cbn. intros [<-|[<-|[<-|[<-|[<-|[]]]]]]; reflexivity.
  - intros H. replace (topo_of_type t fl sqrt2 cellsize x_left y_upper nodata dem) with (topomult fl sqrt2 cellsize x_left y_upper nodata dem)
      by (cbn in H; destruct H as [<-|[<-|[]]]; reflexivity).
    exact (C45_total fl M sqrt2 cellsize x_left y_upper nodata dem Hf Hs Hc Hr Hl).
Qed.
Print Assumptions C91_types.

(** In a run the stage gets tiles cut by all_multipliers.py.  Whatever the tile, it is
    refused if and only if the elevation raster holds 32 bit integers: shorter integers
    become single precision when the tile is cut. *)
Theorem C91_run fl M tr tg dem sizes mean sqrt2 k : fl_line fl M -> (0 < sqrt2)%Q ->
  let z := as_file (clip_dataset fl tr dem (extent_with_buffer fl tg k)) in
  let topo := topo_of_type (m_type (r_geo z)) fl sqrt2 (width sizes mean z) (m_x (r_geo z)) (- m_y (r_geo z))%Q (m_nodata (r_geo z)) (heights z) in
  (0 < width sizes mean z)%Q -> 1 <= g_rows (band1 z) <= M -> 1 <= g_cols (band1 z) <= M ->
  (topo = Err ValueError <-> im_type dem = Int32) /\
  (im_type dem <> Int32 <-> exists outs, topo = Ok outs /\ map fst outs = [N_; S_; E_; W_; NE; NW; SE; SW]).
Proof.
  intros Hf Hs z topo Hw Hr Hc. pose proof (clip_type fl tr tg dem k) as T. change (st_clip fl tr tg dem k) with z in T.
  destruct (C91_types (m_type (r_geo z)) fl M sqrt2 (width sizes mean z) (m_x (r_geo z)) (- m_y (r_geo z))%Q (m_nodata (r_geo z)) (heights z) Hf Hs Hw Hr Hc) as [A B].
  fold topo in A, B. rewrite T in A, B. clearbody topo.
  assert (I : im_type dem = Int32 \/ im_type dem <> Int32) by (destruct (im_type dem); (left; reflexivity) || (right; discriminate)).
  destruct I as [I|I].
  - rewrite I in A. rewrite (A ltac:(cbn; tauto)). split; [split; [intros _; exact I|reflexivity]|]. split; [contradiction|intros (? & E & _); discriminate E].
  - destruct (B ltac:(destruct (im_type dem); cbn; tauto)) as (outs & -> & D & _). split; [split; [discriminate|contradiction]|].
    split; [|intros _; exact I]. intros _. exists outs. split; [reflexivity|exact D].
Qed.
Print Assumptions C91_run.

(** The same heights as 16 and as 32 bit integers: every tile of the first raster gets its
    topographic multipliers, no tile of the second. *)
Definition retyped (t : dtype) (r : image) : image := Image t (im_proj r) (im_x r) (im_dx r) (im_y r) (im_dy r) (im_nodata r) (im_cells r).
Example C91_ex : exists tg, mk_tilegrid (fun x => x) (3#10) ex_ds = Ok tg /\ 1 < num_tiles tg /\
  forall t, let z := as_file (clip_dataset (fun x => x) (fun _ _ p => p) (retyped t ex_dem) (extent_with_buffer (fun x => x) tg 1)) in
    fl_line (fun x => x) 100 /\ 1 <= g_rows (band1 z) <= 100 /\ 1 <= g_cols (band1 z) <= 100 /\
    (topo_of_type (m_type (r_geo z)) (fun x => x) (14#10) 250 (m_x (r_geo z)) (- m_y (r_geo z))%Q (m_nodata (r_geo z)) (heights z) = Err ValueError <-> t = Int32).
Proof.
  eexists. split; [vm_compute; reflexivity|]. split; [reflexivity|]. intros t z.
  assert (R : 1 <= g_rows (band1 z) <= 100) by (destruct t; vm_compute; split; discriminate).
  assert (C : 1 <= g_cols (band1 z) <= 100) by (destruct t; vm_compute; split; discriminate).
  split; [apply fl_line_id|]. split; [exact R|]. split; [exact C|].
  exact (proj1 (C91_run (fun x => x) 100 (fun _ _ p => p) _ (retyped t ex_dem) (fun _ _ _ _ _ _ _ => (Grid 0 0 (fun _ _ => 0%Q), Grid 0 0 (fun _ _ => 0%Q))) (fun _ => 250%Q) (14#10) 1 (fl_line_id _) ltac:(reflexivity) ltac:(reflexivity) R C)).
Qed.
