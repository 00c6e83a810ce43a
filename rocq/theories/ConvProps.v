(** * Theorems about the combined multipliers (C16-C19). *)
From Verif Require Import Base BaseLemmas PyStr NameModel NameSpec PipeSpec ConvModel ConvSpec ConvProofs ConvRunProofs.
Open Scope Z_scope.

(** ** C16: when all 24 files of a tile are there with the same shape, the
    tile's combined raster has the eight directions as bands, in order, and
    every pixel is the product of the three multipliers of that direction at
    the same pixel; nothing else changes.  It needs one pixel per direction
    with a number (otherwise the statistics, hence the run, fail). *)
Theorem C16_product {G} mul stats_ok (f : rstore G) path tile nx ny v e :
  stats_spec stats_ok ->
  (forall ty d, holds f (convert_nc path tile ty d) nx ny (v ty d)) ->
  f (convert_nc path tile Shielding E_) = Some e ->
  let prod d r c := product3 mul (v Shielding d r c) (v Terrain d r c) (v Topographic d r c) in
  (forall d, exists r c q, 0 <= r < ny /\ 0 <= c < nx /\ prod d r c = Num q) ->
  exists f' bs, process_tile mul stats_ok path tile f = Ok f' /\
    f' (pjoin (pjoin path (lit "M3")) (tile ++ lit ".tif")) = Some (Raster (r_geo e) bs) /\
    Forall2 (fun d b => is_band b (dir_str d) nx ny (prod d)) band_dirs bs /\
    (forall p, p <> pjoin (pjoin path (lit "M3")) (tile ++ lit ".tif") -> f' p = f p).
Proof.
  intros Hs Hin He prod Hp.
  destruct (m3_success mul stats_ok Hs f path tile nx ny v (fun ty d => or_introl (Hin ty d)) e He) as (bs & E & B).
  - destruct (Hin Shielding N_) as (? & ? & ? & -> & _). discriminate.
  - exact Hp.
  - exists (rput f (m3_path path tile) (Raster (r_geo e) bs)), bs. split; [|split; [|split; [exact B|]]].
    + unfold process_tile. rewrite E. reflexivity.
    + unfold rput, m3_path. destruct (list_eq_dec _ _ _); [reflexivity|contradiction].
    + intros p Hne. unfold rput, m3_path. destruct (list_eq_dec _ _ _); [contradiction|reflexivity].
Qed.
Print Assumptions C16_product.

(** Otherwise the conversion fails. *)
Theorem C16_all_missing_direction {G} mul stats_ok (f : rstore G) path tile nx ny v d :
  stats_spec stats_ok ->
  (forall ty d, holds f (convert_nc path tile ty d) nx ny (v ty d)) ->
  (forall r c, 0 <= r < ny -> 0 <= c < nx -> product3 mul (v Shielding d r c) (v Terrain d r c) (v Topographic d r c) = NaN) ->
  process_tile mul stats_ok path tile f = Err RuntimeError.
Proof.
  intros Hs Hin Hd. destruct (Hin Shielding E_) as (e & H).
  destruct H as (b & rest & He & _). unfold process_tile.
  rewrite (m3_failure mul stats_ok Hs f path tile nx ny v (fun ty d => or_introl (Hin ty d)) e He); [reflexivity| |].
  - destruct (Hin Shielding N_) as (? & ? & ? & -> & _). discriminate.
  - intros C. destruct (C d) as (r & c & q & Hr & Hc & E). unfold cell3 in E. rewrite (Hd r c Hr Hc) in E. discriminate.
Qed.
Print Assumptions C16_all_missing_direction.

(** ** C17: a pixel of the combined raster is missing (NaN) exactly when one of
    the three multipliers is missing there. *)
Theorem C17_nan_exact {G} mul stats_ok (f f' : rstore G) path tile nx ny v geo bs d r c b :
  stats_spec stats_ok ->
  (forall ty d, holds f (convert_nc path tile ty d) nx ny (v ty d)) ->
  process_tile mul stats_ok path tile f = Ok f' -> f' (m3_path path tile) = Some (Raster geo bs) ->
  In b bs -> b_desc b = dir_str d -> 0 <= r < ny -> 0 <= c < nx ->
  (g_at (b_data b) r c = NaN <-> v Shielding d r c = NaN \/ v Terrain d r c = NaN \/ v Topographic d r c = NaN).
Proof.
  intros Hs Hin Hp Hf Hb Hd Hr Hc. destruct (Hin Shielding E_) as (e & H). destruct H as (b0 & rest & He & _).
  pose proof (m3_main mul stats_ok f path tile nx ny v (fun ty d => or_introl (Hin ty d)) e He) as M.
  unfold process_tile in Hp. rewrite M in Hp.
  2:{ destruct (Hin Shielding N_) as (? & ? & ? & -> & _). discriminate. }
  destruct (forallb _ _); cbn [bind] in Hp; [|discriminate]. injection Hp as <-.
  unfold rput in Hf. destruct (list_eq_dec _ _ _); [|contradiction]. injection Hf as _ <-.
  change (In b (map (fun d => Band (dir_str d) (outg mul f path tile nx ny d)) directions)) in Hb.
  apply in_map_iff in Hb. destruct Hb as (d' & <- & _). cbn [b_desc] in Hd.
  assert (d' = d) by (destruct d', d; try reflexivity; discriminate). subst d'. cbn [b_data].
  rewrite (out_at mul stats_ok f path tile nx ny v (fun ty d => or_introl (Hin ty d)) d r c Hr Hc). unfold cell3.
  destruct (v Shielding d r c), (v Terrain d r c), (v Topographic d r c); cbn; split; intros X; auto; try discriminate; destruct X as [X|[X|X]]; discriminate.
Qed.
Print Assumptions C17_nan_exact.

(** The sentinel -9999 is not preserved: the product of one sentinel with two
    numbers is a sentinel exactly when their product is 1 up to the comparison
    tolerance ... *)
Theorem C17_sentinel_exact a b :
  sentinel (product3 Qmult (Num (-9999)) (Num a) (Num b)) <->
  (9999 * Qabs (a * b - 1) <= (1 # 100000000) + (1 # 100000) * 9999)%Q.
Proof.
  cbn [product3 sentinel].
  assert (E : (Qabs (-9999 * a * b + 9999) == 9999 * Qabs (a * b - 1))%Q).
  { setoid_replace (-9999 * a * b + 9999)%Q with ((-9999) * (a * b - 1))%Q by ring. rewrite Qabs_Qmult. reflexivity. }
  rewrite E. reflexivity.
Qed.
Print Assumptions C17_sentinel_exact.

(** ... and a pixel with the sentinel in two of the inputs of one direction
    gets a large positive value, which is then reported as the maximum. *)
Definition sent_val (ty : mtype) (d : dir) (r c : Z) : num :=
  match ty, d with Shielding, SW | Topographic, SW => Num (-9999) | _, _ => Num 1 end.
Definition files_of (val : mtype -> dir -> Z -> Z -> num) (nx ny : Z) : rstore Z := fun p =>
  match find (fun '(ty, d) => if list_eq_dec ascii_dec p (convert_nc (lit "out") (lit "t") ty d) then true else false)
             (flat_map (fun ty => map (fun d => (ty, d)) all_dirs) all_types) with
  | Some (ty, d) => Some (Raster 7 [Band [] (Grid ny nx (val ty d))])
  | None => None end.
Theorem C17_sentinel_refuted : exists f1 f2 b bs m ms,
  process_tile Qmult (fun _ => true) (lit "out") (lit "t") (files_of sent_val 1 1) = Ok f1 /\
  f1 (lit "out/M3/t.tif") = Some (Raster 7 bs) /\ nth_error bs 6 = Some b /\ b_desc b = lit "sw" /\
  g_at (b_data b) 0 0 = Num 99980001 /\ ~ sentinel (Num 99980001) /\
  process_max_tile (fun _ => true) (lit "out") (lit "t") f1 = Ok f2 /\
  f2 (lit "out/M3_max/t.tif") = Some (Raster 7 (m :: ms)) /\ g_at (b_data m) 0 0 = Num 99980001.
Proof.
  eexists; eexists; eexists; eexists; eexists; eexists.
  split; [vm_compute; reflexivity|]. split; [vm_compute; reflexivity|]. split; [vm_compute; reflexivity|].
  split; [vm_compute; reflexivity|]. split; [vm_compute; reflexivity|].
  split; [cbn [sentinel]; intros H; apply Qle_bool_iff in H; vm_compute in H; discriminate|].
  split; [vm_compute; reflexivity|]. split; vm_compute; reflexivity.
Qed.
Print Assumptions C17_sentinel_refuted.

(** ** C18: what missing files do.  A tile is converted with missing files
    counted as ones when the tile is square and the shielding files for east
    and north are there. *)
Theorem C18_missing_as_ones {G} mul stats_ok (f : rstore G) path tile nx ny v e :
  stats_spec stats_ok ->
  (forall ty d, holds f (convert_nc path tile ty d) nx ny (v ty d) \/
    (f (convert_nc path tile ty d) = None /\ nx = ny /\ forall r c, v ty d r c = Num 1)) ->
  f (convert_nc path tile Shielding E_) = Some e -> f (convert_nc path tile Shielding N_) <> None ->
  let prod d r c := product3 mul (v Shielding d r c) (v Terrain d r c) (v Topographic d r c) in
  (forall d, exists r c q, 0 <= r < ny /\ 0 <= c < nx /\ prod d r c = Num q) ->
  exists f' bs, process_tile mul stats_ok path tile f = Ok f' /\
    f' (m3_path path tile) = Some (Raster (r_geo e) bs) /\
    Forall2 (fun d b => is_band b (dir_str d) nx ny (prod d)) band_dirs bs.
Proof.
  intros Hs Hin He Hn prod Hp.
  destruct (m3_success mul stats_ok Hs f path tile nx ny v Hin e He Hn Hp) as (bs & E & B).
  exists (rput f (m3_path path tile) (Raster (r_geo e) bs)), bs. split; [|split; [|exact B]].
  - unfold process_tile. rewrite E. reflexivity.
  - unfold rput. destruct (list_eq_dec _ _ _); [reflexivity|contradiction].
Qed.
Print Assumptions C18_missing_as_ones.

(** In all other cases with a missing file the conversion fails. *)
Theorem C18_missing_fails {G} mul stats_ok (f : rstore G) path tile :
  (f (convert_nc path tile Shielding N_) = None -> process_tile mul stats_ok path tile f = Err RuntimeError) /\
  (forall nx ny v, holds f (convert_nc path tile Shielding N_) nx ny v ->
     (f (convert_nc path tile Shielding E_) = None -> process_tile mul stats_ok path tile f = Err UnboundLocalError) /\
     (forall ty d, f (convert_nc path tile ty d) = None -> nx <> ny -> exists er, process_tile mul stats_ok path tile f = Err er)).
Proof.
  unfold process_tile. split.
  - intros H. rewrite (m3_no_north mul stats_ok f path tile H). reflexivity.
  - intros nx ny v Hv. split.
    + intros H. rewrite (m3_no_east mul stats_ok f path tile nx ny v Hv H). reflexivity.
    + intros ty d H Hne. destruct (m3_not_square mul stats_ok f path tile nx ny v ty d Hv H Hne) as (er & ->). exists er. reflexivity.
Qed.
Print Assumptions C18_missing_fails.

(** ** C19: every pixel of the maximum raster is the maximum of the eight
    bands; a pixel missing (NaN) in one direction is missing. *)
Theorem C19_maximum {G} stats_ok (f : rstore G) path tile nx ny geo bs v :
  stats_spec stats_ok ->
  f (m3_path path tile) = Some (Raster geo bs) ->
  Forall2 (fun d b => is_band b (dir_str d) nx ny (v d)) band_dirs bs ->
  (exists r c, 0 <= r < ny /\ 0 <= c < nx /\ forall d, v d r c <> NaN) ->
  exists f' b1 b2, process_max_tile stats_ok path tile f = Ok f' /\
    f' (pjoin (pjoin path (lit "M3_max")) (tile ++ lit ".tif")) = Some (Raster geo [b1; b2]) /\
    g_rows (b_data b1) = ny /\ g_cols (b_data b1) = nx /\
    (forall r c, 0 <= r < ny -> 0 <= c < nx -> is_max (map (fun d => v d r c) band_dirs) (g_at (b_data b1) r c)) /\
    (forall p, p <> pjoin (pjoin path (lit "M3_max")) (tile ++ lit ".tif") -> f' p = f p).
Proof.
  intros Hs Hf Hb Hx. unfold process_max_tile. rewrite (m3max_eq stats_ok f path tile nx ny geo bs v Hf Hb).
  rewrite (proj2 (max_stats stats_ok Hs nx ny bs v Hb) Hx). cbn [bind]. eexists; eexists; eexists. split; [reflexivity|].
  split; [unfold rput, m3max_path; destruct (list_eq_dec _ _ _); [reflexivity|contradiction]|].
  split; [reflexivity|]. split; [reflexivity|]. split.
  - intros r c Hr Hc. exact (max_at nx ny bs v Hb r c Hr Hc).
  - intros p Hne. unfold rput, m3max_path. destruct (list_eq_dec _ _ _); [contradiction|reflexivity].
Qed.
Print Assumptions C19_maximum.

(** Where no pixel has all eight values the conversion fails. *)
Theorem C19_all_missing {G} stats_ok (f : rstore G) path tile nx ny geo bs v :
  stats_spec stats_ok ->
  f (m3_path path tile) = Some (Raster geo bs) ->
  Forall2 (fun d b => is_band b (dir_str d) nx ny (v d)) band_dirs bs ->
  (~ exists r c, 0 <= r < ny /\ 0 <= c < nx /\ forall d, v d r c <> NaN) ->
  process_max_tile stats_ok path tile f = Err RuntimeError.
Proof.
  intros Hs Hf Hb Hx. unfold process_max_tile. rewrite (m3max_eq stats_ok f path tile nx ny geo bs v Hf Hb).
  destruct (stats_ok _) eqn:E; [|reflexivity]. exfalso. apply Hx. exact (proj1 (max_stats stats_ok Hs nx ny bs v Hb) E).
Qed.
Print Assumptions C19_all_missing.

(** Sentinels are ignored when some direction is larger, and kept when all
    eight are sentinels. *)
Theorem C19_sentinel l m : is_max l m -> ~ In NaN l ->
  (forall q x, m = Num q -> In (Num x) l -> (-9999 < x)%Q -> (-9999 < q)%Q) /\
  ((forall x, In (Num x) l -> (x == -9999)%Q) -> exists q, m = Num q /\ (q == -9999)%Q).
Proof.
  intros [_ H] N. destruct (H N) as (q & -> & Hq & Hm). split.
  - intros q' x E Hx Hl. injection E as <-. specialize (Hm x Hx). lra.
  - intros Ha. exists q. split; [reflexivity|]. apply Ha. exact Hq.
Qed.
Print Assumptions C19_sentinel.

(** The maximum file carries a second band that is zero everywhere, although a
    single band is announced. *)
Theorem C19_second_band_zero {G} stats_ok (f f' : rstore G) path tile nx ny geo bs v :
  f (m3_path path tile) = Some (Raster geo bs) ->
  Forall2 (fun d b => is_band b (dir_str d) nx ny (v d)) band_dirs bs ->
  process_max_tile stats_ok path tile f = Ok f' ->
  exists b1 b2, f' (m3max_path path tile) = Some (Raster geo [b1; b2]) /\
    g_rows (b_data b2) = ny /\ g_cols (b_data b2) = nx /\ forall r c, g_at (b_data b2) r c = Num 0.
Proof.
  intros Hf Hb. unfold process_max_tile. rewrite (m3max_eq stats_ok f path tile nx ny geo bs v Hf Hb).
  destruct (stats_ok _); cbn [bind]; [|discriminate]. intros E. injection E as <-. eexists; eexists.
  split; [unfold rput; destruct (list_eq_dec _ _ _); [reflexivity|contradiction]|]. cbn. auto.
Qed.
Print Assumptions C19_second_band_zero.

(** ** Concrete case: a tile of 1 row and 2 columns, one pixel missing in one
    file; statistics as specified. *)
Section Ex.
  Definition ex_val (ty : mtype) (d : dir) (r c : Z) : num :=
    match ty, d, c with
    | Terrain, NE, 0 => NaN
    | Terrain, _, _ => Num (3 # 4) | Shielding, _, _ => Num (9 # 10)
    | Topographic, W_, _ => Num (3 # 2) | Topographic, _, _ => Num 1 end.
  Definition ex_files : rstore Z := files_of ex_val 2 1.
  Definition ex_stats (g : grid num) : bool :=
    existsb (fun r => existsb (fun c => match g_at g r c with Num _ => true | NaN => false end) (zrange (g_cols g))) (zrange (g_rows g)).

  Example C16_ex_stats : stats_spec ex_stats.
  Proof.
    intros g. unfold ex_stats, has_number, in_grid. rewrite existsb_exists. split.
    - intros (r & Hr & H). apply existsb_exists in H. destruct H as (c & Hc & H). apply in_zrange in Hr, Hc.
      destruct (g_at g r c) as [|q] eqn:E; [discriminate|]. exists r, c, q. auto.
    - intros (r & c & q & [Hr Hc] & E). exists r. split; [apply in_zrange; exact Hr|]. apply existsb_exists. exists c.
      split; [apply in_zrange; exact Hc|]. rewrite E. reflexivity.
  Qed.
  Example C16_ex_files : (forall ty d, holds ex_files (convert_nc (lit "out") (lit "t") ty d) 2 1 (ex_val ty d)) /\
    (forall d, exists r c q, 0 <= r < 1 /\ 0 <= c < 2 /\
       product3 Qmult (ex_val Shielding d r c) (ex_val Terrain d r c) (ex_val Topographic d r c) = Num q).
  Proof.
    split.
    - intros ty d. exists (Raster 7 [Band [] (Grid 1 2 (ex_val ty d))]), (Band [] (Grid 1 2 (ex_val ty d))), [].
      split; [destruct ty, d; vm_compute; reflexivity|]. repeat split; reflexivity.
    - intros d. exists 0, 1. destruct d; eexists; (split; [lia|]; split; [lia|reflexivity]).
  Qed.
  Example C16_ex_value : exists f' bs, process_tile Qmult ex_stats (lit "out") (lit "t") ex_files = Ok f' /\
    f' (lit "out/M3/t.tif") = Some (Raster 7 bs) /\
    map (fun b => glist (b_data b)) (firstn 3 bs) =
      [[[Num (27 # 40); Num (27 # 40)]]; [[Num (27 # 40); Num (27 # 40)]]; [[NaN; Num (27 # 40)]]].
  Proof. eexists; eexists. split; [vm_compute; reflexivity|]. split; vm_compute; reflexivity. Qed.
End Ex.
