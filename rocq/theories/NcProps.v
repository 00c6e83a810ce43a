(** * Theorems about netCDF output (C46, C47). *)
From Coq Require Import Ascii String.
From Verif Require Import Base PyStr BaseLemmas NcModel NcSpec NcProofs.
Open Scope Z_scope.

(** ** C46: what reaches the file.  Only the first variable does. *)
Theorem C46_first_variable cast dims v rest nodata t ga wd keep : good_dims dims -> good_var wd dims v ->
  exists f, nc_save_grid cast dims (v :: rest) nodata t ga wd keep = (f, None) /\ nf_open f = keep /\
    nf_dims f = map (fun d => (dim_name d, dim_len d)) dims /\
    map nv_name (nf_vars f) = map dim_name dims ++ [var_name v] /\
    nf_atts f = ga ++ match t with Some s => [("title"%string, AText s)] | None => [] end /\
    (forall d, In d dims -> exists w, In w (nf_vars f) /\ nv_name w = dim_name d /\ nv_dims w = [dim_name d] /\ nv_atts w = list_or (dr_atts d) /\
       forall i, 0 <= i < dim_len d -> nv_at w [i] = cast (str_or (dr_dtype d)) (nth (Z.to_nat i) (list_or (dr_values d)) NaN)) /\
    (exists w, In w (nf_vars f) /\ nv_name w = var_name v /\ nv_dims w = var_dims v /\ nv_atts w = list_or (vr_atts v) /\
       Forall2 (declared dims) (var_dims v) (nv_shape w) /\
       forall ix, in_shape (nv_shape w) ix ->
         match var_array v with
         | Some x => if wd then a_shape x = nv_shape w -> nv_at w ix = cast (str_or (vr_dtype v)) (a_at x ix) else nv_at w ix = Num nodata
         | None => nv_at w ix = Num nodata
         end).
Proof.
  intros G V. destruct (save_grid_ok cast dims v rest nodata t ga wd keep G V) as (shp & w & F & S & E). eexists. split; [exact E|]. unfold saved. cbn [nf_open nf_dims nf_vars].
  destruct S as (S1 & S2 & S3 & S4 & S5). split; [reflexivity|]. split; [reflexivity|]. split; [|split; [reflexivity|split]].
  - rewrite map_app, map_map. cbn [map]. rewrite S1. reflexivity.
  - intros d Hd. exists (coord cast d). split; [apply in_app_iff; left; apply in_map; exact Hd|]. do 3 (split; [reflexivity|]).
    intros i Hi. cbn [coord nv_at squeeze hd]. destruct (Z.eqb_spec (dim_len d) 1) as [K|K]; [|reflexivity]. assert (i = 0) as -> by lia. reflexivity.
  - exists w. split; [apply in_app_iff; right; left; reflexivity|]. split; [exact S1|]. split; [exact S2|]. split; [exact S4|]. rewrite S3. cbn [stored nv_shape]. split; [exact F|].
    intros ix Hix. rewrite S5. cbn [stored nv_at]. destruct (var_array v) as [x|]; [|reflexivity]. destruct wd; [|reflexivity]. intros Ex. rewrite squeeze_in by (rewrite Ex; exact Hix). reflexivity.
Qed.
Print Assumptions C46_first_variable.
(** Refutation of "all variables": none of the others is written. *)
Theorem C46_others_dropped_refuted cast dims v rest nodata t ga wd keep u : good_dims dims -> good_var wd dims v ->
  In u rest -> var_name u <> var_name v -> ~ In (var_name u) (map dim_name dims) ->
  exists f, nc_save_grid cast dims (v :: rest) nodata t ga wd keep = (f, None) /\ ~ In (var_name u) (map nv_name (nf_vars f)).
Proof.
  intros G V Hu N1 N2. destruct (C46_first_variable cast dims v rest nodata t ga wd keep G V) as (f & E & _ & _ & Nm & _). exists f. split; [exact E|].
  rewrite Nm, in_app_iff. cbn [In]. intros [K|[K|[]]]; [exact (N2 K)|congruence].
Qed.
Print Assumptions C46_others_dropped_refuted.
(** With exactly one variable everything asked for is there. *)
Theorem C46_single cast dims v nodata t ga wd keep : good_dims dims -> good_var wd dims v ->
  exists f, nc_save_grid cast dims [v] nodata t ga wd keep = (f, None) /\
    (forall u, In u [v] -> In (var_name u) (map nv_name (nf_vars f))) /\ (forall d, In d dims -> In (dim_name d) (map nv_name (nf_vars f))) /\
    nf_atts f = ga ++ match t with Some s => [("title"%string, AText s)] | None => [] end.
Proof.
  intros G V. destruct (save_grid_ok cast dims v [] nodata t ga wd keep G V) as (shp & w & F & S & E). exists (saved cast wd keep nodata t ga dims v w). split; [exact E|].
  unfold saved. cbn [nf_vars nf_atts]. rewrite map_app, map_map. cbn [map]. destruct S as (S1 & _). rewrite S1. split; [|split; [|reflexivity]].
  - intros u [<-|[]]. apply in_app_iff. right. left. reflexivity.
  - intros d Hd. apply in_app_iff. left. apply (in_map dim_name). exact Hd.
Qed.
Print Assumptions C46_single.
(** The multiplier files: coordinates and the multiplier cell by cell, but no
    coordinate reference system. *)
Theorem C46_multiplier_file cast name values lat lon latts lonatts matts catts gatts :
  name <> "lat"%string -> name <> "lon"%string -> name <> "crs"%string -> zlen lat = g_rows values -> zlen lon = g_cols values ->
  exists f, save_multiplier cast name values lat lon latts lonatts matts catts gatts = (f, None) /\ nf_open f = false /\
    nf_dims f = [("lat"%string, g_rows values); ("lon"%string, g_cols values)] /\
    map nv_name (nf_vars f) = ["lat"%string; "lon"%string; name] /\ ~ In "crs"%string (map nv_name (nf_vars f)) /\
    nf_atts f = gatts ++ [("title"%string, AText (name ++ " multiplier")%string)] /\
    (exists w, In w (nf_vars f) /\ nv_name w = "lat"%string /\ nv_dims w = ["lat"%string] /\ nv_atts w = latts /\
      forall i, 0 <= i < g_rows values -> nv_at w [i] = cast "d"%string (nth (Z.to_nat i) lat NaN)) /\
    (exists w, In w (nf_vars f) /\ nv_name w = "lon"%string /\ nv_dims w = ["lon"%string] /\ nv_atts w = lonatts /\
      forall i, 0 <= i < g_cols values -> nv_at w [i] = cast "d"%string (nth (Z.to_nat i) lon NaN)) /\
    exists w, In w (nf_vars f) /\ nv_name w = name /\ nv_dims w = ["lat"%string; "lon"%string] /\ nv_atts w = matts /\
      forall r c, 0 <= r < g_rows values -> 0 <= c < g_cols values -> nv_at w [r; c] = cast "f"%string (g_at values r c).
Proof.
  intros N1 N2 N3 L1 L2. unfold save_multiplier. set (rq := save_multiplier_request name values lat lon latts lonatts matts catts).
  set (v := VarReq (Some name) (Some (Some (Arr [g_rows values; g_cols values] (fun ix => g_at values (nth 0 ix 0) (nth 1 ix 0))))) (Some "f"%string) (Some ["lat"%string; "lon"%string]) (Some matts)).
  assert (G : good_dims (fst rq)).
  { split; [repeat constructor; discriminate|]. cbn. repeat constructor; cbn; intuition discriminate. }
  assert (D1 : declared (fst rq) "lat"%string (g_rows values)) by (eexists; split; [left; reflexivity|]; split; [reflexivity|exact L1]).
  assert (D2 : declared (fst rq) "lon"%string (g_cols values)) by (eexists; split; [right; left; reflexivity|]; split; [reflexivity|exact L2]).
  assert (V : good_var true (fst rq) v).
  { split; [repeat split; discriminate|]. split; [cbn; intros [K|[K|[]]]; cbn in *; congruence|]. split; [intros x Hx; exact Hx|]. cbn [var_array vr_values v]. split; [reflexivity|].
    intros _. cbn [a_shape var_dims vr_dims v list_or]. constructor; [exists (g_rows values); auto|]. constructor; [exists (g_cols values); auto|constructor]. }
  destruct (C46_first_variable cast (fst rq) v [VarReq (Some "crs"%string) (Some None) (Some "i"%string) (Some []) (Some catts)] (-9999) (Some (name ++ " multiplier")%string) gatts true false G V)
    as (f & E & O & Dm & Nm & Ga & Cs & w & W1 & W2 & W3 & W4 & W5 & W6).
  exists f. split; [exact E|]. split; [exact O|]. split; [rewrite Dm; cbn; unfold dim_len; cbn [dr_values list_or]; rewrite L1, L2; reflexivity|].
  cbn in Nm. unfold dim_name, var_name in Nm. cbn in Nm. split; [exact Nm|]. split; [rewrite Nm; cbn; intuition congruence|].
  split; [exact Ga|]. split; [|split].
  { destruct (Cs _ (or_introl eq_refl)) as (x & X1 & X2 & X3 & X4 & X5). exists x. do 4 (split; [assumption|]). intros i Hi. apply X5. unfold dim_len. cbn [dr_values list_or]. lia. }
  { destruct (Cs _ (or_intror (or_introl eq_refl))) as (x & X1 & X2 & X3 & X4 & X5). exists x. do 4 (split; [assumption|]). intros i Hi. apply X5. unfold dim_len. cbn [dr_values list_or]. lia. }
  exists w. split; [exact W1|]. split; [exact W2|]. split; [exact W3|]. split; [exact W4|]. intros r c Hr Hc. 
  assert (Sh : nv_shape w = [g_rows values; g_cols values]).
  { cbn [var_dims vr_dims v list_or] in W5. inversion W5 as [|? z ? zs Q1 F1]; subst. inversion F1 as [|? z' ? zs' Q2 F2]; subst. inversion F2; subst.
    rewrite (declared_fun cast (fst rq) "lat"%string z (g_rows values) G Q1 D1), (declared_fun cast (fst rq) "lon"%string z' (g_cols values) G Q2 D2). reflexivity. }
  specialize (W6 [r; c]). rewrite Sh in W6. specialize (W6 ltac:(repeat constructor; lia)). cbn [var_array vr_values v vr_dtype str_or a_shape a_at] in W6. exact (W6 eq_refl).
Qed.
Print Assumptions C46_multiplier_file.
Example C46_ex : let f := fst (save_multiplier (fun _ x => x) "Mz" (Grid 2 3 (fun r c => Num (inject_Z (10 * r + c)))) [Num 1; Num 2] [Num 5; Num 6; Num 7] [] [] [] [] []) in
  map nv_name (nf_vars f) = ["lat"; "lon"; "Mz"]%string /\ match nf_vars f with [_; _; w] => nv_at w [1; 2] = Num 12 | _ => False end.
Proof. split; reflexivity. Qed.

(** ** C47: which requests are accepted. *)
Theorem C47_accepted_iff cast dims vars nodata t ga wd keep :
  snd (nc_save_grid cast dims vars nodata t ga wd keep) = None <->
  good_dims dims /\ match vars with [] => True | v :: _ => good_var wd dims v end.
Proof. exact (save_grid_iff cast dims vars nodata t ga wd keep). Qed.
Print Assumptions C47_accepted_iff.
(** A dimension with a missing key: KeyError, file closed. *)
Theorem C47_dimension_key cast ds1 d ds2 vars nodata t ga wd keep : good_dims ds1 -> ~ complete_dim d ->
  exists f, nc_save_grid cast (ds1 ++ d :: ds2) vars nodata t ga wd keep = (f, Some KeyError) /\ nf_open f = false.
Proof.
  intros G N. unfold nc_save_grid. rewrite save_dims_app, save_dims_ok by (try exact G; try apply new_consistent; apply new_fresh). unfold nc_then. cbn [fst snd save_dims].
  destruct d as [[n|] [v|] [ty|] [a|]]; try (eexists; split; reflexivity). exfalso. apply N. unfold complete_dim. cbn. repeat split; discriminate.
Qed.
Print Assumptions C47_dimension_key.
(** The same for the first variable. *)
Theorem C47_variable_key cast dims v rest nodata t ga wd keep : good_dims dims -> ~ complete_var v ->
  exists f, nc_save_grid cast dims (v :: rest) nodata t ga wd keep = (f, Some KeyError) /\ nf_open f = false.
Proof.
  intros G N. unfold nc_save_grid. rewrite save_dims_ok by (try exact G; try apply new_consistent; apply new_fresh). unfold nc_then. cbn [fst snd save_var].
  destruct v as [[n|] [vals|] [ty|] [vd|] [a|]]; try (eexists; split; reflexivity). exfalso. apply N. unfold complete_var. cbn. repeat split; discriminate.
Qed.
Print Assumptions C47_variable_key.
(** Wrong number of dimensions: ValueError, file closed. *)
Theorem C47_rank cast dims v rest nodata t ga wd keep x : good_dims dims -> complete_var v -> var_array v = Some x -> zlen (a_shape x) <> zlen (var_dims v) ->
  exists f, nc_save_grid cast dims (v :: rest) nodata t ga wd keep = (f, Some ValueError) /\ nf_open f = false.
Proof.
  intros G (A1 & A2 & A3 & A4 & A5) Ex N. unfold nc_save_grid. rewrite save_dims_ok by (try exact G; try apply new_consistent; apply new_fresh). unfold nc_then. cbn [fst snd save_var].
  destruct v as [[n|] [vals|] [ty|] [vd|] [a|]]; cbn in A1, A2, A3, A4, A5; try congruence. cbn in Ex. subst vals. cbn [save_var]. unfold var_dims in N. cbn [vr_dims list_or] in N.
  rewrite (proj2 (Z.eqb_neq (zlen vd) (zlen (a_shape x)))) by congruence. eexists. split; reflexivity.
Qed.
Print Assumptions C47_rank.
(** Right number of dimensions but wrong sizes: rejected as well, but the file
    stays open. *)
Theorem C47_shape_left_open cast dims v rest nodata t ga keep x : good_dims dims -> complete_var v -> var_array v = Some x ->
  ~ In (var_name v) (map dim_name dims) -> incl (var_dims v) (map dim_name dims) -> zlen (a_shape x) = zlen (var_dims v) ->
  ~ Forall2 (fun n s => exists size, declared dims s size /\ (n = size \/ n = 1)) (a_shape x) (var_dims v) ->
  exists f, nc_save_grid cast dims (v :: rest) nodata t ga true keep = (f, Some ValueError) /\ nf_open f = true.
Proof.
  intros G (A1 & A2 & A3 & A4 & A5) Ex N I L B. unfold nc_save_grid. rewrite save_dims_ok by (try exact G; try apply new_consistent; apply new_fresh). unfold nc_then at 1. cbn [fst snd save_var].
  destruct v as [[n|] [vals|] [ty|] [vd|] [a|]]; cbn in A1, A2, A3, A4, A5; try congruence. cbn in Ex. subst vals. cbn [save_var].
  cbn [var_name var_dims vr_name vr_dims str_or list_or] in *. rewrite (proj2 (Z.eqb_eq (zlen vd) (zlen (a_shape x)))) by congruence.
  change (ext cast nc_new dims) with (after cast dims). unfold create_variable.
  assert (Hv : has_var (after cast dims) n = false).
  { destruct (has_var (after cast dims) n) eqn:X; [|reflexivity]. apply has_var_iff in X; [|apply ext_consistent, new_consistent]. rewrite after_names in X. contradiction. }
  destruct (dim_sizes_spec cast dims vd G) as [D _]. destruct (D I) as (shp & E & F). rewrite Hv, E. unfold nc_then. cbn [fst snd]. unfold assign_all. cbn [nf_vars].
  rewrite find_new by (try exact Hv; cbn [nv_name]; apply String.eqb_refl). cbn [nv_shape a_shape].
  destruct (broadcastable (a_shape x) shp) eqn:Bc; [exfalso; apply B; apply (fits_iff cast dims (a_shape x) vd shp G F); exact Bc|]. cbn [fst snd]. eexists. split; reflexivity.
Qed.
Print Assumptions C47_shape_left_open.
(** Refutation: whatever is wrong with a second or later variable is not noticed. *)
Theorem C47_later_refuted cast dims v rest rest' nodata t ga wd keep :
  nc_save_grid cast dims (v :: rest) nodata t ga wd keep = nc_save_grid cast dims (v :: rest') nodata t ga wd keep.
Proof. reflexivity. Qed.
Print Assumptions C47_later_refuted.
(** And without variables the file is not closed and the global attributes are lost. *)
Theorem C47_no_variables cast dims nodata t ga wd keep : good_dims dims ->
  exists f, nc_save_grid cast dims [] nodata t ga wd keep = (f, None) /\ nf_open f = true /\ nf_atts f = [].
Proof. intros G. unfold nc_save_grid. rewrite save_dims_ok by (try exact G; try apply new_consistent; apply new_fresh). eexists. split; [reflexivity|]. split; reflexivity. Qed.
Print Assumptions C47_no_variables.
Example C47_ex : good_dims [DimReq (Some "x"%string) (Some [Num 1; Num 2]) (Some "d"%string) (Some [])] /\
  snd (nc_save_grid (fun _ x => x) [DimReq (Some "x"%string) (Some [Num 1; Num 2]) (Some "d"%string) (Some [])]
     [VarReq (Some "v"%string) (Some (Some (Arr [3] (fun _ => Num 0)))) (Some "f"%string) (Some ["x"%string]) (Some [])] 0 None [] true false) = Some ValueError.
Proof. split; [split; repeat constructor; cbn; try discriminate; intuition|reflexivity]. Qed.
