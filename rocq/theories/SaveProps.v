(** * Theorems about the metadata of multiplier files (C72). *)
From Coq Require Import Ascii String.
From Verif Require Import Base BaseLemmas PyStr NameModel NameProofs NcModel NcSpec NcProofs NcProps SaveModel SaveSpec SaveProofs.
Open Scope Z_scope.

Section Ok.
  Variable cast : string -> num -> num.
  Variables (e : env) (name what git terrain dem : string) (values : grid num) (lat lon : list num) (nc_name cwd : str).
  Hypothesis Hname : In (name, what) multipliers.
  Hypothesis Hgit : e_git e = Ok git.
  Hypothesis Hter : e_terrain e = Ok terrain.
  Hypothesis Hdem : e_dem e = Ok dem.
  Hypothesis Hlat : zlen lat = g_rows values.
  Hypothesis Hlon : zlen lon = g_cols values.
  Hypothesis Hr : 0 < g_rows values.
  Hypothesis Hc : 0 < g_cols values.
  Hypothesis Flat : Forall is_q lat.
  Hypothesis Flon : Forall is_q lon.

  Lemma long_of : long_name name = Some what /\ name <> "lat"%string /\ name <> "lon"%string /\ name <> "crs"%string.
  Proof. destruct Hname as [E|[E|[E|[]]]]; injection E as <- <-; repeat split; discriminate. Qed.

  Lemma run_ok : exists a b c d lo hi,
    range_of (fun q => In (Num q) lat) a b /\ range_of (fun q => In (Num q) lon) c d /\
    np_nanextreme np_minimum (cells values) = Ok lo /\ np_nanextreme np_maximum (cells values) = Ok hi /\
    save_multiplier_file cast e name values lat lon nc_name cwd =
      let r := save_multiplier cast name values lat lon (lat_atts (Num a) (Num b)) (lon_atts (Num c) (Num d)) (mult_atts name lo hi) crs_atts
                 (global_atts e what (string_of_list_ascii (nc_direction nc_name)) git terrain dem) in
      Outcome (Some (fst r)) (snd r) cwd.
  Proof.
    destruct (extremes lat) as (a & b & A & B & R); [intros E; rewrite E in Hlat; unfold zlen in Hlat; cbn in Hlat; lia|exact Flat|].
    destruct (extremes lon) as (c & d & C & D & R'); [intros E; rewrite E in Hlon; unfold zlen in Hlon; cbn in Hlon; lia|exact Flon|].
    assert (X : exists lo hi, np_nanextreme np_minimum (cells values) = Ok lo /\ np_nanextreme np_maximum (cells values) = Ok hi).
    { pose proof (cells_nonempty values Hr Hc) as N. destruct (cells values) as [|y l]; [congruence|]. unfold np_nanextreme. destruct (filter _ _); do 2 eexists; split; reflexivity. }
    destruct X as (lo & hi & L & H). exists a, b, c, d, lo, hi. do 4 (split; [assumption|]).
    unfold save_multiplier_file. rewrite Hter, Hdem, Hgit, (proj1 long_of), A, B, C, D, L, H. reflexivity.
  Qed.
End Ok.

(** A successful call: what the texts say, where the ranges come from, and the working
    directory as before. *)
Theorem C72_metadata : forall cast e name what git terrain dem values lat lon p d cwd,
  In (name, what) multipliers -> e_git e = Ok git -> e_terrain e = Ok terrain -> e_dem e = Ok dem ->
  zlen lat = g_rows values -> zlen lon = g_cols values -> 0 < g_rows values -> 0 < g_cols values ->
  Forall (fun x => exists q, x = Num q) lat -> Forall (fun x => exists q, x = Num q) lon ->
  exists f, save_multiplier_file cast e name values lat lon (p ++ lit "_" ++ dir_str d ++ lit ".nc") cwd = Outcome (Some f) None cwd /\ nf_open f = false /\
    map nv_name (nf_vars f) = ["lat"%string; "lon"%string; name] /\
    att (nf_atts f) "title" = Some (AText (name ++ " multiplier")) /\
    att (nf_atts f) "Abstract" = Some (AText ("This dataset is the local " ++ what ++ " for each grid cell in " ++ string_of_list_ascii (dir_str d) ++ " direction for this tile")) /\
    att (nf_atts f) "Inputs" = Some (AText ("terrain data: " ++ terrain ++ ", dem data: " ++ dem)) /\
    att (nf_atts f) "Conventions" = Some (AText "CF-1.6") /\
    (~ In "Git_version"%string (map fst (conf_keys (e_sections e))) -> att (nf_atts f) "Git_version" = Some (AText git)) /\
    (~ In "Created_on"%string (map fst (conf_keys (e_sections e))) -> att (nf_atts f) "Created_on" = Some (AText (e_now e))) /\
    (~ In "Created_by"%string (map fst (conf_keys (e_sections e))) -> att (nf_atts f) "Created_by" = Some (AText (e_user e))) /\
    (NoDup (map fst (conf_keys (e_sections e))) -> forall k v, In (k, v) (conf_keys (e_sections e)) -> att (nf_atts f) k = Some (AText v)) /\
    (exists w lo hi, In w (nf_vars f) /\ nv_name w = "lat"%string /\ att (nv_atts w) "units" = Some (AText "degrees_north") /\
       att (nv_atts w) "actual_range" = Some (ANums [Num lo; Num hi]) /\ range_of (fun q => In (Num q) lat) lo hi) /\
    (exists w lo hi, In w (nf_vars f) /\ nv_name w = "lon"%string /\ att (nv_atts w) "units" = Some (AText "degrees_east") /\
       att (nv_atts w) "actual_range" = Some (ANums [Num lo; Num hi]) /\ range_of (fun q => In (Num q) lon) lo hi) /\
    (exists w, In w (nf_vars f) /\ nv_name w = name /\
       let value q := exists r c, 0 <= r < g_rows values /\ 0 <= c < g_cols values /\ g_at values r c = Num q in
       ((exists q, value q) -> exists lo hi, att (nv_atts w) "actual_range" = Some (ANums [Num lo; Num hi]) /\ range_of value lo hi) /\
       ((forall q, ~ value q) -> att (nv_atts w) "actual_range" = Some (ANums [NaN; NaN]))).
Proof.
  intros cast e name what git terrain dem values lat lon p d cwd Hname Hgit Hter Hdem Hlat Hlon Hr Hc Flat Flon.
  destruct (run_ok cast e name what git terrain dem values lat lon (p ++ lit "_" ++ dir_str d ++ lit ".nc") cwd Hname Hgit Hter Hdem Hlat Hlon Hr Hc Flat Flon) as (a & b & c & d' & lo & hi & R1 & R2 & L & H & E).
  rewrite nc_direction_ok in E. set (ga := global_atts e what (string_of_list_ascii (dir_str d)) git terrain dem) in *. destruct (long_of name what Hname) as (_ & N1 & N2 & N3).
  destruct (C46_multiplier_file cast name values lat lon (lat_atts (Num a) (Num b)) (lon_atts (Num c) (Num d')) (mult_atts name lo hi) crs_atts ga N1 N2 N3 Hlat Hlon) as (f & S & O & _ & Nm & _ & Ga & (w1 & W1 & W1n & _ & W1a & _) & (w2 & W2 & W2n & _ & W2a & _) & w3 & W3 & W3n & _ & W3a & _).
  rewrite S in E. cbv zeta in E. cbn [fst snd] in E. exists f. split; [exact E|]. split; [exact O|]. split; [exact Nm|]. rewrite Ga.
  assert (T : forall k, k <> "title"%string -> att (ga ++ [("title"%string, AText (name ++ " multiplier")%string)]) k = att ga k).
  { intros k Hk. rewrite att_app. cbn [att]. destruct (String.eqb_spec "title" k); [congruence|reflexivity]. }
  assert (U : forall k, ~ In k (map fst (conf_keys (e_sections e))) -> att ga k = att (fixed_atts e what (string_of_list_ascii (dir_str d)) git terrain dem) k).
  { intros k Hk. unfold ga, global_atts. rewrite sections_put. apply put_all_other; [exact Hk|apply fixed_nodup]. }
  split; [rewrite att_app; reflexivity|].
  split; [rewrite T by discriminate; unfold ga; rewrite global_plain by reflexivity; reflexivity|].
  split; [rewrite T by discriminate; unfold ga; rewrite global_plain by reflexivity; reflexivity|].
  split; [rewrite T by discriminate; unfold ga; rewrite global_plain by reflexivity; reflexivity|].
  split; [intros K; rewrite T, U by (discriminate || exact K); reflexivity|].
  split; [intros K; rewrite T, U by (discriminate || exact K); reflexivity|].
  split; [intros K; rewrite T, U by (discriminate || exact K); reflexivity|].
  split; [|split; [|split]].
  - intros Nd k v Hkv. assert (Hk : underscored k = true) by (apply (conf_underscored (e_sections e)), (in_map fst) in Hkv || (apply (conf_underscored (e_sections e)); apply (in_map fst) in Hkv; exact Hkv)).
    rewrite T by (intros ->; discriminate). unfold ga, global_atts. rewrite sections_put. apply put_all_in; [exact Nd|exact Hkv|apply fixed_nodup].
  - exists w1, a, b. rewrite W1a. auto.
  - exists w2, c, d'. rewrite W2a. auto.
  - exists w3. split; [exact W3|]. split; [exact W3n|]. rewrite W3a. pose proof (cells_nonempty values Hr Hc) as NC. cbv zeta. split.
    + intros [q Hq]. destruct (nanextremes (cells values) NC) as (lo' & hi' & L' & H' & B1 & B2 & B3); [exists q; apply cells_in; exact Hq|]. rewrite L in L'. rewrite H in H'. injection L' as ->. injection H' as ->.
      exists lo', hi'. split; [reflexivity|]. split; [apply cells_in; exact B1|]. split; [apply cells_in; exact B2|]. intros q' H'. apply B3, cells_in, H'.
    + intros Hn. assert (Hn' : forall q, ~ In (Num q) (cells values)) by (intros q C; apply cells_in in C; exact (Hn q C)).
      rewrite (nanextremes_none _ _ NC Hn') in L. rewrite (nanextremes_none _ _ NC Hn') in H. injection L as <-. injection H as <-. reflexivity.
Qed.
Print Assumptions C72_metadata.

(** The descriptions of the variables, complete, and the fixed texts of the file. *)
Theorem C72_descriptions : forall cast e name what git terrain dem values lat lon p d cwd,
  In (name, what) multipliers -> e_git e = Ok git -> e_terrain e = Ok terrain -> e_dem e = Ok dem ->
  zlen lat = g_rows values -> zlen lon = g_cols values -> 0 < g_rows values -> 0 < g_cols values ->
  Forall (fun x => exists q, x = Num q) lat -> Forall (fun x => exists q, x = Num q) lon ->
  exists f, save_multiplier_file cast e name values lat lon (p ++ lit "_" ++ dir_str d ++ lit ".nc") cwd = Outcome (Some f) None cwd /\
    (exists w, In w (nf_vars f) /\ nv_name w = "lat"%string /\ map fst (nv_atts w) = ["long_name"; "standard_name"; "units"; "actual_range"; "axis"]%string /\
       att (nv_atts w) "long_name" = Some (AText "Latitude") /\ att (nv_atts w) "standard_name" = Some (AText "latitude") /\ att (nv_atts w) "axis" = Some (AText "Y")) /\
    (exists w, In w (nf_vars f) /\ nv_name w = "lon"%string /\ map fst (nv_atts w) = ["long_name"; "standard_name"; "units"; "actual_range"; "axis"]%string /\
       att (nv_atts w) "long_name" = Some (AText "Longitude") /\ att (nv_atts w) "standard_name" = Some (AText "longitude") /\ att (nv_atts w) "axis" = Some (AText "X")) /\
    (exists w, In w (nf_vars f) /\ nv_name w = name /\ map fst (nv_atts w) = ["long_name"; "actual_range"; "grid_mapping"]%string /\
       att (nv_atts w) "long_name" = Some (AText (name ++ " multiplier values for each grid"))) /\
    att (nf_atts f) "Custodian" = Some (AText "Geoscience Australia") /\
    att (nf_atts f) "Lineage" = Some (AText "Methodology is based on the reference: Yang, T., Nadimpalli, K. & Cechet, R.P. 2014. Local wind assessment in Australia: computation methodology for wind multipliers. Record 2014/33. Geoscience Australia, Canberra.") /\
    (~ In "Python_version"%string (map fst (conf_keys (e_sections e))) -> att (nf_atts f) "Python_version" = Some (AText (e_python e))) /\
    (~ In "Wind_multipler_code_version"%string (map fst (conf_keys (e_sections e))) -> att (nf_atts f) "Wind_multipler_code_version" = Some (AText (e_version e))).
Proof.
  intros cast e name what git terrain dem values lat lon p d cwd Hname Hgit Hter Hdem Hlat Hlon Hr Hc Flat Flon.
  destruct (run_ok cast e name what git terrain dem values lat lon (p ++ lit "_" ++ dir_str d ++ lit ".nc") cwd Hname Hgit Hter Hdem Hlat Hlon Hr Hc Flat Flon) as (a & b & c & d' & lo & hi & R1 & R2 & L & H & E).
  rewrite nc_direction_ok in E. set (ga := global_atts e what (string_of_list_ascii (dir_str d)) git terrain dem) in *. destruct (long_of name what Hname) as (_ & N1 & N2 & N3).
  destruct (C46_multiplier_file cast name values lat lon (lat_atts (Num a) (Num b)) (lon_atts (Num c) (Num d')) (mult_atts name lo hi) crs_atts ga N1 N2 N3 Hlat Hlon) as (f & S & O & _ & Nm & _ & Ga & (w1 & W1 & W1n & _ & W1a & _) & (w2 & W2 & W2n & _ & W2a & _) & w3 & W3 & W3n & _ & W3a & _).
  rewrite S in E. cbv zeta in E. cbn [fst snd] in E. exists f. split; [exact E|]. rewrite Ga.
  assert (T : forall k, k <> "title"%string -> att (ga ++ [("title"%string, AText (name ++ " multiplier")%string)]) k = att ga k).
  { intros k Hk. rewrite att_app. cbn [att]. destruct (String.eqb_spec "title" k); [congruence|reflexivity]. }
  assert (U : forall k, ~ In k (map fst (conf_keys (e_sections e))) -> att ga k = att (fixed_atts e what (string_of_list_ascii (dir_str d)) git terrain dem) k).
  { intros k Hk. unfold ga, global_atts. rewrite sections_put. apply put_all_other; [exact Hk|apply fixed_nodup]. }
  split. { exists w1. rewrite W1a. repeat split; assumption || reflexivity. }
  split. { exists w2. rewrite W2a. repeat split; assumption || reflexivity. }
  split. { exists w3. rewrite W3a. repeat split; assumption || reflexivity. }
  split; [rewrite T by discriminate; unfold ga; rewrite global_plain by reflexivity; reflexivity|].
  split; [rewrite T by discriminate; unfold ga; rewrite global_plain by reflexivity; reflexivity|].
  split; [intros K; rewrite T, U by (discriminate || exact K); reflexivity|].
  intros K; rewrite T, U by (discriminate || exact K); reflexivity.
Qed.
Print Assumptions C72_descriptions.

(** Calls that fail write nothing; they leave the working directory alone except when git
    fails. *)
Theorem C72_failures : forall cast e name values lat lon nc_name cwd,
  let o := save_multiplier_file cast e name values lat lon nc_name cwd in
  (forall x, e_terrain e = Err x -> o = Outcome None (Some x) cwd) /\
  (forall t x, e_terrain e = Ok t -> e_dem e = Err x -> o = Outcome None (Some x) cwd) /\
  (forall t d g, e_terrain e = Ok t -> e_dem e = Ok d -> e_git e = Ok g -> ~ In name (map fst multipliers) -> o = Outcome None (Some KeyError) cwd) /\
  (forall t d g, e_terrain e = Ok t -> e_dem e = Ok d -> e_git e = Ok g -> In name (map fst multipliers) ->
     lat = [] \/ lon = [] \/ g_rows values <= 0 \/ g_cols values <= 0 -> o = Outcome None (Some ValueError) cwd).
Proof.
  intros cast e name values lat lon nc_name cwd o. unfold o, save_multiplier_file. split; [|split; [|split]].
  - intros x ->. reflexivity.
  - intros t x -> ->. reflexivity.
  - intros t d g -> -> -> H. assert (E : long_name name = None).
    { unfold long_name. destruct (String.eqb_spec name "Mz") as [->|]; [exfalso; apply H; left; reflexivity|]. destruct (String.eqb_spec name "Ms") as [->|]; [exfalso; apply H; right; left; reflexivity|].
      destruct (String.eqb_spec name "Mt") as [->|]; [exfalso; apply H; right; right; left; reflexivity|reflexivity]. }
    rewrite E. reflexivity.
  - intros t d g -> -> -> H Z. assert (E : exists w, long_name name = Some w) by (destruct H as [<-|[<-|[<-|[]]]]; eexists; reflexivity). destruct E as (w & ->).
    assert (X : lat = [] \/ lon = [] \/ cells values = []).
    { destruct Z as [Z|[Z|Z]]; auto. right. right. destruct (cells values) as [|x l] eqn:E; [reflexivity|]. exfalso. assert (I : In x (cells values)) by (rewrite E; left; reflexivity). apply cells_in in I. destruct I as (r & c & Hr & Hc & _). lia. }
    destruct lat as [|a lat]; [reflexivity|]. cbn [np_extreme bind]. destruct lon as [|b lon]; [reflexivity|]. cbn [np_extreme bind]. destruct X as [X|[X|X]]; try discriminate. rewrite X. reflexivity.
Qed.
Print Assumptions C72_failures.

(** If git fails, the process is left in the directory of the source code. *)
Theorem C72_git_refuted : forall cast e name values lat lon nc_name cwd t d x, e_terrain e = Ok t -> e_dem e = Ok d -> e_git e = Err x ->
  save_multiplier_file cast e name values lat lon nc_name cwd = Outcome None (Some x) (e_code_dir e).
Proof. intros. unfold save_multiplier_file. rewrite H, H0, H1. reflexivity. Qed.
Print Assumptions C72_git_refuted.

(** The configuration is not always recorded: two options can share a name in the file, and an
    option can take the place of a fixed entry. *)
Definition clash : env := Env (lit "/code") (Ok "v1"%string) (Ok "t"%string) (Ok "d"%string)
  [("a_b", [("c", "1")]); ("a", [("b_c", "2")]); ("Git", [("version", "mine")])]%string "3" "" "now" "me".
Theorem C72_config_refuted : exists f, save_multiplier_file (fun _ x => x) clash "Mz" (Grid 1 1 (fun _ _ => Num 1)) [Num 5] [Num 6] (lit "o/t_mz_n.nc") (lit "/w") = Outcome (Some f) None (lit "/w") /\
  att (nf_atts f) "a_b_c" = Some (AText "2") /\ att (nf_atts f) "Git_version" = Some (AText "mine").
Proof. eexists. split; [vm_compute; reflexivity|]. split; reflexivity. Qed.
Print Assumptions C72_config_refuted.

(** The multiplier refers to a description of the coordinate system which is not in the file. *)
Theorem C72_grid_mapping_refuted : forall cast e name what git terrain dem values lat lon nc_name cwd,
  In (name, what) multipliers -> e_git e = Ok git -> e_terrain e = Ok terrain -> e_dem e = Ok dem ->
  zlen lat = g_rows values -> zlen lon = g_cols values -> 0 < g_rows values -> 0 < g_cols values ->
  Forall (fun x => exists q, x = Num q) lat -> Forall (fun x => exists q, x = Num q) lon ->
  exists f w v, save_multiplier_file cast e name values lat lon nc_name cwd = Outcome (Some f) None cwd /\ In w (nf_vars f) /\ nv_name w = name /\
    att (nv_atts w) "grid_mapping" = Some (AText v) /\ ~ In v (map nv_name (nf_vars f)).
Proof.
  intros cast e name what git terrain dem values lat lon nc_name cwd Hname Hgit Hter Hdem Hlat Hlon Hr Hc Flat Flon.
  destruct (run_ok cast e name what git terrain dem values lat lon nc_name cwd Hname Hgit Hter Hdem Hlat Hlon Hr Hc Flat Flon) as (a & b & c & d' & lo & hi & _ & _ & _ & _ & E).
  destruct (long_of name what Hname) as (_ & N1 & N2 & N3).
  destruct (C46_multiplier_file cast name values lat lon (lat_atts (Num a) (Num b)) (lon_atts (Num c) (Num d')) (mult_atts name lo hi) crs_atts (global_atts e what (string_of_list_ascii (nc_direction nc_name)) git terrain dem) N1 N2 N3 Hlat Hlon) as (f & S & O & _ & Nm & _ & Ga & _ & _ & w3 & W3 & W3n & _ & W3a & _).
  rewrite S in E. exists f, w3, "WGS-1984"%string. split; [exact E|]. split; [exact W3|]. split; [exact W3n|]. rewrite W3a. split; [reflexivity|]. rewrite Nm.
  destruct Hname as [K|[K|[K|[]]]]; injection K as <- <-; cbn [In]; intuition discriminate.
Qed.
Print Assumptions C72_grid_mapping_refuted.

Definition sample : env := Env (lit "/code") (Ok "v1"%string) (Ok "t.tif"%string) (Ok "d.tif"%string) [("inputValues", [("dem_data", "d.tif")])]%string "3" "" "now" "me".
Example C72_example : exists f, save_multiplier_file (fun _ x => x) sample "Mz" (Grid 1 2 (fun _ c => if c =? 0 then NaN else Num 1)) [Num 5] [Num 6; Num 7] (lit "o/t_mz_n.nc") (lit "/w") = Outcome (Some f) None (lit "/w") /\
  att (nf_atts f) "inputValues_dem_data" = Some (AText "d.tif") /\ NoDup (map fst (conf_keys (e_sections sample))).
Proof. eexists. split; [vm_compute; reflexivity|]. split; [reflexivity|]. repeat constructor. intros []. Qed.
