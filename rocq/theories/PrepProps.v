(** * C97: the preparation program, from its command line to its files. *)
From Coq Require Import Ascii String.
From Verif Require Import Base BaseLemmas PyStr UtilModel UtilSpec UtilProofs UtilProps IniModel IniSpec IniProps CmdModel CmdSpec CmdProofs
  PreModel PreSpec PreProps RastModel RastSpec ReprModel ReprProps RastProps PrepSpec PrepModel PrepProofs.
Open Scope Z_scope.

(** ** The command line *)
(** A line that cannot be read, or that names no configuration file, stops the
    program; whatever stops it has changed no file. *)
Theorem C97_rejected : forall G fl ge covers tr atof disk default argv (f : files G),
  (forall l c, line_says argv l -> last_file l None <> Some c) -> exists s, main fl ge covers tr atof disk default argv f = (f, Stopped s).
Proof.
  intros G fl ge covers tr atof disk default argv f N. unfold main, cmd_line. destruct (parse_args argv) as [[[c|] v]|s] eqn:P; [|exists Usage; reflexivity|exists s; reflexivity].
  apply parse_iff in P as (l & L & C & _). elim (N l c L). symmetry. exact C.
Qed.
Print Assumptions C97_rejected.
Theorem C97_stopped : forall G fl ge covers tr atof disk default argv (f f' : files G) s,
  main fl ge covers tr atof disk default argv f = (f', Stopped s) -> f' = f.
Proof.
  intros G fl ge covers tr atof disk default argv f f' s H. unfold main in H. destruct (cmd_line argv) as [c|x]; [|congruence].
  destruct (let* p := imported disk default in load_text disk c p) as [p|e]; [|congruence]. destruct (configured (p_conf p)) as [n|e]; [|discriminate].
  destruct (pre_process_files _ _ _ _ _ _ _ _) as [l|e]; [|discriminate]. cbv zeta in H. destruct (rasterize _ _ _ _ _ _ _); discriminate.
Qed.
Print Assumptions C97_stopped.
(** Only the last file named counts; being verbose changes nothing. *)
Theorem C97_last_file : forall G fl ge covers tr atof disk default argv argv' l l' (f : files G),
  line_says argv l -> line_says argv' l' -> last_file l None = last_file l' None ->
  main fl ge covers tr atof disk default argv f = main fl ge covers tr atof disk default argv' f.
Proof.
  intros G fl ge covers tr atof disk default argv argv' l l' f L L' C. destruct (parse_says argv l L) as (v & P & _). destruct (parse_says argv' l' L') as (v' & P' & _).
  unfold main, cmd_line. rewrite P, P', C. destruct (last_file l' None); reflexivity.
Qed.
Print Assumptions C97_last_file.
Theorem C97_help : forall G fl ge covers tr atof disk default ws l h rest (f : files G),
  line_says ws l -> asks_help h -> (forall x, In x rest -> ~ undecided x) ->
  main fl ge covers tr atof disk default (ws ++ h :: rest) f = (f, Stopped Help).
Proof. intros G fl ge covers tr atof disk default ws l h rest f L H R. unfold main, cmd_line. rewrite (help_line ws l h rest L H R). reflexivity. Qed.
Print Assumptions C97_help.

(** ** The files *)
(** The settings are those of the default file and of the named one, the latter
    first.  Either nothing is written and an exception raised; or the layer is
    written, and then the map on it, unless there is no elevation raster.  No
    other file changes. *)
Theorem C97_files : forall G fl ge covers tr atof disk default argv l c (f f' : files G) r,
  (forall n t, disk n = Some t -> ~ In return_ t) -> line_says argv l -> last_file l None = Some c ->
  main fl ge covers tr atof disk default argv f = (f', Went r) ->
  exists cf, reads disk [default; c] cf /\
    ((f' = f /\ exists e, r = Some e) \/
     exists n l, told cf n /\ with_file (f_vec f) (shapes n) l (f_vec f') /\
       ((f_ras f (elevation n) = None /\ f_ras f' = f_ras f /\ r = Some AttributeError) \/
        exists o, f_ras f (elevation n) <> None /\ with_file (f_ras f) (map_file n) o (f_ras f') /\ r = None)).
Proof.
  intros G fl ge covers tr atof disk default argv l c f f' r NR L C H. destruct (run_settings fl ge covers tr atof disk default argv l c f f' r NR L C H) as (cf & R & O).
  exists cf. split; [exact R|]. destruct O as [(_ & -> & ->)|(n & T & _ & O)]; [left; eauto|].
  destruct (pre_process_files _ _ _ _ _ _ _ _) as [la|e]; [|destruct O as [-> ->]; left; eauto]. cbv zeta in O. unfold rasterize in O. rewrite (proj1 (put_layer_with (f_vec f) (shapes n) la)) in O.
  right. exists n, la. split; [exact T|]. destruct (f_ras f (elevation n)) as [t|] eqn:Et; destruct O as [-> ->]; cbn [f_vec f_ras]; (split; [apply put_layer_with|]).
  - right. eexists. split; [discriminate|]. split; [apply put_with|reflexivity].
  - left. auto.
Qed.
Print Assumptions C97_files.

(** It succeeds when every setting and every file is there, the two fields are
    different and present, and no land-use polygon is degenerate. *)
Theorem C97_succeeds : forall G fl ge covers tr atof disk default argv l c (f f' : files G) r, tree_ok ge -> areas_ok ge ->
  (forall n t, disk n = Some t -> ~ In return_ t) -> line_says argv l -> last_file l None = Some c ->
  main fl ge covers tr atof disk default argv f = (f', Went r) ->
  exists cf, reads disk [default; c] cf /\
    ((forall n, ~ told cf n) -> r = Some KeyError) /\
    forall n, told cf n ->
      (forall m, told cf m -> m = n) /\
      (f_vec f (settlements n) = None \/ f_vec f (uses n) = None -> r = Some ValueError) /\
      forall sl ul d, f_vec f (settlements n) = Some sl -> f_vec f (uses n) = Some ul -> mask_of f (mask n) d -> settlement_field n <> use_field n ->
        (forall a g, In (a, Some g) (l_features sl) -> exists v, aget a (settlement_field n) = Ok v) ->
        (forall a g, In (a, Some g) (l_features ul) -> (exists v, aget a (use_field n) = Ok v) /\ ~ (g_area ge g == 0)%Q) ->
        (r = None <-> f_ras f (elevation n) <> None).
Proof.
  intros G fl ge covers tr atof disk default argv l c f f' r TO AO NR L C H. destruct (run_settings fl ge covers tr atof disk default argv l c f f' r NR L C H) as (cf & R & O).
  exists cf. split; [exact R|]. destruct O as [(N & -> & ->)|(n & T & U & O)]; [split; [reflexivity|]; intros n T; elim (N n T)|].
  split; [intros N; elim (N n T)|]. intros m Tm. rewrite (U m Tm) in *. clear m Tm. split; [exact U|]. unfold pre_process_files, open_layer in O. split.
  - intros M. destruct (f_vec f (settlements n)) as [sl|]; [|destruct O as [_ ->]; reflexivity]. destruct (f_vec f (uses n)) as [ul|]; [destruct M; discriminate|]. destruct O as [_ ->]. reflexivity.
  - intros sl ul d Es Eu Md Nf As Au. rewrite Es, Eu in O. cbn [bind] in O.
    assert (RD : forall (x : list (attrs * option G)) a g, In (a, g) (read x) -> In (a, Some g) x).
    { clear. induction x as [|[a' [g'|]] x IH]; cbn [read]; intros a g I; [destruct I| |right; exact (IH _ _ I)]. destruct I as [I|I]; [injection I as -> ->; left; reflexivity|right; exact (IH _ _ I)]. }
    assert (PP : forall dom, (forall m, dom = Some m -> read m <> []) -> exists out, pre_process fl ge (settlement_field n) (use_field n) (l_features sl) (l_features ul) dom = Ok out).
    { intros dom Hd. apply C67_succeeds; try assumption.
      - intros [a g] I. cbn [fst]. exact (As a g (RD _ _ _ I)).
      - intros [a g] I. cbn [fst]. exact (proj1 (Au a g (RD _ _ _ I))).
      - intros [a g] I. cbn [snd]. exact (proj2 (Au a g (RD _ _ _ I))). }
    assert (AD : exists s s', authorise (settlement_field n) (read (l_features sl)) = Ok s /\ dissolve ge (settlement_field n) s = Ok s').
    { destruct (PP None) as (out & E); [discriminate|]. unfold pre_process in E. destruct (authorise _ _) as [s|]; [|discriminate]. cbn [bind] in E. destruct (dissolve ge _ s) as [s'|] eqn:Ed; [|discriminate]. eauto. }
    destruct AD as (s & s' & Ea & Ed). rewrite Ea in O. cbn [bind] in O. rewrite Ed in O. cbn [bind] in O.
    assert (DM : exists dom, (if str_eqb (mask n) (lit "None") then Ok None else let* m := match f_vec f (mask n) with Some l => Ok l | None => Err ValueError end in Ok (Some (l_features m))) = Ok dom /\ forall m, dom = Some m -> read m <> []).
    { destruct Md as [[-> _]|(N & m & a & g & rest & Em & Er & _)]; [exists None; split; [rewrite str_eqb_refl; reflexivity|discriminate]|].
      apply str_eqb_false in N. rewrite N, Em. exists (Some (l_features m)). split; [reflexivity|]. intros m' E. injection E as <-. rewrite Er. discriminate. }
    destruct DM as (dom & Edm & Hd). rewrite Edm in O. cbn [bind] in O. destruct (PP dom Hd) as (out & Eo). rewrite Eo in O. cbn [bind] in O. cbv zeta in O. unfold rasterize in O.
    rewrite (proj1 (put_layer_with (f_vec f) (shapes n) _)) in O. destruct (f_ras f (elevation n)) as [t|]; destruct O as [_ ->]; split; congruence.
Qed.
Print Assumptions C97_succeeds.

(** ** What is in them *)
(** After a run that succeeds, the layer has the land-use polygons, cut to the
    mask, with their attributes and a category that spells out settlement class
    and use; the map has the grid of the elevation raster, and a pixel holds the
    category of the last of these polygons that covers its centre, or 0. *)
Theorem C97_land_cover : forall G fp e ge covers tr atof disk default argv l c (f f' : files G), within fp e -> tree_ok ge -> areas_ok ge ->
  (forall n t, disk n = Some t -> ~ In return_ t) -> line_says argv l -> last_file l None = Some c ->
  main fp ge covers tr atof disk default argv f = (f', Went None) ->
  exists cf n sl ul d t s m, reads disk [default; c] cf /\ told cf n /\
    f_vec f (settlements n) = Some sl /\ f_vec f (uses n) = Some ul /\ mask_of f (mask n) d /\ f_ras f (elevation n) = Some t /\
    f_vec f' (shapes n) = Some s /\ f_ras f' (map_file n) = Some m /\
    l_proj s = l_proj ul /\ (forall x, In x (l_fields s) <-> In x (l_fields ul) \/ x = settlement_field n \/ x = lit "CAT") /\
    g_rows (im_cells m) = g_rows (im_cells t) /\ g_cols (im_cells m) = g_cols (im_cells t) /\
    im_x m = im_x t /\ im_dx m = im_dx t /\ im_y m = im_y t /\ im_dy m = im_dy t /\ im_proj m = im_proj t /\ im_type m = UInt16 /\ im_nodata m = Some 0%Q /\
    (settlement_field n <> use_field n ->
     let polygons := clip_all ge d (read (l_features ul)) in
     Forall2 (fun p q => snd q = Some (snd p) /\ (forall k, k <> settlement_field n -> k <> lit "CAT" -> aget (fst q) k = aget (fst p) k) /\
         exists u z k, aget (fst p) (use_field n) = Ok u /\ aget (fst q) (lit "CAT") = Ok (VInt z) /\
           decode z = (k, known use_names u) /\ settled_by e ge d (settlement_field n) (read (l_features sl)) (snd p) k) polygons (l_features s) /\
     forall r c, let p := point_of tr ul t r c in let v := g_at (im_cells m) r c in
       (uncovered covers (written polygons) p -> (v == 0)%Q) /\
       (forall a g, topmost covers (written polygons) p a g -> exists u z k, aget a (use_field n) = Ok u /\ 0 <= z <= 511 /\ (v == inject_Z z)%Q /\
          decode z = (k, known use_names u) /\ settled_by e ge d (settlement_field n) (read (l_features sl)) g k)).
Proof.
  intros G fp e ge covers tr atof disk default argv l c f f' W TO AO NR L C H. destruct (run_settings fp ge covers tr atof disk default argv l c f f' None NR L C H) as (cf & R & O).
  destruct O as [(_ & _ & O)|(n & T & _ & O)]; [discriminate|].
  destruct (pre_process_files _ _ _ _ _ _ _ _) as [s|er] eqn:EL; [|destruct O; discriminate]. cbv zeta in O.
  destruct (layers_ok fp ge f _ _ _ _ _ s EL) as (sl & ul & d & dom & out & Es & Eu & M1 & M2 & Ep & P1 & P2 & P3).
  set (v := put_layer (f_vec f) (shapes n) s) in *. assert (Ev : v (shapes n) = Some s) by (apply put_layer_with).
  destruct (f_ras f (elevation n)) as [t|] eqn:Et; [|unfold rasterize in O; rewrite Ev, Et in O; destruct O; discriminate].
  destruct (proj2 (C78_grid G covers tr atof v (f_ras f) (shapes n) (elevation n)) s t Ev Et) as (m & Em & Dims). rewrite Em in O. destruct O as [-> _]. cbn [f_vec f_ras].
  exists cf, n, sl, ul, d, t, s, m. do 6 (split; [assumption|]). split; [exact Ev|]. split; [apply put_with|]. split; [exact P1|]. split; [exact P3|].
  destruct Dims as (D1 & D2 & D3 & D4 & D5 & D6 & D7 & D8 & D9). do 9 (split; [assumption|]). intros Nf. set (polygons := clip_all ge d (read (l_features ul))) in *. split.
  - rewrite P2. pose proof (C67_preparation G fp e ge _ _ _ _ dom out d W TO AO Nf M2 Ep) as F. fold polygons in F. clear - F. unfold written. induction F as [|p q ps qs [X1 X2] F IH]; constructor; [|exact IH].
    cbn [fst snd]. split; [f_equal; exact X1|exact X2].
  - intros r0 c0. pose proof (C78_prepared G fp e ge covers tr atof _ _ _ _ dom d out v (f_ras f) (shapes n) (elevation n) s t m r0 c0 W TO AO Nf M2 Ep P2 (proj2 (P3 (lit "CAT")) (or_intror (or_intror eq_refl))) Ev Et Em) as K.
    assert (Pt : point_of tr s t r0 c0 = point_of tr ul t r0 c0) by (unfold point_of; rewrite P1; reflexivity). cbv zeta in K. rewrite Pt in K. exact K.
Qed.
Print Assumptions C97_land_cover.

(** ** Where it differs from what one expects *)
(** A named file that is not there goes unnoticed: any such name gives the run on
    the default settings. *)
Theorem C97_missing_refuted : forall G fl ge covers tr atof disk default argv argv' l l' c c' (f : files G),
  line_says argv l -> last_file l None = Some c -> disk c = None -> line_says argv' l' -> last_file l' None = Some c' -> disk c' = None ->
  main fl ge covers tr atof disk default argv f = main fl ge covers tr atof disk default argv' f /\
  (disk default <> None -> forall p, imported disk default = Ok p -> forall n, configured (p_conf p) = Ok n ->
     exists f' r, main fl ge covers tr atof disk default argv f = (f', Went r)).
Proof.
  intros G fl ge covers tr atof disk default argv argv' l l' c c' f L C M L' C' M'. destruct (parse_says argv l L) as (v & P & _). destruct (parse_says argv' l' L') as (v' & P' & _).
  unfold main, cmd_line. rewrite P, P', C, C'. destruct (imported disk default) as [p|e] eqn:I; cbn [bind]; [|split; [reflexivity|discriminate]].
  unfold load_text. rewrite M, M'. unfold set_config_file, read_file. cbn [p_readonce p_conf p_file cfg_read bind]. split; [reflexivity|].
  intros _ q E n Q. injection E as <-. rewrite Q. destruct (pre_process_files _ _ _ _ _ _ _ _) as [la|e]; [|eauto]. cbv zeta. destruct (rasterize _ _ _ _ _ _ _); eauto.
Qed.
Print Assumptions C97_missing_refuted.

(** The settings of the repository with two fields and the mask changed by a file
    of one's own; settlements and land use as in the examples of C78. *)
Definition ex_disk : str -> option str := fun n =>
  if str_eqb n (lit "multiplier_conf.cfg") then Some shipped
  else if str_eqb n (lit "my.cfg") then Some (lit "[Preprocessing]" ++ nl_ ++ lit "settlement_cat: SET" ++ nl_ ++ lit "Land_Use_Cat = USE" ++ nl_ ++ lit "crop_mask = None")
  else None.
Definition ex_files : files (list Z) := Files
  (fun p => if str_eqb p (lit "/workspaces/Wind_multipliers/testing/input/SettlementTypes_20210413.shp") then Some (Layer None [lit "SET"] ex_sf)
            else if str_eqb p (lit "/workspaces/Wind_multipliers/testing/input/NEXIS_INPUT_MB2016_QLD.shp") then Some (Layer None [lit "USE"] ex_lf) else None)
  (fun _ => Some (Image Float32 (lit "a") 112 1 0 (-1) None (Grid 1 4 (fun _ _ => 0%Q)))).
Example C97_ex : exists f' m,
  main (fun x => x) (line_geo all_forward) ex_covers (fun _ _ q => q) (fun _ => 0%Q) ex_disk (lit "multiplier_conf.cfg") [lit "-v"; lit "-c"; lit "my.cfg"] ex_files = (f', Went None) /\
  f_ras f' (lit "/workspaces/Wind_multipliers/testing/intermediate/meshblobcks.tiff") = Some m /\
  map (fun c => Qred (g_at (im_cells m) 0 c)) [0; 1; 2; 3] = [311; 311; 311; 6]%Q /\
  snd (main (fun x => x) (line_geo all_forward) ex_covers (fun _ _ q => q) (fun _ => 0%Q) ex_disk (lit "multiplier_conf.cfg") [lit "-v"; lit "-c"; lit "me.cfg"] ex_files) = Went (Some KeyError) /\
  snd (main (fun x => x) (line_geo all_forward) ex_covers (fun _ _ q => q) (fun _ => 0%Q) ex_disk (lit "multiplier_conf.cfg") [lit "-v"] ex_files) = Stopped Usage.
Proof.
  eexists. eexists. split; [vm_compute; reflexivity|]. split; [vm_compute; reflexivity|]. split; [vm_compute; reflexivity|]. split; vm_compute; reflexivity.
Qed.
