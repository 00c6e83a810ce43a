(** * C86: the command line of a run *)
From Verif Require Import Base PyStr UtilModel UtilSpec UtilProps IniModel IniSpec RunModel StartModel CmdModel CmdSpec CmdProofs.
Open Scope Z_scope.

(** ** What starts a run, and with what

    A command line is accepted exactly when it can be read as words that say
    something; the run is told the last file named, and to be verbose exactly when
    some word says so. *)
Theorem C86_accepted : forall argv file verbose,
  parse_args argv = inl (file, verbose) <->
  exists l, line_says argv l /\ file = last_file l None /\ (verbose = true <-> said_verbose l).
Proof. apply parse_iff. Qed.

(** Any other command line touches nothing. *)
Theorem C86_nothing_else : forall disk default w data argv f, (forall l, ~ line_says argv l) ->
  exists s, program disk default w data argv f = (f, Stopped s).
Proof.
  intros disk default w data argv f N. unfold program. destruct (imported disk default) as [p|e]; [|eexists; reflexivity].
  destruct (parse_args argv) as [[c v]|s] eqn:P; [|eexists; reflexivity]. apply parse_iff in P as (l & L & _). elim (N l L).
Qed.

(** Lines that name the same last file and agree about being verbose give the same run. *)
Theorem C86_same_run : forall disk default w data argv argv' l l' f,
  line_says argv l -> line_says argv' l' -> last_file l None = last_file l' None -> (said_verbose l <-> said_verbose l') ->
  program disk default w data argv f = program disk default w data argv' f.
Proof.
  intros disk default w data argv argv' l l' f L L' C V.
  destruct (parse_says argv l L) as (v & P & B). destruct (parse_says argv' l' L') as (v' & P' & B'). unfold program. rewrite P, P', C.
  assert (VV : v = v') by (destruct v, v'; try reflexivity; [symmetry|]; tauto). rewrite VV. reflexivity.
Qed.

(** A named file that is not there, or an empty name, goes unnoticed: the run is
    the one without a name, on the default settings. *)
Theorem C86_missing_file : forall disk default w data argv argv' l l' name f,
  line_says argv l -> last_file l None = Some name -> (name = [] \/ disk name = None) ->
  line_says argv' l' -> last_file l' None = None -> (said_verbose l <-> said_verbose l') ->
  program disk default w data argv f = program disk default w data argv' f.
Proof.
  intros disk default w data argv argv' l l' name f L C M L' C' V.
  destruct (parse_says argv l L) as (v & P & B). destruct (parse_says argv' l' L') as (v' & P' & B'). unfold program. rewrite P, P', C, C'.
  assert (VV : v = v') by (destruct v, v'; try reflexivity; [symmetry|]; tauto). rewrite VV. destruct (imported disk default) as [p|e]; [|reflexivity].
  destruct name as [|x name]; [reflexivity|]. destruct M as [M|M]; [discriminate|]. unfold load_text. rewrite M. reflexivity.
Qed.

(** The settings of a run: those of the default file and of the file named last, the
    latter first; what neither gives comes from their DEFAULT sections. *)
Theorem C86_settings : forall disk default w data argv l f f' r,
  (forall n t, disk n = Some t -> ~ In return_ t) -> line_says argv l ->
  program disk default w data argv f = (f', Went r) ->
  exists files get verbose, reads disk (default :: named l) files /\
    (forall s o v, last_given files s o v -> get s o = Some v) /\
    (forall s o v, (exists g, In g files /\ mentions g s) -> never_given files s o -> last_given files (lit "DEFAULT") o v -> get s o = Some v) /\
    (forall s o, (never_given files s o /\ never_given files (lit "DEFAULT") o) \/ (s <> lit "DEFAULT" /\ forall g, In g files -> ~ mentions g s) -> get s o = None) /\
    (verbose = true <-> said_verbose l) /\
    start (World get (w_float w) (w_bool w) (w_level w) (w_path w) (w_raster w) (w_cwd w)) verbose data f = (f', r).
Proof.
  intros disk default w data argv l f f' r NR L H. destruct (parse_says argv l L) as (v & P & V). unfold program in H. rewrite P in H.
  destruct (imported disk default) as [p0|e] eqn:I; [|discriminate]. destruct (import_is disk default p0 I) as [NP NI].
  set (loads := map (fun n => (parsed disk, n)) (named l)).
  assert (K : exists p, match last_file l None with Some (x :: name) => load_text disk (x :: name) p0 | _ => Ok p0 end = Ok p /\
                history (parsed disk) default loads p /\ reads disk (named l) (flat_map (fun n => match parsed disk n with Some g => [g] | None => [] end) (named l))).
  { unfold loads, named in *. destruct (last_file l None) as [[|x name]|]; try (exists p0; split; [reflexivity|]; split; [exists p0; split; [exact NP|reflexivity]|constructor]).
    destruct (load_text disk (x :: name) p0) as [p|e] eqn:LT; [|discriminate]. destruct (load_is disk _ _ _ LT) as [SC SI]. exists p. split; [reflexivity|]. split.
    - exists p0. split; [exact NP|]. cbn [map foldM fst snd bind]. rewrite SC. reflexivity.
    - cbn [flat_map]. apply reads_one; [exact NR|exact SI|constructor]. }
  destruct K as (p & E & HI & RD). rewrite E in H.
  set (files := found ((parsed disk, default) :: loads)).
  exists files, (fun s o => match cfg_get (p_conf p) s o with Ok x => Some x | Err _ => None end), v. split.
  { unfold files, found, loads. cbn [flat_map fst snd]. rewrite flat_map_concat_map, map_map, <- flat_map_concat_map. cbn [fst snd]. apply reads_one; [exact NR|exact NI|exact RD]. }
  split; [intros s o x G; rewrite (C51_section_value _ _ _ _ s o x HI G); reflexivity|].
  split; [intros s o x M N G; rewrite (C51_default_value _ _ _ _ s o x HI M N G); reflexivity|].
  split; [intros s o U; rewrite (C51_unset _ _ _ _ s o HI U); reflexivity|]. split; [exact V|].
  destruct (start _ v data f) as [f1 r1]. injection H as -> ->. reflexivity.
Qed.

(** ** Help *)
Theorem C86_help : forall disk default w data ws l h rest f p, imported disk default = Ok p ->
  line_says ws l -> asks_help h -> (forall x, In x rest -> ~ undecided x) ->
  program disk default w data (ws ++ h :: rest) f = (f, Stopped Help).
Proof. intros disk default w data ws l h rest f p I L H R. unfold program. rewrite I, (help_line ws l h rest L H R). reflexivity. Qed.

Theorem C86_help_only : forall argv, parse_args argv = inr Help ->
  exists w, In w argv /\ (short_for w "--help" \/ exists r, w = lit "-" ++ r /\ In "h"%char r).
Proof. apply help_asked. Qed.

(** ** An equals sign is dropped after -c and kept after -vc *)
Theorem C86_equals_refuted : forall x name,
  x :: name <> lit "--" ->
  parse_args [lit "-c=" ++ x :: name] = inl (Some (x :: name), false) /\
  parse_args [lit "-vc=" ++ x :: name] = inl (Some (lit "=" ++ x :: name), true).
Proof.
  intros x name N1. split; apply parse_iff.
  - exists [Settings (x :: name)]. split; [apply (Something [lit "-c=" ++ x :: name] [Settings (x :: name)] [] []); [apply Config_eq; exact N1|constructor]|].
    split; [reflexivity|]. unfold said_verbose. cbn [In]. split; [discriminate|intros [H|[]]; discriminate].
  - exists [Verbosely; Settings (lit "=" ++ x :: name)].
    split; [apply (Something [lit "-vc=" ++ x :: name] [Verbosely; Settings (lit "=" ++ x :: name)] [] []); [apply (Letters_file 1 "=" (x :: name)); [discriminate|discriminate]|constructor]|].
    split; [reflexivity|]. unfold said_verbose. cbn [In]. tauto.
Qed.

(** ** Command lines *)
Example C86_line_1 : parse_args [lit "-c"; lit "my.cfg"; lit "--verb"] = inl (Some (lit "my.cfg"), true).
Proof. vm_compute. reflexivity. Qed.
Example C86_line_2 : parse_args [lit "--conf=a.cfg"; lit "-vcb.cfg"] = inl (Some (lit "b.cfg"), true).
Proof. vm_compute. reflexivity. Qed.
Example C86_line_3 : parse_args [lit "my.cfg"] = inr Usage /\ parse_args [lit "-c"] = inr Usage /\ parse_args [lit "-c"; lit "-v"] = inr Usage /\
  parse_args [lit "--"; lit "-v"] = inr Usage /\ parse_args [lit "--=x"; lit "-h"] = inr Usage /\ parse_args [lit "-help"] = inr Usage.
Proof. vm_compute. repeat split. Qed.
Example C86_line_4 : parse_args [] = inl (None, false) /\ parse_args [lit "-c"; lit "-5"] = inl (Some (lit "-5"), false) /\ parse_args [lit "-c="] = inl (Some [], false).
Proof. vm_compute. repeat split. Qed.
Example C86_says : line_says [lit "--conf=a.cfg"; lit "-vc"; lit "b.cfg"] [Settings (lit "a.cfg"); Verbosely; Settings (lit "b.cfg")].
Proof.
  apply (Something [lit "--conf=a.cfg"] [Settings (lit "a.cfg")] [lit "-vc"; lit "b.cfg"] [Verbosely; Settings (lit "b.cfg")]).
  - apply (Long_config_eq (lit "--conf") (lit "a.cfg")); [|discriminate]. exists "c"%char, (lit "onf"), (lit "ig_file"). split; reflexivity.
  - apply (Something [lit "-vc"; lit "b.cfg"] [Verbosely; Settings (lit "b.cfg")] [] []); [|constructor].
    apply (Letters_config 1 (lit "b.cfg")). left. discriminate.
Qed.
Example C86_help_case : asks_help (lit "--he") /\ asks_help (lit "-vvh") /\ ~ undecided (lit "zzz").
Proof.
  split; [left; exists "h"%char, (lit "e"), (lit "lp"); split; reflexivity|]. split; [right; exists 2%nat; reflexivity|]. intros (e & H). discriminate.
Qed.

Print Assumptions C86_accepted.
Print Assumptions C86_nothing_else.
Print Assumptions C86_same_run.
Print Assumptions C86_missing_file.
Print Assumptions C86_settings.
Print Assumptions C86_help.
Print Assumptions C86_help_only.
Print Assumptions C86_equals_refuted.
