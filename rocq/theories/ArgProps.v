(** * C98: command lines with options that take values. *)
From Verif Require Import Base BaseLemmas PyStr UtilModel IniModel RunModel StartModel CmdModel CmdSpec CmdProofs PreModel RastModel RastProps ReprModel ArgSpec ArgModel ArgProofs.
Open Scope Z_scope.

Lemma rasterize_table : options_ok rasterize_options.
Proof.
  split; [discriminate|]. split; [cbn; repeat (constructor; [cbn; intuition discriminate|]); constructor|].
  intros x n I. cbn [rasterize_options In] in I. repeat (destruct I as [I|I]; [injection I as <- <-; split; [unfold small; cbn; tauto|]; eexists; split; [reflexivity|cbn; intuition discriminate]|]). destruct I.
Qed.
Lemma mpi_table : options_ok mpi_options.
Proof.
  split; [discriminate|]. split; [cbn; repeat (constructor; [cbn; intuition discriminate|]); constructor|].
  intros x n I. cbn [mpi_options In] in I. repeat (destruct I as [I|I]; [injection I as <- <-; split; [unfold small; cbn; tauto|]; eexists; split; [reflexivity|cbn; intuition discriminate]|]). destruct I.
Qed.

(** The accepted lines are the sequences of options with their values, in any of
    the five forms; the values read are those written, in order. *)
Theorem C98_accepted table : options_ok table -> forall argv l, parse_values table argv = inl l <-> line_gives table argv l.
Proof. exact (accepted table). Qed.
Print Assumptions C98_accepted.

(** A line means one thing. *)
Theorem C98_unambiguous table : options_ok table -> forall argv l l', line_gives table argv l -> line_gives table argv l' -> l = l'.
Proof. intros OK argv l l' A B. apply (C98_accepted table OK) in A, B. congruence. Qed.
Print Assumptions C98_unambiguous.

Section Rasterize.
  Context {G : Type} (covers : G -> Q * Q -> bool) (tr : num -> Z) (atof : str -> num).
  Lemma cmdline_given argv l i t : line_gives rasterizer argv l -> last_value "i" l None = Some i -> last_value "t" l None = Some t ->
    exists a, cmdline argv = inl (RArgs i a t (last_value "c" l None)).
  Proof.
    intros A I T. apply (C98_accepted _ rasterize_table) in A. unfold cmdline. rewrite A, !namespace_last, I, T. eexists. reflexivity.
  Qed.
End Rasterize.

(** rasterize.py stops at its command line, with nothing read or written, unless
    the line is accepted and names a shapefile and a raster. *)
Theorem C98_required G (covers : G -> Q * Q -> bool) tr atof cut vec ras argv :
  (exists s, rasterize_py covers tr atof cut vec ras argv = RStopped s) <->
  ~ exists l i t, line_gives rasterizer argv l /\ last_value "i" l None = Some i /\ last_value "t" l None = Some t.
Proof.
  split.
  - intros (s & E) (l & i & t & A & I & T). destruct (cmdline_given argv l i t A I T) as (a & C). unfold rasterize_py in E. rewrite C in E.
    destruct (script covers tr atof cut vec ras _ _ _ _) in E; discriminate.
  - intros N. unfold rasterize_py. destruct (cmdline argv) as [a|s] eqn:C; [|exists s; reflexivity]. exfalso. apply N. unfold cmdline in C.
    destruct (parse_values rasterize_options argv) as [l|] eqn:P; [|discriminate]. apply (C98_accepted _ rasterize_table) in P. rewrite !namespace_last in C.
    destruct (last_value "i" l None) as [i|] eqn:I; [|discriminate]. destruct (last_value "t" l None) as [t|] eqn:T; [|discriminate]. exists l, i, t. auto.
Qed.
Print Assumptions C98_required.

(** Without a mask, or with an empty name for it, it writes test.tiff and nothing
    else. *)
Theorem C98_rasterize G (covers : G -> Q * Q -> bool) tr atof cut vec ras argv l i t o :
  line_gives rasterizer argv l -> last_value "i" l None = Some i -> last_value "t" l None = Some t ->
  last_value "c" l None = None \/ last_value "c" l None = Some [] ->
  rasterize covers tr atof vec ras i t = Ok o ->
  exists ras', rasterize_py covers tr atof cut vec ras argv = RWrote ras' /\
    ras' (lit "test.tiff") = Some o /\ forall f, f <> lit "test.tiff" -> ras' f = ras f.
Proof.
  intros A I T C R. destruct (cmdline_given argv l i t A I T) as (a & E). destruct (C78_script G covers tr atof cut vec ras i a t o R) as (ras' & S & W). exists ras'. split; [|exact W].
  unfold rasterize_py. rewrite E. cbn [r_input r_attribute r_topography r_crop].
  assert (M : match last_value "c" l None with Some [] => None | c => c end = None) by (destruct C as [-> | ->]; reflexivity). rewrite M, S. reflexivity.
Qed.
Print Assumptions C98_rasterize.

(** With a mask it writes the elevation raster cut to the mask beside the
    original, test.tiff on its grid, and test_crop.tiff. *)
Theorem C98_rasterize_crop G (covers : G -> Q * Q -> bool) tr atof cut vec ras argv l i root ext mask sh el el' :
  let cropped := (root ++ lit "_crop" ++ ext)%list in
  line_gives rasterizer argv l -> last_value "i" l None = Some i -> last_value "t" l None = Some (root ++ ext)%list ->
  last_value "c" l None = Some mask -> mask <> [] ->
  splitext_root (root ++ ext)%list = root -> cropped <> lit "test.tiff" -> cropped <> lit "test_crop.tiff" ->
  vec i = Some sh -> ras (root ++ ext)%list = Some el -> cut el mask = Some el' ->
  exists o ras', rasterize covers tr atof vec (fun f => if str_eqb f cropped then Some el' else None) i cropped = Ok o /\
    rasterize_py covers tr atof cut vec ras argv = RWrote ras' /\
    ras' cropped = Some el' /\ ras' (lit "test.tiff") = Some o /\
    (forall o', cut o mask = Some o' -> ras' (lit "test_crop.tiff") = Some o') /\
    forall f, f <> cropped -> f <> lit "test.tiff" -> f <> lit "test_crop.tiff" -> ras' f = ras f.
Proof.
  intros cropped A I T C M Sp N1 N2 V R K. destruct (cmdline_given argv l i _ A I T) as (a & E).
  destruct (C78_script_crop G covers tr atof cut vec ras i a root ext mask sh el el' Sp N1 N2 V R K) as (o & ras' & Ro & S & W). exists o, ras'. split; [exact Ro|]. split; [|exact W].
  unfold rasterize_py. rewrite E. cbn [r_input r_attribute r_topography r_crop]. rewrite C. destruct mask as [|m mask]; [congruence|]. rewrite S. reflexivity.
Qed.
Print Assumptions C98_rasterize_crop.

(** A shapefile or raster that is not there makes it raise. *)
Theorem C98_missing G (covers : G -> Q * Q -> bool) tr atof cut vec ras argv l i t :
  line_gives rasterizer argv l -> last_value "i" l None = Some i -> last_value "t" l None = Some t ->
  vec i = None \/ (last_value "c" l None = None /\ ras t = None) ->
  exists e, rasterize_py covers tr atof cut vec ras argv = RRaised e.
Proof.
  intros A I T H. destruct (cmdline_given argv l i t A I T) as (a & E). unfold rasterize_py. rewrite E. cbn [r_input r_attribute r_topography r_crop]. unfold script.
  destruct H as [-> |[C R]]; [eexists; reflexivity|]. destruct (vec i) as [sh|] eqn:V; [|eexists; reflexivity]. rewrite C. cbv zeta. unfold rasterize. rewrite V, R. cbn [bind]. eexists. reflexivity.
Qed.
Print Assumptions C98_missing.

(** Refuted: the option -a does not choose the attribute.  It has no effect. *)
Theorem C98_attribute_refuted G (covers : G -> Q * Q -> bool) tr atof cut vec ras argv argv' l l' :
  line_gives rasterizer argv l -> line_gives rasterizer argv' l' ->
  (forall x, x <> "a"%char -> last_value x l None = last_value x l' None) ->
  (exists i t, last_value "i" l None = Some i /\ last_value "t" l None = Some t) ->
  rasterize_py covers tr atof cut vec ras argv = rasterize_py covers tr atof cut vec ras argv'.
Proof.
  intros A A' S (i & t & I & T). pose proof I as I'. pose proof T as T'. rewrite S in I', T' by discriminate.
  destruct (cmdline_given argv l i t A I T) as (a & E). destruct (cmdline_given argv' l' i t A' I' T') as (a' & E'). unfold rasterize_py. rewrite E, E'.
  cbn [r_input r_attribute r_topography r_crop]. rewrite (S "c"%char) by discriminate. unfold script. reflexivity.
Qed.
Print Assumptions C98_attribute_refuted.

(** The converter's program works on the path of the last -p, and starts without
    any if there is none. *)
Theorem C98_mpi_path argv p : mpi_path argv = inl p <-> exists l, line_gives converter argv l /\ p = last_value "p" l None.
Proof.
  unfold mpi_path. split.
  - destruct (parse_values mpi_options argv) as [l|] eqn:P; [|discriminate]. intros E. injection E as <-. exists l. split; [apply (C98_accepted _ mpi_table); exact P|apply namespace_last].
  - intros (l & A & ->). apply (C98_accepted _ mpi_table) in A. rewrite A. f_equal. apply namespace_last.
Qed.
Print Assumptions C98_mpi_path.

Example C98_ex :
  options_ok rasterizer /\ options_ok converter /\
  line_gives rasterizer [lit "--inp=a.shp"; lit "-tdem.tif"; lit "-a"; lit "-1"; lit "--crop"; lit "m.shp"; lit "-i=b.shp"]
    [("i"%char, lit "a.shp"); ("t"%char, lit "dem.tif"); ("a"%char, lit "-1"); ("c"%char, lit "m.shp"); ("i"%char, lit "b.shp")] /\
  parse_values rasterize_options [lit "-i"; lit "-t"; lit "x"] = inr Usage /\
  parse_values rasterize_options [lit "-i"; lit "a"; lit "-h"] = inr Help /\
  mpi_path [lit "--pa"; lit "/data/out dir"] = inl (Some (lit "/data/out dir")) /\ mpi_path [] = inl None.
Proof.
  split; [exact rasterize_table|]. split; [exact mpi_table|]. split; [apply (C98_accepted _ rasterize_table); reflexivity|]. repeat split; reflexivity.
Qed.
