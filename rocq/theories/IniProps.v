(** * Property theorems: the text of a configuration file (C84). *)
From Coq Require Import Ascii String Lia.
From Verif Require Import Base PyStr UtilModel UtilSpec UtilProofs UtilProps IniModel IniSpec IniProofs.
Open Scope Z_scope.

(** ** C84

    A text is read exactly when it is the text of a well laid out document,
    and then as the settings that document says. *)
Theorem C84_meaning : forall t f, ~ In return_ t ->
  (ini_file t = Ok f <-> exists d, document_ok d /\ written t (document_lines d) /\ says d f).
Proof. intros t f N. apply ini_iff, N. Qed.

(** Two layouts of one text never disagree. *)
Theorem C84_one_meaning : forall t d d' f f', document_ok d -> document_ok d' -> written t (document_lines d) -> written t (document_lines d') ->
  says d f -> says d' f' -> f = f'.
Proof.
  intros t d d' f f' O O' W W' S S'.
  assert (N : ~ In return_ t).
  { pose proof (document_on d O) as L. intros I. assert (G : forall ls, Forall on_line ls -> ~ In return_ (concat (map ended ls))).
    { induction 1 as [|l ls H F IH]; [intros []|]. cbn [map concat]. intros J. apply in_app_or in J as [J|J]; [|exact (IH J)].
      unfold ended in J. apply in_app_or in J as [J|[J|[]]]; [destruct (H return_ J) as [_ X]; exact (X eq_refl)|discriminate J]. }
    destruct W as [->|(ls & l & E & _ & ->)]; [exact (G _ L I)|]. rewrite E in L. apply Forall_app in L as [L K].
    apply in_app_or in I as [I|I]; [exact (G _ L I)|]. inversion K as [|? ? H _]; subst. destruct (H return_ I) as [_ X]. exact (X eq_refl). }
  assert (A : ini_file t = Ok f) by (apply ini_iff; [exact N|exists d; auto]).
  assert (B : ini_file t = Ok f') by (apply ini_iff; [exact N|exists d'; auto]). congruence.
Qed.

(** Line ends of other systems make no difference. *)
Theorem C84_line_ends : forall t, exists u, newlines t u /\ ~ In return_ u /\ ini_file t = ini_file u.
Proof.
  assert (G : forall n t, (length t <= n)%nat -> exists u, newlines t u).
  { induction n as [|n IH]; intros t L.
    - destruct t; [exists []; constructor|cbn in L; lia].
    - destruct t as [|c t]; [exists []; constructor|]. cbn [length] in L. destruct (ascii_dec c return_) as [->|N].
      + destruct t as [|e t]; [exists [newline]; apply newlines_mac; [discriminate|constructor]|]. destruct (ascii_dec e newline) as [->|N].
        * destruct (IH t) as (u & U); [cbn [length] in L; lia|]. exists (newline :: u). constructor. exact U.
        * destruct (IH (e :: t)) as (u & U); [lia|]. exists (newline :: u). apply newlines_mac; [|exact U]. intros t' E. injection E as E _. exact (N E).
      + destruct (IH t) as (u & U); [lia|]. exists (c :: u). constructor; assumption. }
  intros t. destruct (G _ t (le_n _)) as (u & U). exists u. split; [exact U|]. split; [exact (newlines_clean t u U)|exact (ini_newlines t u U)].
Qed.

(** Any other text is an error of the parser, never a partial result. *)
Theorem C84_rejected : forall t, ~ In return_ t -> (forall d, document_ok d -> ~ written t (document_lines d)) <-> ini_file t = Err ValueError.
Proof.
  intros t N. assert (K : forall e, ini_file t = Err e -> e = ValueError).
  { intros e. unfold ini_file. rewrite universal_none by exact N. generalize (Scan [] false 0). induction (lines t) as [|l ls IH]; intros st; [discriminate|].
    cbn [foldM]. destruct (scan_line st l) as [st'|e'] eqn:E; cbn [bind]; [apply IH|]. intros H. injection H as <-. revert E. unfold scan_line.
    destruct (is_comment (strip l)); [discriminate|]. destruct (strip l) as [|c v]; [discriminate|]. destruct (_ && _)%bool; [discriminate|].
    destruct (header_of (c :: v)); [discriminate|]. destruct (sc_sections st) as [|[s os] ss]; [congruence|].
    destruct (at_delimiter (c :: v)) as [[o x]|]; [|congruence]. destruct (rstrip o); congruence. }
  split.
  - intros H. destruct (ini_file t) as [f|e] eqn:E; [|f_equal; apply K; reflexivity]. apply ini_iff in E as (d & O & W & _); [|exact N]. elim (H d O W).
  - intros H d O W. assert (E : ini_file t = Ok (finish (rev (map sec_state (d_sections d))))); [|congruence].
    apply ini_iff; [exact N|]. exists d. split; [exact O|]. split; [exact W|apply finish_says].
Qed.

(** Where no line is indented, every setting has the text after its sign as its value. *)
Theorem C84_flush : forall t d f, document_ok d -> written t (document_lines d) -> says d f ->
  (forall l, In l (document_lines d) -> (forall c, In c l -> space_char c) \/ begins_bare l) ->
  f = map (fun x => (h_name x, map (fun s => (s_name s, s_value s)) (h_settings x))) (d_sections d).
Proof.
  intros t d f (F & S & _) _ H FL. unfold document_lines in FL.
  assert (FL' : forall x, In x (d_sections d) -> forall s, In s (h_settings x) -> forall u, In u (s_tail s) -> (forall c, In c (tail_line u) -> space_char c) \/ begins_bare (tail_line u)).
  { intros x X s Y u U. apply FL. apply in_or_app. right. apply in_flat_map. exists x. split; [exact X|]. unfold section_lines. right. apply in_or_app. right.
    apply in_flat_map. exists s. split; [exact Y|]. right. apply in_map. exact U. }
  clear FL F. unfold says in H. revert S H FL'. generalize (d_sections d) as l. intros l. revert f. induction l as [|x l IH]; intros f S H FL; inversion H as [|? e ? f' HX HL]; subst; [reflexivity|].
  inversion S as [|? ? SX SL]; subst. cbn [map]. f_equal.
  2: { apply IH; [exact SL|exact HL|]. intros y Y. apply FL. right. exact Y. }
  destruct e as [n os]. destruct HX as [E HX]. cbn [fst snd] in *. subst n. f_equal.
  destruct SX as (_ & _ & _ & _ & _ & _ & SS & _). specialize (FL x (or_introl eq_refl)). clear -SS HX FL. revert SS HX FL. generalize (h_settings x) as ss.
  intros ss. revert os. induction ss as [|s ss IH]; intros os SS HX FL; inversion HX as [|? p ? os' HP HO]; subst; [reflexivity|].
  inversion SS as [|? ? Ss Sss]; subst. cbn [map]. f_equal.
  2: { apply IH; [exact Sss|exact HO|]. intros y Y. apply FL. right. exact Y. }
  specialize (FL s (or_introl eq_refl)). destruct p as [n v]. destruct HP as (E & w & J & W & B). cbn [fst snd] in *. subst n. f_equal.
  destruct Ss as (_ & _ & _ & _ & _ & _ & _ & _ & _ & _ & _ & TV & _ & TL).
  assert (Z : forall tl, Forall (tail_ok (length (s_indent s))) tl -> (forall u, In u tl -> (forall c, In c (tail_line u) -> space_char c) \/ begins_bare (tail_line u)) ->
              exists w', joined (s_value s :: flat_map tail_text tl) = s_value s ++ w' /\ forall c, In c w' -> space_char c).
  { intros tl. generalize (s_value s) as v0. induction tl as [|u tl IHt]; intros v0 T K.
    - exists []. split; [cbn; rewrite app_nil_r; reflexivity|intros c []].
    - inversion T as [|? ? TU TT]; subst. specialize (K u (or_introl eq_refl)) as KU. assert (K' : forall y, In y tl -> (forall c, In c (tail_line y) -> space_char c) \/ begins_bare (tail_line y)) by (intros y Y; apply K; right; exact Y).
      destruct u as [[g|g m r]|g r e]; cbn [flat_map tail_text app].
      + destruct (IHt [] TT K') as (w' & E & W'). exists (newline :: w'). split; [cbn [joined] in *; rewrite E; reflexivity|].
        intros c [<-|I]; [unfold space_char; cbn; auto|apply W', I].
      + apply IHt; assumption.
      + exfalso. cbn [tail_ok tail_line] in *. destruct TU as (G & _ & _ & N & [BT _] & _ & L). destruct KU as [KU|KU].
        * destruct r as [|c r]; [exact (N eq_refl)|]. apply (BT c r eq_refl). apply KU. apply in_or_app. right. left. reflexivity.
        * destruct g as [|c g]; [cbn in L; lia|]. apply (KU c (g ++ r ++ e) eq_refl). destruct G as [_ G]. apply G. left. reflexivity. }
  destruct (Z (s_tail s) TL FL) as (w' & E & W'). rewrite E in J. symmetry. apply (trim_unique (s_value s) w' v w J W' W); [apply TV|exact B].
Qed.

(** What a run sees: after a text is loaded over any earlier settings, each of
    its settings is found under its section, however the name is capitalised. *)
Theorem C84_seen : forall disk n t d f p p' x s o v, disk n = Some t -> ~ In return_ t -> document_ok d -> written t (document_lines d) -> says d f ->
  load_text disk n p = Ok p' -> In x (d_sections d) -> In s (h_settings x) -> same_option (s_name s) o -> setting_says s (s_name s, v) ->
  cfg_get (p_conf p') (h_name x) o = Ok v.
Proof.
  intros disk n t d f p p' x s o v D N O W S L X Y SO SV. unfold load_text in L. rewrite D in L.
  rewrite (proj2 (ini_iff t f N) (ex_intro _ d (conj O (conj W S)))) in L. cbn [bind] in L.
  apply (C51_override _ n f p p' (h_name x) o v eq_refl L).
  unfold says in S. clear -S X Y SO SV. revert X S. generalize (d_sections d) as l. intros l X S. induction S as [|x' e l f HX HL IH]; [destruct X|].
  destruct X as [->|X].
  - destruct e as [h os]. destruct HX as [E HX]. cbn [fst snd] in *. subst h. exists os, (s_name s). split; [left; reflexivity|]. split; [|exact SO].
    revert Y HX. generalize (h_settings x) as ss. intros ss Y HX. induction HX as [|s' p ss os HP HO IH']; [destruct Y|]. destruct Y as [->|Y].
    + left. destruct p as [n' v']. destruct HP as (E & w & J & W & B). destruct SV as (_ & w' & J' & W' & B'). cbn [fst snd] in *. subst n'. f_equal.
      apply (trim_unique v' w v w'); try assumption. congruence.
    + right. apply IH', Y.
  - destruct (IH X) as (os & o' & I & R). exists os, o'. split; [right; exact I|exact R].
Qed.
(** It loads exactly when it also names no section twice and no option of a section twice. *)
Theorem C84_loads_iff : forall disk n t p, disk n = Some t -> ~ In return_ t ->
  ((exists p', load_text disk n p = Ok p') <->
   exists d f, document_ok d /\ written t (document_lines d) /\ says d f /\ NoDup (sections_of f) /\ options_once f).
Proof.
  intros disk n t p D N. unfold load_text. rewrite D. split.
  - intros (p' & H). destruct (ini_file t) as [f|] eqn:E; [|discriminate]. apply ini_iff in E as (d & O & W & S); [|exact N]. exists d, f.
    split; [exact O|]. split; [exact W|]. split; [exact S|]. apply (C51_accepted_iff (fun _ => Some f) n f p eq_refl). exists p'. exact H.
  - intros (d & f & O & W & S & K). rewrite (proj2 (ini_iff t f N) (ex_intro _ d (conj O (conj W S)))). cbn [bind].
    apply (C51_accepted_iff (fun _ => Some f) n f p eq_refl). exact K.
Qed.

(** Two things a reader may expect and that do not hold.  A remark after a
    value on the same line is part of the value; a setting indented deeper than
    the one above it is part of that one's value. *)
Definition nl_ : str := [newline].
Definition ex_inline : str := lit "[inputValues]" ++ nl_ ++ lit "upwind_length = 0.01  # degrees" ++ nl_.
Theorem C84_inline_remark_refuted : exists t f, ini_file t = Ok f /\ written t [lit "[inputValues]"; lit "upwind_length = 0.01" ++ lit "  # degrees"] /\
  gives f (lit "inputValues") (lit "upwind_length") (lit "0.01  # degrees") /\ forall v, gives f (lit "inputValues") (lit "upwind_length") v -> v <> lit "0.01".
Proof.
  exists ex_inline, [(lit "inputValues", [(lit "upwind_length", lit "0.01  # degrees")])]. split; [vm_compute; reflexivity|]. split; [left; vm_compute; reflexivity|]. split.
  - exists [(lit "upwind_length", lit "0.01  # degrees")], (lit "upwind_length"). split; [left; reflexivity|]. split; [left; reflexivity|].
    unfold same_option. generalize (lit "upwind_length"). intros s. induction s; constructor; [left; reflexivity|assumption].
  - intros v (opts & o' & I & J & _). destruct I as [I|[]]. injection I as <-. destruct J as [J|[]]. injection J as <- <-. discriminate.
Qed.
Definition ex_deeper : str := lit "[inputValues]" ++ nl_ ++ lit "root = /data" ++ nl_ ++ lit "  upwind_length = 0.01" ++ nl_.
Theorem C84_deeper_refuted : exists t f, ini_file t = Ok f /\ written t [lit "[inputValues]"; lit "root = /data"; lit "  upwind_length = 0.01"] /\
  (forall v, ~ gives f (lit "inputValues") (lit "upwind_length") v) /\ gives f (lit "inputValues") (lit "root") (lit "/data" ++ nl_ ++ lit "upwind_length = 0.01").
Proof.
  exists ex_deeper, [(lit "inputValues", [(lit "root", lit "/data" ++ nl_ ++ lit "upwind_length = 0.01")])]. split; [vm_compute; reflexivity|]. split; [left; vm_compute; reflexivity|]. split.
  - intros v (opts & o' & I & J & S). destruct I as [I|[]]. injection I as <-. destruct J as [J|[]]. injection J as <- <-. assert (L : forall a b, same_option a b -> length a = length b) by (induction 1; cbn; congruence). apply L in S. discriminate S.
  - eexists _, (lit "root"). split; [left; reflexivity|]. split; [left; reflexivity|].
    unfold same_option. generalize (lit "root"). intros s. induction s; constructor; [left; reflexivity|assumption].
Qed.
(** ... and a line with neither, or a setting before the first header, stops the read. *)
Example C84_ex_errors : ini_file (lit "root = /data") = Err ValueError /\ ini_file (lit "[a]" ++ nl_ ++ lit "root") = Err ValueError /\
  ini_file (lit "[a]" ++ nl_ ++ lit "= 3") = Err ValueError /\ ini_file (lit "; nothing" ++ nl_ ++ nl_) = Ok [].
Proof. vm_compute. repeat split; reflexivity. Qed.

(** The configuration file of the repository (multiplier_conf.cfg), whole. *)
Definition shipped : str := lit "[Preprocessing]
settlement_data = /workspaces/Wind_multipliers/testing/input/SettlementTypes_20210413.shp
settlement_cat = SETTLEMENT
land_use_data = /workspaces/Wind_multipliers/testing/input/NEXIS_INPUT_MB2016_QLD.shp
land_use_cat = MB_CAT16
#crop mask can be None
crop_mask = /workspaces/Wind_multipliers/testing/input/box_sub.shp   
# Mapping into topographic file
# if True takes inputValues.dem_data, can be a filename too. 
input_topo = True
topo_crop = True


output_shapefile = /workspaces/Wind_multipliers/testing/intermediate/meshblobcks.shp
output_rasterized = /workspaces/Wind_multipliers/testing/intermediate/meshblobcks.tiff

[inputValues]
root = /short/w85/nfm547/Wind_multipliers
upwind_length = 0.01
terrain_data = /short/w85/nfm547/Wind_multipliers/input/Cairns/cairns_tr_int.tif
terrain_table = /short/w85/nfm547/Wind_multipliers/input/Cairns/terrain_classification_cairns.csv
dem_data = /short/w85/nfm547/Wind_multipliers/input/Cairns/Cairns.tif

[Output]
output_dir = /short/w85/nfm547/Wind_multipliers/output/CairnsWM

[Logging] 
LogFile = /short/w85/nfm547/Wind_multipliers/Cairns/log/multipliers.log
LogLevel = DEBUG 
Verbose = False 
".
Example C84_ex_shipped :
  (let* p := load_text (fun _ => Some shipped) (lit "multiplier_conf.cfg") (Parser empty_conf false []) in
   Ok (map (fun so => cfg_get (p_conf p) (fst so) (snd so))
     [(lit "inputValues", lit "root");
      (lit "inputValues", lit "upwind_length");
      (lit "inputValues", lit "terrain_data");
      (lit "inputValues", lit "dem_data");
      (lit "Preprocessing", lit "crop_mask");
      (lit "Preprocessing", lit "topo_crop");
      (lit "Logging", lit "LogLevel");
      (lit "Logging", lit "verbose");
      (lit "Output", lit "LogFile")])) =
  Ok [Ok (lit "/short/w85/nfm547/Wind_multipliers");
      Ok (lit "0.01");
      Ok (lit "/short/w85/nfm547/Wind_multipliers/input/Cairns/cairns_tr_int.tif");
      Ok (lit "/short/w85/nfm547/Wind_multipliers/input/Cairns/Cairns.tif");
      Ok (lit "/workspaces/Wind_multipliers/testing/input/box_sub.shp");
      Ok (lit "True");
      Ok (lit "DEBUG");
      Ok (lit "False");
      Err KeyError].
Proof. vm_compute. reflexivity. Qed.

(** A document with every kind of line, its text, and the hypotheses of C84_seen. *)
Definition ex_doc : document :=
  Document [Remark [] "#" (lit " settings")]
    [Section_ [] (lit "Logging") (lit " here") [Empty (lit " ")]
       [Setting (lit "  ") (lit "LogFile") (lit " ") "=" (lit " ") (lit "a # b") (lit "  ") [Between (Empty []); Between (Remark (lit " ") ";" (lit "x")); More (lit "    ") (lit "Verbose = yes") (lit " ")];
        Setting [] (lit "LogLevel") [] ":" [] [] (lit " ") [Between (Empty [])]]].
Example C84_ex_document : document_ok ex_doc /\
  ini_file (concat (map ended (document_lines ex_doc))) = Ok [(lit "Logging", [(lit "LogFile", lit "a # b" ++ nl_ ++ nl_ ++ lit "Verbose = yes"); (lit "LogLevel", [])])].
Proof.
  split; [|vm_compute; reflexivity].
  assert (SP : forall c, c = " "%char -> space_char c) by (intros c ->; unfold space_char; cbn; tauto).
  assert (GP : forall n, gap (repeat " "%char n)).
  { intros n. split; intros c I; apply repeat_spec in I as ->; [split; discriminate|apply SP; reflexivity]. }
  assert (OL : forall s, forallb (fun c => negb (Ascii.eqb c newline) && negb (Ascii.eqb c return_)) s = true -> on_line s).
  { intros s H c I. rewrite forallb_forall in H. apply H in I. apply Bool.andb_true_iff in I as [A B]. split; intros ->; discriminate. }
  assert (TR : forall s, forallb (fun c => negb (white c)) (firstn 1 s ++ firstn 1 (rev s)) = true -> trimmed s).
  { intros s H. rewrite forallb_app in H. apply Bool.andb_true_iff in H as [A B]. split; intros c t ->; apply white_false.
    - cbn in A. rewrite Bool.andb_true_r in A. apply Bool.negb_true_iff in A. exact A.
    - rewrite rev_app_distr in B. cbn in B. rewrite Bool.andb_true_r in B. apply Bool.negb_true_iff in B. exact B. }
  assert (MK : forall s, is_comment s = false -> ~ marked s) by (intros s H; apply comment_false, H).
  assert (BK : forall s, header_of s = None -> ~ bracketed s) by (intros s H; apply header_none, H).
  assert (SG : forall s, at_delimiter s = None -> forall c, In c s -> ~ sign c).
  { intros s. induction s as [|e s IH]; intros H c I; [destruct I|]. cbn [at_delimiter] in H. destruct (Ascii.eqb e "=" || Ascii.eqb e ":")%bool eqn:E; [discriminate|].
    destruct I as [->|I]; [rewrite <- sign_b, E; discriminate|]. apply IH; [|exact I]. destruct (at_delimiter s) as [[? ?]|]; [discriminate|reflexivity]. }
  split; [|split].
  - constructor; [|constructor]. split; [apply (GP 0%nat)|]. split; [left; reflexivity|apply OL; reflexivity].
  - constructor; [|constructor]. unfold section_ok. cbn [h_indent h_name h_rest h_fill h_settings].
    split; [apply (GP 0%nat)|]. split; [apply OL; reflexivity|]. split; [discriminate|]. split; [intros I; vm_compute in I; intuition discriminate|].
    split; [apply OL; reflexivity|]. split; [constructor; [apply (GP 1%nat)|constructor]|]. split.
    + constructor; [|constructor; [|constructor]]; unfold setting_ok; cbn [s_indent s_name s_before s_sign s_after s_value s_end s_tail].
      * split; [apply (GP 2%nat)|]. split; [apply (GP 1%nat)|]. split; [apply (GP 1%nat)|]. split; [apply (GP 2%nat)|]. split; [left; reflexivity|].
        split; [apply OL; reflexivity|]. split; [discriminate|]. split; [apply TR; reflexivity|]. split; [apply MK; reflexivity|]. split; [apply SG; reflexivity|].
        split; [apply OL; reflexivity|]. split; [apply TR; reflexivity|]. split; [apply BK; reflexivity|].
        constructor; [apply (GP 0%nat)|]. constructor; [split; [apply (GP 1%nat)|split; [right; reflexivity|apply OL; reflexivity]]|]. constructor; [|constructor].
        split; [apply (GP 4%nat)|]. split; [apply (GP 1%nat)|]. split; [apply OL; reflexivity|]. split; [discriminate|]. split; [apply TR; reflexivity|]. split; [apply MK; reflexivity|cbn; lia].
      * split; [apply (GP 0%nat)|]. split; [apply (GP 0%nat)|]. split; [apply (GP 0%nat)|]. split; [apply (GP 1%nat)|]. split; [right; reflexivity|].
        split; [apply OL; reflexivity|]. split; [discriminate|]. split; [apply TR; reflexivity|]. split; [apply MK; reflexivity|]. split; [apply SG; reflexivity|].
        split; [apply OL; reflexivity|]. split; [apply TR; reflexivity|]. split; [apply BK; reflexivity|]. constructor; [apply (GP 0%nat)|constructor].
    + apply in_turn_cons. split; [|intros y b E; injection E as <- _; cbn; lia]. intros a x y b E. destruct a as [|? a]; [discriminate|destruct a; discriminate].
  - intros a x y b E. destruct a as [|? a]; [discriminate|destruct a; discriminate].
Qed.

Print Assumptions C84_meaning.
Print Assumptions C84_one_meaning.
Print Assumptions C84_line_ends.
Print Assumptions C84_rejected.
Print Assumptions C84_flush.
Print Assumptions C84_seen.
Print Assumptions C84_loads_iff.
Print Assumptions C84_inline_remark_refuted.
Print Assumptions C84_deeper_refuted.
