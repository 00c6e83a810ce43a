(** * Lemmas for C97. *)
From Coq Require Import Ascii String.
From Verif Require Import Base BaseLemmas PyStr UtilModel UtilSpec UtilProofs UtilProps IniModel IniSpec CmdModel CmdSpec CmdProofs
  PreModel PreSpec PreProps RastModel RastSpec RastProps ReprModel PrepSpec PrepModel.
Open Scope Z_scope.

(** ** Settings *)
Lemma gives_dec f s o : (exists v, gives_l f s o v) \/ (forall v, ~ gives_l f s o v).
Proof.
  unfold gives_l. induction f as [|[s' opts] f IH]; [right; intros v (? & ? & [] & _)|].
  destruct IH as [(v & opts' & o' & I & J & E)|N]; [left; exists v, opts', o'; split; [right; exact I|auto]|].
  assert (D : (exists v o', In (o', v) opts /\ optionxform o' = o) \/ forall v o', In (o', v) opts -> optionxform o' <> o).
  { clear. induction opts as [|[o1 v1] opts IH]; [right; intros v o' []|]. destruct (list_eq_dec ascii_dec (optionxform o1) o) as [E|E]; [left; exists v1, o1; split; [left; reflexivity|exact E]|].
    destruct IH as [(v & o' & I & J)|N]; [left; exists v, o'; split; [right; exact I|exact J]|]. right. intros v o' [I|I]; [injection I as <- <-; exact E|exact (N v o' I)]. }
  destruct (list_eq_dec ascii_dec s' s) as [->|Ns].
  - destruct D as [(v & o' & I & E)|D]; [left; exists v, opts, o'; split; [left; reflexivity|auto]|]. right. intros v (opts' & o' & [I|I] & J & E); [injection I as ->; exact (D v o' J E)|]. apply (N v). exists opts', o'. auto.
  - right. intros v (opts' & o' & [I|I] & J & E); [injection I as X _; exact (Ns X)|]. apply (N v). exists opts', o'. auto.
Qed.
Lemma given_dec files s o : (exists v, last_given files s o v) \/ never_given files s o.
Proof.
  assert (D : (exists v, last_given_l files s (optionxform o) v) \/ never_given_l files s (optionxform o)).
  { generalize (optionxform o). clear o. intros o. unfold last_given_l, never_given_l. induction files as [|f files IH]; [right; intros f []|].
    destruct IH as [(v & b & g & a & E & I & N)|N]; [left; exists v, (f :: b), g, a; split; [rewrite E; reflexivity|auto]|].
    destruct (gives_dec f s o) as [(v & I)|M]; [left; exists v, [], f, files; split; [reflexivity|auto]|]. right. intros g [<-|I]; [exact M|exact (N g I)]. }
  destruct D as [(v & D)|D]; [left; exists v; apply last_given_spec; exact D|right; apply never_given_spec; exact D].
Qed.
Lemma mentions_dec files s : (exists g, In g files /\ mentions g s) \/ (forall g, In g files -> ~ mentions g s).
Proof.
  induction files as [|f files IH]; [right; intros g []|]. destruct IH as [(g & I & M)|N]; [left; exists g; split; [right; exact I|exact M]|].
  assert (D : mentions f s \/ ~ mentions f s).
  { unfold mentions. clear. induction f as [|[s' opts] f IH]; [right; intros (? & [])|]. destruct (list_eq_dec ascii_dec s' s) as [->|Ns]; [left; exists opts; left; reflexivity|].
    destruct IH as [(o & I)|N]; [left; exists o; right; exact I|]. right. intros (o & [I|I]); [injection I as X _; exact (Ns X)|]. apply N. exists o. exact I. }
  destruct D as [D|D]; [left; exists f; split; [left; reflexivity|exact D]|]. right. intros g [<-|I]; [exact D|exact (N g I)].
Qed.

Lemma get_set d0 def loads p s o v : history d0 def loads p -> s <> lit "DEFAULT" ->
  (cfg_get (p_conf p) s o = Ok v <-> set_to (found ((d0, def) :: loads)) s o v).
Proof.
  intros H ND. assert (B : forall v, set_to (found ((d0, def) :: loads)) s o v -> cfg_get (p_conf p) s o = Ok v).
  { intros w [L|(M & N & L)]; [exact (C51_section_value _ _ _ _ _ _ _ H L)|exact (C51_default_value _ _ _ _ _ _ _ H M N L)]. }
  split; [|apply B]. intros E. destruct (given_dec (found ((d0, def) :: loads)) s o) as [(w & L)|N].
  - left. rewrite (C51_section_value _ _ _ _ _ _ _ H L) in E. injection E as <-. exact L.
  - destruct (mentions_dec (found ((d0, def) :: loads)) s) as [M|M].
    + destruct (given_dec (found ((d0, def) :: loads)) (lit "DEFAULT") o) as [(w & L)|N'].
      * right. rewrite (C51_default_value _ _ _ _ _ _ _ H M N L) in E. injection E as <-. auto.
      * rewrite (C51_unset _ _ _ _ s o H) in E; [discriminate|]. left. auto.
    + rewrite (C51_unset _ _ _ _ s o H) in E; [discriminate|]. right. auto.
Qed.
Lemma get_fails c s o e : cfg_get c s o = Err e -> e = KeyError.
Proof. unfold cfg_get. destruct (_ || _)%bool; [|intros E; injection E as <-; reflexivity]. cbv zeta. destruct (c_value c s _); [discriminate|]. destruct (c_value c _ _); [discriminate|]. intros E. injection E as <-. reflexivity. Qed.

Lemma str_eqb_false a b : str_eqb a b = false <-> a <> b.
Proof. destruct (str_eqb a b) eqn:E; [apply str_eqb_eq in E; split; [discriminate|contradiction]|]. split; [|reflexivity]. intros _ X. apply str_eqb_eq in X. congruence. Qed.

Lemma configured_told d0 def loads p n : history d0 def loads p -> (configured (p_conf p) = Ok n <-> told (found ((d0, def) :: loads)) n).
Proof.
  intros H. pose proof (fun s o v N => get_set d0 def loads p s o v H N) as G. unfold configured, told. cbv zeta.
  assert (P : lit "Preprocessing" <> lit "DEFAULT") by discriminate. assert (I : lit "inputValues" <> lit "DEFAULT") by discriminate.
  split.
  - intros E. repeat match type of E with bind ?t _ = _ => let x := fresh "x" in let Ex := fresh "Ex" in destruct t as [x|] eqn:Ex; [cbn [bind] in E|discriminate] end.
    injection E as <-. cbn [settlements settlement_field uses use_field mask shapes map_file elevation].
    repeat (split; [apply G; assumption|]). match goal with Ex : (if str_eqb ?t _ then _ else _) = Ok _ |- _ => exists t; split; [apply G; assumption|]; destruct (str_eqb t (lit "True")) eqn:T end.
    + left. apply str_eqb_eq in T. split; [exact T|apply G; assumption].
    + right. apply str_eqb_false in T. split; [exact T|]. match goal with Ex : Ok _ = Ok _ |- _ => injection Ex as <-; reflexivity end.
  - destruct n as [a b c d e f g h]. cbn [settlements settlement_field uses use_field mask shapes map_file elevation].
    intros (H1 & H2 & H3 & H4 & H5 & H6 & H7 & t & H8 & H9).
    apply (G _ _ _ P) in H1, H2, H3, H4, H5, H6, H7, H8. rewrite H1, H2, H3, H4, H5, H6, H7, H8. cbn [bind].
    destruct H9 as [[-> H9]|[N ->]].
    + apply (G _ _ _ I) in H9. rewrite str_eqb_refl, H9. reflexivity.
    + apply str_eqb_false in N. rewrite N. reflexivity.
Qed.
Lemma configured_fails c e : configured c = Err e -> e = KeyError.
Proof.
  unfold configured. cbv zeta. intros E.
  repeat match type of E with bind ?t _ = _ => let x := fresh "x" in let Ex := fresh "Ex" in destruct t as [x|x] eqn:Ex; cbn [bind] in E; [|injection E as <-; solve [exact (get_fails _ _ _ _ Ex) | destruct (str_eqb _ _); [exact (get_fails _ _ _ _ Ex)|discriminate]]] end.
  discriminate.
Qed.

(** ** The program *)
Section Prep.
  Context {G : Type} (fl : Q -> Q) (ge : geo G) (covers : G -> Q * Q -> bool) (tr : str -> str -> Q * Q -> Q * Q) (atof : str -> Q).
  Let layers := pre_process_files fl ge.

  Lemma run_settings disk default argv l c (f f' : files G) r : (forall n t, disk n = Some t -> ~ In return_ t) ->
    line_says argv l -> last_file l None = Some c -> main fl ge covers tr atof disk default argv f = (f', Went r) ->
    exists files, reads disk [default; c] files /\
      (((forall n, ~ told files n) /\ f' = f /\ r = Some KeyError) \/
       exists n, told files n /\ (forall m, told files m -> m = n) /\
         match layers (f_vec f) (settlements n) (settlement_field n) (uses n) (use_field n) (mask n) with
         | Err e => f' = f /\ r = Some e
         | Ok l =>
             let v := put_layer (f_vec f) (shapes n) l in
             match rasterize covers tr atof v (f_ras f) (shapes n) (elevation n) with
             | Err e => f' = Files v (f_ras f) /\ r = Some e
             | Ok o => f' = Files v (put (f_ras f) (map_file n) o) /\ r = None
             end
         end).
  Proof.
    intros NR L C H. destruct (parse_says argv l L) as (v & P & _). unfold main, cmd_line in H. rewrite P, C in H.
    destruct (imported disk default) as [p0|e] eqn:I; [|discriminate]. cbn [bind] in H. destruct (import_is disk default p0 I) as [NP NI].
    destruct (load_text disk c p0) as [p|e] eqn:LT; [|discriminate]. destruct (load_is disk _ _ _ LT) as [SC SI].
    set (files := found [(parsed disk, default); (parsed disk, c)]).
    assert (HI : history (parsed disk) default [(parsed disk, c)] p) by (exists p0; split; [exact NP|]; cbn [foldM fst snd bind]; rewrite SC; reflexivity).
    exists files. split. { unfold files, found. cbn [flat_map fst snd]. apply reads_one; [exact NR|exact NI|]. apply reads_one; [exact NR|exact SI|constructor]. }
    pose proof (fun n => configured_told _ _ _ _ n HI) as T. fold files in T.
    destruct (configured (p_conf p)) as [n|e] eqn:E.
    - right. exists n. split; [apply T; reflexivity|]. split; [intros m Hm; apply T in Hm; congruence|]. unfold layers in *.
      destruct (pre_process_files fl ge (f_vec f) (settlements n) (settlement_field n) (uses n) (use_field n) (mask n)) as [la|e]; [|injection H as <- <-; auto].
      cbv zeta. cbn [f_vec f_ras] in H. destruct (rasterize covers tr atof _ _ _ _) as [o|e]; injection H as <- <-; auto.
    - left. split; [intros n Hn; apply T in Hn; discriminate|]. injection H as <- <-. rewrite (configured_fails _ _ E). auto.
  Qed.

End Prep.

Section Layers.
  Context {G : Type} (fl : Q -> Q) (ge : geo G).
  Lemma put_layer_with (vec : str -> option (layer G)) p l : with_file vec p l (put_layer vec p l).
  Proof. unfold put_layer. split; [rewrite str_eqb_refl; reflexivity|]. intros q N. apply str_eqb_false in N. rewrite N. reflexivity. Qed.
  Lemma put_with ras p i : with_file ras p i (put ras p i).
  Proof. unfold put. split; [rewrite str_eqb_refl; reflexivity|]. intros q N. apply str_eqb_false in N. rewrite N. reflexivity. Qed.
  Lemma add_field_in l k x : In x (add_field l k) <-> In x l \/ x = k.
  Proof.
    unfold add_field. destruct (existsb (str_eqb k) l) eqn:E.
    - apply existsb_exists in E. destruct E as (y & I & E). apply str_eqb_eq in E. subst y. split; [auto|]. intros [H| ->]; assumption.
    - rewrite in_app_iff. cbn [In]. intuition (subst; auto).
  Qed.

  Lemma layers_ok f sn sf un uf mn l : pre_process_files fl ge (f_vec f) sn sf un uf mn = Ok l ->
    exists sl ul d dom out, f_vec f sn = Some sl /\ f_vec f un = Some ul /\ mask_of f mn d /\
      (dom = None /\ d = None \/ exists m a0 g0 rest, dom = Some m /\ read m = (a0, g0) :: rest /\ d = Some g0) /\
      pre_process fl ge sf uf (l_features sl) (l_features ul) dom = Ok out /\
      l_proj l = l_proj ul /\ l_features l = written out /\ (forall x, In x (l_fields l) <-> In x (l_fields ul) \/ x = sf \/ x = lit "CAT").
  Proof.
    unfold pre_process_files, open_layer. intros E.
    destruct (f_vec f sn) as [sl|] eqn:Es; [cbn [bind] in E|discriminate]. destruct (f_vec f un) as [ul|] eqn:Eu; [cbn [bind] in E|discriminate].
    destruct (authorise _ _) as [s|] eqn:Ea; [cbn [bind] in E|discriminate]. destruct (dissolve ge sf s) as [s'|] eqn:Ed; [cbn [bind] in E|discriminate].
    match type of E with bind ?t _ = _ => destruct t as [dom|] eqn:Em; [cbn [bind] in E|discriminate] end.
    match type of E with bind ?t _ = _ => destruct t as [out|] eqn:Ep; [cbn [bind] in E|discriminate] end. injection E as <-. cbn [l_proj l_fields l_features].
    assert (M : exists d, mask_of f mn d /\ (dom = None /\ d = None \/ exists m a0 g0 rest, dom = Some m /\ read m = (a0, g0) :: rest /\ d = Some g0)).
    { unfold mask_of. destruct (str_eqb mn (lit "None")) eqn:En.
      - apply str_eqb_eq in En. injection Em as <-. exists None. auto.
      - apply str_eqb_false in En. destruct (f_vec f mn) as [m|] eqn:Ef; [cbn [bind] in Em|discriminate]. injection Em as <-.
        destruct (read (l_features m)) as [|[a g] rest] eqn:Er.
        + exfalso. unfold pre_process in Ep. rewrite Ea in Ep. cbn [bind] in Ep. rewrite Ed in Ep. cbn [bind] in Ep. rewrite Er in Ep. discriminate.
        + exists (Some g). split; [right; split; [exact En|exists m, a, g, rest; auto]|]. right. exists (l_features m), a, g, rest. auto. }
    destruct M as (d & M1 & M2). exists sl, ul, d, dom, out. repeat (split; [first [reflexivity | assumption]|]). intros x. rewrite !add_field_in. tauto.
  Qed.
End Layers.
