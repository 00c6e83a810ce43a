(** * Proofs for configuration, elapsed time and checksum (C51, C54, C55). *)
From Coq Require Import Ascii String.
From Verif Require Import Base BaseLemmas PyStr NameSpec NameProofs TileNameProofs UtilModel UtilSpec.
Open Scope Z_scope.

(** ** Configuration *)
Lemma str_eqb_spec a b : reflect (a = b) (str_eqb a b).
Proof. unfold str_eqb. destruct (list_eq_dec ascii_dec a b); constructor; assumption. Qed.
Lemma str_eqb_refl a : str_eqb a a = true.
Proof. destruct (str_eqb_spec a a); [reflexivity|contradiction]. Qed.
Lemma existsb_str s l : existsb (str_eqb s) l = true <-> In s l.
Proof.
  rewrite existsb_exists. split; [intros (x & H & E); destruct (str_eqb_spec s x); [subst; exact H|discriminate]|]. intros H. exists s. split; [exact H|apply str_eqb_refl].
Qed.
Lemma existsb_key s o l : existsb (fun p => str_eqb s (fst p) && str_eqb o (snd p))%bool l = true <-> In (s, o) l.
Proof.
  rewrite existsb_exists. split.
  - intros ([x y] & H & E). cbn [fst snd] in E. destruct (str_eqb_spec s x), (str_eqb_spec o y); try discriminate. subst. exact H.
  - intros H. exists (s, o). split; [exact H|]. cbn [fst snd]. rewrite !str_eqb_refl. reflexivity.
Qed.

(** The specification's relations, on option names in lower case. *)
Definition gives_l (f : cfgfile) (s o v : str) : Prop := exists opts o', In (s, opts) f /\ In (o', v) opts /\ optionxform o' = o.
Definition last_given_l (files : list cfgfile) (s o v : str) : Prop :=
  exists before f after, files = before ++ f :: after /\ gives_l f s o v /\ forall g, In g after -> forall w, ~ gives_l g s o w.
Definition never_given_l (files : list cfgfile) (s o : str) : Prop := forall f, In f files -> forall w, ~ gives_l f s o w.
Definition options_of_l (f : cfgfile) : list (str * str) := flat_map (fun e => map (fun p => (fst e, optionxform (fst p))) (snd e)) f.

Lemma lower_char_spec c d : same_letter c d <-> lower_char c = lower_char d.
Proof.
  split.
  - intros [->|[[H E]|[H E]]]; [reflexivity| |].
    + unfold lower_char. replace ((65 <=? Z.of_nat (nat_of_ascii c)) && (Z.of_nat (nat_of_ascii c) <=? 90))%bool with true by lia.
      replace ((65 <=? Z.of_nat (nat_of_ascii d)) && (Z.of_nat (nat_of_ascii d) <=? 90))%bool with false by lia. rewrite <- E. apply ascii_nat_embedding.
    + unfold lower_char. replace ((65 <=? Z.of_nat (nat_of_ascii d)) && (Z.of_nat (nat_of_ascii d) <=? 90))%bool with true by lia.
      replace ((65 <=? Z.of_nat (nat_of_ascii c)) && (Z.of_nat (nat_of_ascii c) <=? 90))%bool with false by lia. rewrite <- E. symmetry. apply ascii_nat_embedding.
  - unfold lower_char, same_letter, upper_lower. intros H.
    destruct ((65 <=? Z.of_nat (nat_of_ascii c)) && (Z.of_nat (nat_of_ascii c) <=? 90))%bool eqn:C, ((65 <=? Z.of_nat (nat_of_ascii d)) && (Z.of_nat (nat_of_ascii d) <=? 90))%bool eqn:D.
    + left. apply (f_equal nat_of_ascii) in H. rewrite !nat_ascii_embedding in H by lia. rewrite <- (ascii_nat_embedding c), <- (ascii_nat_embedding d). f_equal. lia.
    + right. left. split; [lia|]. rewrite <- H, nat_ascii_embedding by lia. reflexivity.
    + right. right. split; [lia|]. rewrite H, nat_ascii_embedding by lia. reflexivity.
    + left. exact H.
Qed.
Lemma same_option_spec o o' : same_option o o' <-> optionxform o = optionxform o'.
Proof.
  unfold same_option, optionxform. revert o'. induction o as [|c o IH]; intros [|d o']; cbn [map]; split; intros H; try (inversion H; fail); try reflexivity; try constructor.
  - inversion H; subst. f_equal; [apply lower_char_spec|apply IH]; assumption.
  - apply lower_char_spec. congruence.
  - apply IH. congruence.
Qed.
Lemma gives_spec f s o v : gives f s o v <-> gives_l f s (optionxform o) v.
Proof. unfold gives, gives_l. split; intros (opts & o' & A & B & C); exists opts, o'; (split; [exact A|]); (split; [exact B|]); apply same_option_spec; exact C. Qed.
Lemma last_given_spec files s o v : last_given files s o v <-> last_given_l files s (optionxform o) v.
Proof.
  unfold last_given, last_given_l. split; intros (b & f & a & A & B & C); exists b, f, a; (split; [exact A|]); (split; [apply gives_spec; exact B|]); intros g Hg w X; apply (C g Hg w); apply gives_spec; exact X.
Qed.
Lemma never_given_spec files s o : never_given files s o <-> never_given_l files s (optionxform o).
Proof. unfold never_given, never_given_l. split; intros H f Hf w X; apply (H f Hf w), gives_spec; exact X. Qed.
Lemma options_once_spec f : options_once f <-> NoDup (options_of_l f).
Proof.
  unfold options_once. replace (options_of_l f) with (map (fun p => (fst p, optionxform (snd p))) (options_of f)).
  - induction (options_of f) as [|p l IH]; cbn [map]; split; intros H; try constructor; inversion H as [|? ? A B]; subst.
    + intros X. apply in_map_iff in X. destruct X as (q & E & Hq). rewrite Forall_forall in A. apply (A q Hq). injection E as E1 E2. split; [congruence|apply same_option_spec; congruence].
    + apply IH. exact B.
    + apply Forall_forall. intros q Hq [E1 E2]. apply A. apply in_map_iff. exists q. split; [|exact Hq]. f_equal; [congruence|]. symmetry. apply same_option_spec. exact E2.
    + apply IH. exact B.
  - unfold options_of, options_of_l. induction f as [|e f IH]; [reflexivity|]. cbn [flat_map]. rewrite map_app, map_map, IH. reflexivity.
Qed.

Lemma read_options_ok s opts : forall seen c seen' c', read_options s opts seen c = Ok (seen', c') ->
  c_sections c' = c_sections c /\
  (forall o v, In (o, v) opts -> c_value c' s (optionxform o) = Some v) /\
  (forall s' o', s' <> s \/ (forall o v, In (o, v) opts -> optionxform o <> o') -> c_value c' s' o' = c_value c s' o') /\
  (forall k, In k seen -> In k seen') /\ (forall o v, In (o, v) opts -> In (s, optionxform o) seen') /\
  (forall s' o', In (s', o') seen -> c_value c' s' o' = c_value c s' o').
Proof.
  induction opts as [|[o v] opts IH]; intros seen c seen' c' H; cbn [read_options] in H.
  - injection H as <- <-. repeat split; auto; intros; contradiction.
  - destruct (existsb _ seen) eqn:X; [discriminate|]. assert (N : ~ In (s, optionxform o) seen) by (rewrite <- existsb_key, X; discriminate). clear X.
    destruct (IH _ _ _ _ H) as (I1 & I2 & I3 & I4 & I5 & I6).
    assert (V : c_value c' s (optionxform o) = Some v) by (rewrite I6 by (left; reflexivity); cbn; rewrite !str_eqb_refl; reflexivity).
    assert (K : forall s' o', (s', o') <> (s, optionxform o) -> c_value (set_value c s (optionxform o) v) s' o' = c_value c s' o').
    { intros s' o' D. cbn. destruct (str_eqb_spec s s'), (str_eqb_spec (optionxform o) o'); try reflexivity. subst. contradiction. }
    split; [exact I1|]. split; [|split; [|split; [|split]]].
    + intros o2 v2 [E|E]; [injection E as <- <-; exact V|exact (I2 _ _ E)].
    + intros s' o' D. rewrite I3; [apply K|].
      * destruct D as [D|D]; [congruence|]. intros E. injection E as _ E. exact (D o v (or_introl eq_refl) (eq_sym E)).
      * destruct D as [D|D]; [left; exact D|right; intros; eapply D; right; eassumption].
    + intros k Hk. apply I4. right. exact Hk.
    + intros o2 v2 [E|E]; [injection E as <- <-; apply I4; left; reflexivity|exact (I5 _ _ E)].
    + intros s' o' Hk. rewrite I6 by (right; exact Hk). apply K. intros E. rewrite E in Hk. contradiction.
Qed.

Lemma add_section_value c s : c_value (add_section c s) = c_value c.
Proof. unfold add_section. destruct (str_eqb s default_section); [reflexivity|]. destruct (existsb _ _); reflexivity. Qed.
Lemma add_section_in c s x : In x (c_sections (add_section c s)) <-> In x (c_sections c) \/ (x = s /\ s <> default_section).
Proof.
  unfold add_section. destruct (str_eqb_spec s default_section); [tauto|]. destruct (existsb (str_eqb s) (c_sections c)) eqn:X.
  - apply existsb_str in X. split; [tauto|]. intros [H|[-> _]]; assumption.
  - cbn. rewrite in_app_iff. cbn. split; [intros [H|[H|[]]]; [left; exact H|right; split; [symmetry; exact H|assumption]]|]. intros [H|[-> _]]; auto.
Qed.

Lemma read_sections_ok f : forall ss so c c', read_sections f ss so c = Ok c' ->
  (forall s o v, gives_l f s o v -> c_value c' s o = Some v) /\
  (forall s o, (forall v, ~ gives_l f s o v) -> c_value c' s o = c_value c s o) /\
  (forall s o, In (s, o) so -> c_value c' s o = c_value c s o) /\
  (forall s, In s (c_sections c') <-> In s (c_sections c) \/ (mentions f s /\ s <> default_section)).
Proof.
  induction f as [|[s opts] f IH]; intros ss so c c' H; cbn [read_sections] in H.
  - injection H as <-. split; [intros s o v (opts & o' & [] & _)|]. split; [reflexivity|]. split; [reflexivity|]. intros s. split; [auto|]. intros [X|[(opts & []) _]]; assumption.
  - destruct (_ && _)%bool; [discriminate|]. destruct (read_options s opts so (add_section c s)) as [[seen c1]|] eqn:E; [|discriminate]. cbn [bind fst snd] in H.
    destruct (read_options_ok _ _ _ _ _ _ E) as (O1 & O2 & O3 & O4 & O5 & O6). destruct (IH _ _ _ _ H) as (I1 & I2 & I3 & I4). rewrite add_section_value in O3, O6.
    split; [|split; [|split]].
    + intros s' o' v (opts' & o2 & [X|X] & Y & Z).
      * injection X as <- <-. subst o'. rewrite (I3 s (optionxform o2)); [apply (O2 _ _ Y)|exact (O5 _ _ Y)].
      * apply I1. exists opts', o2. auto.
    + intros s' o' N. rewrite I2; [apply O3|].
      * destruct (str_eqb_spec s' s) as [->|]; [right|left; assumption]. intros o2 v Y Z. apply (N v). exists opts, o2. split; [left; reflexivity|auto].
      * intros v (opts' & o2 & X & Y & Z). apply (N v). exists opts', o2. split; [right; exact X|auto].
    + intros s' o' K. rewrite I3 by (apply O4; exact K). apply O6. exact K.
    + intros s'. rewrite I4, O1, add_section_in. unfold mentions. split.
      * intros [[X|[-> X]]|[(opts' & X) Y]]; [left; exact X|right; split; [exists opts; left; reflexivity|exact X]|right; split; [exists opts'; right; exact X|exact Y]].
      * intros [X|[(opts' & [X|X]) Y]]; [auto|injection X as <- <-; auto|right; split; [exists opts'; exact X|exact Y]].
Qed.

(** When reading a file succeeds. *)
Lemma read_options_accepts s opts : forall seen c,
  (exists r, read_options s opts seen c = Ok r) <->
  NoDup (map (fun p => (s, optionxform (fst p))) opts) /\ (forall p, In p opts -> ~ In (s, optionxform (fst p)) seen).
Proof.
  induction opts as [|[o v] opts IH]; intros seen c; cbn [read_options map fst].
  - split; [intros _; split; [constructor|intros p []]|intros _; eexists; reflexivity].
  - destruct (existsb _ seen) eqn:X.
    + apply existsb_key in X. split; [intros (r & H); discriminate|]. intros [_ H]. exfalso. exact (H (o, v) (or_introl eq_refl) X).
    + assert (N : ~ In (s, optionxform o) seen) by (rewrite <- existsb_key, X; discriminate). rewrite IH. split.
      * intros [A B]. split.
        -- constructor; [|exact A]. intros Y. apply in_map_iff in Y. destruct Y as (p & Y & Z). apply (B p Z). left. symmetry. exact Y.
        -- intros p [<-|Z] W; [exact (N W)|exact (B p Z (or_intror W))].
      * intros [A B]. inversion A as [|? ? A1 A2]; subst. split; [exact A2|]. intros p Z [W|W].
        -- apply A1. apply in_map_iff. exists p. split; [symmetry; exact W|exact Z].
        -- exact (B p (or_intror Z) W).
Qed.
Lemma read_options_seen s opts : forall seen c seen' c', read_options s opts seen c = Ok (seen', c') ->
  forall k, In k seen' <-> In k seen \/ In k (map (fun p => (s, optionxform (fst p))) opts).
Proof.
  induction opts as [|[o v] opts IH]; intros seen c seen' c' H k; cbn [read_options] in H.
  - injection H as <- <-. cbn. tauto.
  - destruct (existsb _ seen); [discriminate|]. rewrite (IH _ _ _ _ H). cbn. tauto.
Qed.
Lemma read_sections_accepts f : forall ss so c,
  (exists r, read_sections f ss so c = Ok r) <->
  NoDup (sections_of f) /\ NoDup (options_of_l f) /\ (forall s, In s (sections_of f) -> ~ In s ss) /\ (forall k, In k (options_of_l f) -> ~ In k so).
Proof.
  induction f as [|[s opts] f IH]; intros ss so c; cbn [read_sections].
  - split; [intros _; repeat split; try constructor; intros ? []|intros _; eexists; reflexivity].
  - unfold sections_of, options_of_l. cbn [map filter flat_map fst snd]. fold (sections_of f) (options_of_l f).
    destruct (read_options s opts so (add_section c s)) as [[seen c1]|e] eqn:E.
    + cbn [bind fst snd]. assert (A : exists r, read_options s opts so (add_section c s) = Ok r) by (eexists; exact E). rewrite read_options_accepts in A. destruct A as [A1 A2].
      pose proof (read_options_seen _ _ _ _ _ _ E) as SE. set (ks := map (fun p => (s, optionxform (fst p))) opts) in *.
      assert (A2' : forall k, In k ks -> ~ In k so) by (intros k Hk; apply in_map_iff in Hk; destruct Hk as (p & <- & Hp); apply A2; exact Hp).
      assert (AppNoDup : NoDup (ks ++ options_of_l f) <-> NoDup (options_of_l f) /\ (forall k, In k (options_of_l f) -> ~ In k ks)).
      { clear - A1. induction ks as [|k ks IHk]; [cbn; split; [intros H; split; [exact H|intros ? ? []]|tauto]|]. inversion A1 as [|? ? B1 B2]; subst. cbn [app]. split.
        - intros H. inversion H as [|? ? C1 C2]; subst. apply (IHk B2) in C2. destruct C2 as [C2 C3]. split; [exact C2|]. intros x Hx [->|Hk]; [apply C1; apply in_or_app; right; exact Hx|exact (C3 x Hx Hk)].
        - intros [H1 H2]. constructor; [|apply (IHk B2); split; [exact H1|intros x Hx Hk; exact (H2 x Hx (or_intror Hk))]]. intros X. apply in_app_or in X. destruct X as [X|X]; [exact (B1 X)|exact (H2 k X (or_introl eq_refl))]. }
      rewrite AppNoDup. change (lit "DEFAULT") with default_section. destruct (str_eqb_spec s default_section) as [->|ND]; cbn [negb andb].
      * rewrite IH. split.
        -- intros (H1 & H2 & H3 & H4). split; [exact H1|]. split; [split; [exact H2|intros k Hk Hs; apply (H4 k Hk); apply SE; right; exact Hs]|]. split; [intros x Hx Hs; exact (H3 x Hx (or_intror Hs))|].
           intros k Hk. apply in_app_or in Hk. destruct Hk as [Hk|Hk]; [exact (A2' k Hk)|intros Hs; apply (H4 k Hk); apply SE; left; exact Hs].
        -- intros (H1 & (H2 & H2') & H3 & H4). split; [exact H1|]. split; [exact H2|]. split.
           ++ intros x Hx [Hs|Hs]; [|exact (H3 x Hx Hs)]. unfold sections_of in Hx. apply filter_In in Hx. destruct Hx as [_ Hx]. rewrite <- Hs, str_eqb_refl in Hx. discriminate.
           ++ intros k Hk Hs. apply SE in Hs. destruct Hs as [Hs|Hs]; [exact (H4 k (in_or_app _ _ _ (or_intror Hk)) Hs)|exact (H2' k Hk Hs)].
      * destruct (existsb (str_eqb s) ss) eqn:X; cbn [negb].
        -- apply existsb_str in X. split; [intros (r & H); discriminate|]. intros (_ & _ & H3 & _). exfalso. exact (H3 s (or_introl eq_refl) X).
        -- assert (NS : ~ In s ss) by (rewrite <- existsb_str, X; discriminate). rewrite IH. split.
           ++ intros (H1 & H2 & H3 & H4). split; [constructor; [intros Hs; exact (H3 s Hs (or_introl eq_refl))|exact H1]|].
              split; [split; [exact H2|intros k Hk Hs; apply (H4 k Hk); apply SE; right; exact Hs]|]. split; [intros x [<-|Hx] Hs; [exact (NS Hs)|exact (H3 x Hx (or_intror Hs))]|].
              intros k Hk. apply in_app_or in Hk. destruct Hk as [Hk|Hk]; [exact (A2' k Hk)|intros Hs; apply (H4 k Hk); apply SE; left; exact Hs].
           ++ intros (H1 & (H2 & H2') & H3 & H4). inversion H1 as [|? ? B1 B2]; subst. split; [exact B2|]. split; [exact H2|]. split.
              ** intros x Hx [->|Hs]; [exact (B1 Hx)|exact (H3 x (or_intror Hx) Hs)].
              ** intros k Hk Hs. apply SE in Hs. destruct Hs as [Hs|Hs]; [exact (H4 k (in_or_app _ _ _ (or_intror Hk)) Hs)|exact (H2' k Hk Hs)].
    + cbn [bind]. split; [intros (r & H); destruct (_ && _)%bool; discriminate|]. intros (_ & H2 & _ & H4). exfalso.
      assert (A : exists r, read_options s opts so (add_section c s) = Ok r); [|destruct A as (r & A); congruence]. apply read_options_accepts. split.
      * clear - H2. induction (map (fun p => (s, optionxform (fst p))) opts) as [|k ks IHk]; [constructor|]. cbn [app] in H2. inversion H2 as [|? ? B1 B2]; subst. constructor; [intros X; apply B1; apply in_or_app; left; exact X|exact (IHk B2)].
      * intros p Hp. apply H4. apply in_or_app. left. apply in_map_iff. exists p. auto.
Qed.

(** ** Histories of loads *)
Definition after (files : list cfgfile) (c : conf) : Prop :=
  (forall s o v, last_given_l files s o v -> c_value c s o = Some v) /\
  (forall s o, never_given_l files s o -> c_value c s o = None) /\
  (forall s, In s (c_sections c) <-> (exists f, In f files /\ mentions f s) /\ s <> default_section).

Lemma gives_dec f s o : (exists v, gives_l f s o v) \/ (forall v, ~ gives_l f s o v).
Proof.
  destruct (existsb (fun e => str_eqb (fst e) s && existsb (fun p => str_eqb (optionxform (fst p)) o) (snd e))%bool f) eqn:X.
  - left. apply existsb_exists in X. destruct X as ([s2 opts2] & In2 & X). cbn [fst snd] in X. apply andb_prop in X. destruct X as [X1 X2]. destruct (str_eqb_spec s2 s); [subst|discriminate].
    apply existsb_exists in X2. destruct X2 as ([o2 v2] & In3 & X3). cbn [fst] in X3. destruct (str_eqb_spec (optionxform o2) o); [|discriminate]. exists v2, opts2, o2. auto.
  - right. intros v (opts2 & o2 & In2 & In3 & Y). assert (Z : existsb (fun e => str_eqb (fst e) s && existsb (fun p => str_eqb (optionxform (fst p)) o) (snd e))%bool f = true); [|congruence].
    apply existsb_exists. exists (s, opts2). split; [exact In2|]. cbn [fst snd]. rewrite str_eqb_refl. cbn [andb]. apply existsb_exists. exists (o2, v). split; [exact In3|]. cbn [fst]. rewrite Y. apply str_eqb_refl.
Qed.

Lemma after_step files c f c' : after files c -> read_sections f [] [] c = Ok c' -> after (files ++ [f]) c'.
Proof.
  intros (A1 & A2 & A3) H. destruct (read_sections_ok _ _ _ _ _ H) as (B1 & B2 & _ & B4). split; [|split].
  - intros s o v (bef & g & aft & E & G & L). destruct (exists_last (l := g :: aft)) as (l' & x & E'); [discriminate|].
    destruct aft as [|y aft].
    + apply app_inj_tail in E. destruct E as [_ ->]. apply B1. exact G.
    + destruct (exists_last (l := y :: aft)) as (l2 & x2 & E2); [discriminate|]. rewrite E2 in E, L. rewrite app_comm_cons, app_assoc in E. apply app_inj_tail in E. destruct E as [E ->].
      rewrite B2; [|apply L; apply in_or_app; right; left; reflexivity]. apply A1. exists bef, g, l2. split; [exact E|]. split; [exact G|]. intros g' Hg. apply L. apply in_or_app. left. exact Hg.
  - intros s o N. rewrite B2; [apply A2|apply N; apply in_or_app; right; left; reflexivity]. intros g Hg. apply N. apply in_or_app. left. exact Hg.
  - intros s. rewrite B4, A3. split.
    + intros [[(g & Hg & M) D]|[M D]]; split; try exact D; [exists g|exists f]; (split; [apply in_or_app|exact M]); [left; exact Hg|right; left; reflexivity].
    + intros [(g & Hg & M) D]. apply in_app_or in Hg. destruct Hg as [Hg|[<-|[]]]; [left|right]; split; try exact D; try exact M. exists g. auto.
Qed.
Lemma after_load files p d n p' : after files (p_conf p) -> set_config_file d n p = Ok p' -> after (files ++ found [(d, n)]) (p_conf p').
Proof.
  intros A H. unfold set_config_file, read_file in H. cbn [p_readonce p_file p_conf] in H. unfold cfg_read in H. unfold found. cbn [flat_map fst snd]. destruct (d n) as [f|].
  - destruct (read_sections f [] [] (p_conf p)) as [c|] eqn:E; [|discriminate]. cbn [bind] in H. injection H as <-. cbn [p_conf app]. eapply after_step; eassumption.
  - cbn [bind] in H. injection H as <-. cbn [p_conf app]. rewrite app_nil_r. exact A.
Qed.
Lemma after_loads loads : forall files p p', after files (p_conf p) -> foldM (fun p l => set_config_file (fst l) (snd l) p) loads p = Ok p' -> after (files ++ found loads) (p_conf p').
Proof.
  induction loads as [|[d n] loads IH]; intros files p p' A H; cbn [foldM] in H.
  - injection H as <-. cbn. rewrite app_nil_r. exact A.
  - destruct (set_config_file (fst (d, n)) (snd (d, n)) p) as [p1|] eqn:E; [|discriminate]. cbn [bind] in H. pose proof (after_load _ _ _ _ _ A E) as A1. specialize (IH _ _ _ A1 H).
    replace (found ((d, n) :: loads)) with (found [(d, n)] ++ found loads); [rewrite app_assoc; exact IH|]. unfold found. cbn [flat_map]. rewrite app_nil_r. reflexivity.
Qed.
Lemma after_new d0 def p : new_parser d0 def = Ok p -> after (found [(d0, def)]) (p_conf p).
Proof.
  intros H. unfold new_parser in H. assert (A0 : after [] empty_conf).
  { split; [intros s o v ([|] & f & a & E & _); discriminate|]. split; [reflexivity|]. intros s. cbn. split; [intros []|intros [(f & [] & _) _]]. }
  unfold found. cbn [flat_map fst snd]. destruct (d0 def) as [f|] eqn:E.
  - unfold read_file, cfg_read in H. cbn [p_readonce p_file p_conf] in H. rewrite E in H. destruct (read_sections f [] [] empty_conf) as [c|] eqn:R; [|discriminate]. cbn [bind] in H. injection H as <-. exact (after_step [] _ _ _ A0 R).
  - injection H as <-. exact A0.
Qed.
Lemma after_history d0 def loads p0 p : new_parser d0 def = Ok p0 -> foldM (fun p l => set_config_file (fst l) (snd l) p) loads p0 = Ok p ->
  after (found ((d0, def) :: loads)) (p_conf p).
Proof.
  intros H0 H. replace (found ((d0, def) :: loads)) with (found [(d0, def)] ++ found loads) by (unfold found; cbn [flat_map]; rewrite app_nil_r; reflexivity).
  eapply after_loads; [apply after_new; exact H0|exact H].
Qed.

(** ** Elapsed time *)
Lemma fmod_nonneg v w : (0 <= v)%Q -> (0 < w)%Q -> (fmod v w == v - w * inject_Z (Qfloor (v / w)))%Q /\ (0 <= fmod v w < w)%Q /\ 0 <= Qfloor (v / w).
Proof.
  intros Hv Hw. assert (D : (0 <= v / w)%Q) by (apply Qle_shift_div_l; lra). unfold fmod. assert (py_int (v / w) = Qfloor (v / w)) as -> by (unfold py_int; rewrite (proj2 (Qle_bool_iff _ _) D); reflexivity).
  split; [reflexivity|]. destruct (Qfloor_spec (v / w)) as [F1 F2]. assert (E : (w * (v / w) == v)%Q) by (field; lra). split; [split|].
  - assert (w * inject_Z (Qfloor (v / w)) <= w * (v / w))%Q by (apply Qmult_le_l; assumption). lra.
  - assert (w * (v / w) < w * (inject_Z (Qfloor (v / w)) + 1))%Q by (apply Qmult_lt_l; assumption). lra.
  - apply Qfloor_nonneg. exact D.
Qed.

Section Timer.
  Variable fl : Q -> Q.
  Hypothesis F : fl_ok fl.

  Lemma divmod_nonneg v n : (0 <= v)%Q -> (v < inject_Z (2 ^ 53))%Q -> 1 <= n ->
    exists m, py_divmod fl v (inject_Z n) = (inject_Z (Qfloor (v / inject_Z n)), m) /\ (m == v - inject_Z n * inject_Z (Qfloor (v / inject_Z n)))%Q /\ (0 <= m < inject_Z n)%Q.
  Proof.
    intros Hv Hb Hn. assert (W : (0 < inject_Z n)%Q) by (rewrite <- (Zlt_Qlt 0); lia). destruct (fmod_nonneg v (inject_Z n) Hv W) as (M1 & M2 & M3).
    set (q := Qfloor (v / inject_Z n)) in *. assert (B1 : (inject_Z (n * q) <= v)%Q) by (rewrite inject_Z_mult; lra).
    assert (Bq : 0 <= n * q < 2 ^ 53). { split; [nia|]. rewrite Zlt_Qlt. eapply Qle_lt_trans; [exact B1|exact Hb]. }
    assert (Bq' : 0 <= q < 2 ^ 53) by nia.
    unfold py_divmod. set (m := fmod v (inject_Z n)) in *.
    assert (D : (fl (fl (v - m) / inject_Z n) == inject_Z q)%Q).
    { rewrite (fl_proper fl F _ (inject_Z q)); [apply (fl_int fl F); lia|]. rewrite (fl_proper fl F (v - m) (inject_Z (n * q))) by (rewrite inject_Z_mult; lra). rewrite (fl_int fl F) by lia. rewrite inject_Z_mult. field. lra. }
    replace (Qltb m 0) with false by (symmetry; apply Qltb_ge; lra). set (d := fl (fl (v - m) / inject_Z n)%Q) in *.
    assert (Ed : Qfloor d = q) by (rewrite D; apply Qfloor_Z). rewrite Ed.
    replace (Qltb (1#2) (fl (d - inject_Z q)%Q)) with false.
    - exists m. split; [reflexivity|]. split; [exact M1|exact M2].
    - symmetry. apply Qltb_ge. rewrite (fl_proper fl F _ (inject_Z 0)) by (change (inject_Z 0) with 0%Q; lra). rewrite (fl_int fl F) by lia. discriminate.
  Qed.
End Timer.

Lemma dec_ok n : 0 <= n -> int_val (dec n) = n /\ forallb is_digit (dec n) = true /\ dec n <> [].
Proof.
  intros H. unfold dec. change dec_digits with zdig. destruct (zdig_ok (Z.to_nat (Z.log2 n)) n) as (A & B & C & _); [|auto].
  split; [exact H|]. destruct (Z.eq_dec n 0) as [->|]; [reflexivity|]. rewrite Nat2Z.inj_succ, Z2Nat.id by apply Z.log2_nonneg.
  eapply Z.lt_le_trans; [apply (Z.log2_spec n); lia|]. apply Z.pow_le_mono_l. lia.
Qed.
Lemma dec_one n : 0 <= n < 10 -> length (dec n) = 1%nat.
Proof. intros H. unfold dec. cbn [dec_digits]. replace (n <? 10) with true by lia. reflexivity. Qed.
Lemma dec_two n : 10 <= n < 100 -> length (dec n) = 2%nat.
Proof.
  intros H. unfold dec. cbn [dec_digits]. replace (n <? 10) with false by lia. assert (exists k, Z.to_nat (Z.log2 n) = S k) as (k & ->).
  { assert (3 <= Z.log2 n) by (change 3 with (Z.log2 8); apply Z.log2_le_mono; lia). exists (Z.to_nat (Z.log2 n) - 1)%nat. lia. }
  cbn [dec_digits]. replace (n / 10 <? 10) with true; [reflexivity|]. symmetry. apply Z.ltb_lt. apply Z.div_lt_upper_bound; lia.
Qed.
Lemma fmt_02d_ok x : (0 <= x)%Q -> let s := fmt_02d x in int_val s = Qfloor x /\ forallb is_digit s = true /\ (2 <= length s)%nat /\ (Qfloor x < 100 -> length s = 2%nat).
Proof.
  intros Hx s. unfold s, fmt_02d. assert (py_int x = Qfloor x) as -> by (unfold py_int; rewrite (proj2 (Qle_bool_iff _ _) Hx); reflexivity). pose proof (Qfloor_nonneg x Hx) as P. set (n := Qfloor x) in *.
  replace (n <? 0) with false by lia. destruct (dec_ok n P) as (A & B & C). destruct (Z.ltb_spec n 10).
  - rewrite int_val_app. change (int_val (lit "0")) with 0. fold (int_val (dec n)). split; [exact A|]. split; [exact B|]. rewrite app_length, dec_one by lia. cbn. split; [lia|intros _; reflexivity].
  - split; [exact A|]. split; [exact B|]. split; [|intros L; apply dec_two; lia].
    destruct (dec n) as [|a [|b l]] eqn:E; [contradiction| |cbn; lia]. exfalso. assert (int_val [a] <= 9); [|lia]. unfold int_val. cbn [fold_left].
    cbn [forallb] in B. rewrite andb_true_r in B. pose proof (digit_val_range a B). lia.
Qed.

(** ** Checksum *)
Lemma hash_loop_all {H} (update : H -> str -> H) chunk : streaming update -> chunk <> 0 ->
  forall fuel m rest, (length rest < fuel)%nat -> rest <> [] -> hash_loop update chunk fuel m rest = update m rest.
Proof.
  intros St N. induction fuel as [|fuel IH]; intros m rest L R; [lia|]. cbn [hash_loop]. unfold file_read. destruct (Z.ltb_spec chunk 0).
  - destruct rest as [|a rest]; [contradiction|]. destruct fuel as [|fuel]; [cbn in L; lia|]. cbn [hash_loop]. unfold file_read. destruct (Z.ltb_spec chunk 0); [reflexivity|lia].
  - assert (exists k, Z.to_nat chunk = S k) as (k & ->) by (exists (Z.to_nat chunk - 1)%nat; lia). destruct rest as [|a rest]; [contradiction|]. cbn [firstn skipn].
    destruct (skipn k rest) as [|b r'] eqn:E.
    + assert (X : firstn k rest = rest) by (rewrite <- (firstn_skipn k rest) at 2; rewrite E, app_nil_r; reflexivity). rewrite X. destruct fuel; [reflexivity|]. cbn [hash_loop]. unfold file_read. destruct (Z.ltb_spec chunk 0); [lia|]. rewrite firstn_nil. reflexivity.
    + rewrite IH; [|rewrite <- E, skipn_length; cbn in L; lia|discriminate]. rewrite St. f_equal. cbn [app]. f_equal. rewrite <- E. apply firstn_skipn.
Qed.
