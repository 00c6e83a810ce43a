(** * Proofs for logged calls (C96). *)
From Verif Require Import Base BaseLemmas PyStr CallSpec BlrbModel CallModel.
Open Scope Z_scope.

Lemma mem_in x l : mem x l = true <-> In x l.
Proof. unfold mem. destruct (in_dec (list_eq_dec ascii_dec) x l); split; congruence || auto. Qed.
Lemma mem_notin x l : mem x l = false <-> ~ In x l.
Proof. unfold mem. destruct (in_dec (list_eq_dec ascii_dec) x l); split; congruence || tauto. Qed.

Lemma or_iff_morph (a b c d : Prop) : (a <-> b) -> (c <-> d) -> (a \/ c <-> b \/ d).
Proof. tauto. Qed.
Lemma flat_map_ext_in {A B} (f g : A -> list B) l : (forall x, In x l -> f x = g x) -> flat_map f l = flat_map g l.
Proof. induction l as [|x l IH]; intros H; [reflexivity|]. cbn. rewrite H, IH by (intros; try apply H; cbn; auto). reflexivity. Qed.
Lemma in_combine_nth {A B} (x : A) (y : B) l : forall l', In (x, y) (combine l l') <-> exists i, nth_error l i = Some x /\ nth_error l' i = Some y.
Proof.
  induction l as [|a l IH]; intros l'; [split; [intros []|intros ([|i] & H & _); discriminate]|].
  destruct l' as [|b l']; [split; [intros []|intros ([|i] & _ & H); discriminate]|]. cbn [combine In]. rewrite IH. split.
  - intros [H|(i & H)]; [injection H as -> ->; exists O; auto|exists (S i); exact H].
  - intros ([|i] & H1 & H2); [left; cbn in *; congruence|right; exists i; auto].
Qed.
Lemma map_fst_combine {A B} (l : list A) : forall l' : list B, (length l <= length l')%nat -> map fst (combine l l') = l.
Proof. induction l as [|a l IH]; intros [|b l'] H; cbn in *; try reflexivity; [lia|]. rewrite IH by lia. reflexivity. Qed.
Lemma in_firstn_nth {A} (x : A) n : forall l, In x (firstn n l) <-> exists i, (i < n)%nat /\ nth_error l i = Some x.
Proof.
  induction n as [|n IH]; intros l; [split; [intros []|intros (i & H & _); lia]|]. destruct l as [|a l]; [split; [intros []|intros ([|i] & _ & H); discriminate]|].
  cbn [firstn In]. rewrite IH. split.
  - intros [->|(i & H & E)]; [exists O; split; [lia|reflexivity]|exists (S i); split; [lia|exact E]].
  - intros ([|i] & H & E); [left; cbn in E; congruence|right; exists i; split; [lia|exact E]].
Qed.
Lemma NoDup_nth {A} (l : list A) i j x : NoDup l -> nth_error l i = Some x -> nth_error l j = Some x -> i = j.
Proof. intros N Hi Hj. apply (proj1 (NoDup_nth_error l) N); [apply nth_error_Some; congruence|congruence]. Qed.
Lemma NoDup_app_iff {A} (l l' : list A) : NoDup (l ++ l') <-> NoDup l /\ NoDup l' /\ forall x, In x l -> ~ In x l'.
Proof.
  induction l as [|a l IH]; cbn [app].
  - split; [intros H; split; [constructor|split; [exact H|intros ? []]]|tauto].
  - rewrite !NoDup_cons_iff, IH, in_app_iff. cbn [In]. split.
    + intros (H1 & H2 & H3 & H4). repeat split; auto. intros x [<-|I]; auto.
    + intros ((H1 & H2) & H3 & H4). repeat split; auto. intros [I|I]; [auto|exact (H4 a (or_introl eq_refl) I)].
Qed.

Section Bind.
  Context {V : Type}.
  Implicit Types (d : list (str * value V)) (named : list (str * V)).
  Notation entry := (str * value V)%type.

  Definition notin (P : list str) (e : str * V) : bool := if in_dec (list_eq_dec ascii_dec) (fst e) P then false else true.
  Definition isin (P : list str) (e : str * V) : bool := if in_dec (list_eq_dec ascii_dec) (fst e) P then true else false.
  Definition ext (w : option str) (ks : list (str * V)) d : list entry :=
    match w with
    | None => d
    | Some w => map (fun e => if mem (fst e) [w] then (fst e, match snd e with Keys l => Keys (l ++ ks) | x => x end) else e) d
    end.
  Definition one (e : str * V) : entry := (fst e, One (snd e)).
  Lemma ext_nil w d : ext w [] d = d.
  Proof.
    destruct w as [w|]; [|reflexivity]. unfold ext. rewrite <- (map_id d) at 2. apply map_ext. intros [k v]. cbn. destruct (mem k [w]); [|reflexivity]. destruct v; rewrite ?app_nil_r; reflexivity.
  Qed.
  Lemma ext_app w ks d d' : ext w ks (d ++ d') = ext w ks d ++ ext w ks d'.
  Proof. destruct w; [apply map_app|reflexivity]. Qed.
  Lemma ext_one w ks e : ext w ks [one e] = [one e].
  Proof. destruct w as [w|]; [|reflexivity]. cbn. destruct (mem (fst e) [w]); reflexivity. Qed.
  Lemma ext_names w ks d : map fst (ext w ks d) = map fst d.
  Proof. destruct w as [w|]; [|reflexivity]. unfold ext. rewrite map_map. apply map_ext. intros e. destruct (mem (fst e) [w]); reflexivity. Qed.
  Lemma ext_add w k v ks d : ext (Some w) ks (add_key w k v d) = ext (Some w) ((k, v) :: ks) d.
  Proof.
    unfold ext, add_key. rewrite map_map. apply map_ext. intros [x y]. cbn [fst snd]. destruct (mem x [w]) eqn:E; cbn [fst snd]; rewrite E; [|reflexivity].
    destruct y; try reflexivity. rewrite <- app_assoc. reflexivity.
  Qed.
  Lemma add_names w k v d : map fst (add_key w k v d) = map fst d.
  Proof. unfold add_key. rewrite map_map. apply map_ext. intros e. destruct (mem (fst e) [w]); reflexivity. Qed.

  Definition fits (P : list str) (w : option str) named d : Prop :=
    forall k v, In (k, v) named -> (In k P -> ~ In k (map fst d)) /\ (~ In k P -> w <> None).
  Lemma bind_named_spec P w named : forall d, NoDup (map fst named) ->
    match bind_named P w named d with
    | Ok d' => fits P w named d /\ d' = ext w (filter (notin P) named) d ++ map one (filter (isin P) named)
    | Err e => e = TypeError /\ ~ fits P w named d
    end.
  Proof.
    induction named as [|[k v] named IH]; intros d N.
    - cbn. split; [intros ? ? []|]. rewrite ext_nil, app_nil_r. reflexivity.
    - cbn [map fst] in N. inversion N as [|? ? Nk N']. subst. cbn [bind_named]. cbn [filter]. unfold notin at 1, isin at 1. cbn [fst].
      unfold mem at 1. destruct (in_dec (list_eq_dec ascii_dec) k P) as [I|I]; cbn [negb].
      + destruct (mem k (map fst d)) eqn:M.
        * apply mem_in in M. split; [reflexivity|]. intros F. destruct (F k v (or_introl eq_refl)) as [F1 _]. exact (F1 I M).
        * apply mem_notin in M. specialize (IH (d ++ [(k, One v)]) N').
          assert (FE : fits P w ((k, v) :: named) d <-> fits P w named (d ++ [(k, One v)])).
          { unfold fits. split; intros F k' v' H.
            - destruct (F k' v' (or_intror H)) as [F1 F2]. split; [|exact F2]. intros Ik. rewrite map_app, in_app_iff. intros [X|[<-|[]]]; [exact (F1 Ik X)|]. apply Nk. apply in_map_iff. exists (k, v'). split; [reflexivity|exact H].
            - destruct H as [H|H]; [injection H as <- <-; split; [intros _; exact M|intros X; destruct (X I)]|]. destruct (F k' v' H) as [F1 F2]. split; [|exact F2]. intros Ik X. apply (F1 Ik). rewrite map_app. apply in_or_app. left. exact X. }
          destruct (bind_named P w named (d ++ [(k, One v)])) as [d'|e].
          -- destruct IH as [F ->]. split; [apply FE; exact F|]. rewrite ext_app. change [(k, One v)] with [one (k, v)]. rewrite ext_one, <- app_assoc. reflexivity.
          -- destruct IH as [-> F]. split; [reflexivity|]. intros X. apply F, FE, X.
      + destruct w as [w|].
        * specialize (IH (add_key w k v d) N').
          assert (FE : fits P (Some w) ((k, v) :: named) d <-> fits P (Some w) named (add_key w k v d)).
          { unfold fits. rewrite add_names. split; intros F k' v' H; [exact (F k' v' (or_intror H))|]. destruct H as [H|H]; [injection H as <- <-; split; [intros X; destruct (I X)|discriminate]|exact (F k' v' H)]. }
          destruct (bind_named P (Some w) named (add_key w k v d)) as [d'|e].
          -- destruct IH as [F ->]. split; [apply FE; exact F|]. rewrite ext_add. reflexivity.
          -- destruct IH as [-> F]. split; [reflexivity|]. intros X. apply F, FE, X.
        * split; [reflexivity|]. intros F. destruct (F k v (or_introl eq_refl)) as [_ F2]. exact (F2 I eq_refl).
  Qed.

  Definition dflt (names : list str) (p : str * option V) : list entry :=
    if mem (fst p) names then [] else match snd p with Some v => [(fst p, One v)] | None => [] end.
  Lemma dflt_ext names names' p : (In (fst p) names <-> In (fst p) names') -> dflt names p = dflt names' p.
  Proof.
    intros H. unfold dflt. destruct (mem (fst p) names) eqn:A, (mem (fst p) names') eqn:B; try reflexivity;
      rewrite ?mem_in, ?mem_notin in *; tauto.
  Qed.
  Lemma bind_default_spec params : forall d, NoDup (map fst params) ->
    match foldM bind_default params d with
    | Ok d' => (forall k, In (k, None) params -> In k (map fst d)) /\ d' = d ++ flat_map (dflt (map fst d)) params
    | Err e => e = TypeError /\ exists k, In (k, None) params /\ ~ In k (map fst d)
    end.
  Proof.
    induction params as [|p params IH]; intros d N.
    - cbn. split; [intros ? []|]. rewrite app_nil_r. reflexivity.
    - cbn [map] in N. inversion N as [|? ? Np N']. subst. cbn [foldM]. unfold bind_default at 1. cbn [flat_map]. unfold dflt at 1.
      destruct (mem (fst p) (map fst d)) eqn:M.
      + cbn [bind]. specialize (IH d N'). destruct (foldM bind_default params d) as [d'|e].
        * destruct IH as [H ->]. split; [|reflexivity]. intros k [->|I]; [apply mem_in in M; exact M|exact (H k I)].
        * destruct IH as (-> & k & I & X). split; [reflexivity|]. exists k. split; [right; exact I|exact X].
      + apply mem_notin in M. destruct p as [x [v|]]; cbn [fst snd bind] in *.
        * specialize (IH (d ++ [(x, One v)]) N').
          assert (Q : forall k, k <> x -> (In k (map fst (d ++ [(x, @One V v)])) <-> In k (map fst d))).
          { intros k K. rewrite map_app, in_app_iff. cbn. split; [intros [A|[A|[]]]; [exact A|congruence]|tauto]. }
          assert (Px : forall o, In (x, o) params -> False) by (intros o I; apply Np, in_map_iff; exists (x, o); split; [reflexivity|exact I]).
          destruct (foldM bind_default params (d ++ [(x, One v)])) as [d'|e].
          -- destruct IH as [H ->]. split.
             ++ intros k [X|I]; [discriminate|]. apply Q, H, I. intros ->. exact (Px _ I).
             ++ rewrite <- app_assoc. cbn [app]. f_equal. f_equal. apply flat_map_ext_in. intros [k o] I. apply dflt_ext. cbn [fst]. apply Q. intros ->. exact (Px _ I).
          -- destruct IH as (-> & k & I & X). split; [reflexivity|]. exists k. split; [right; exact I|]. intros Y. apply X, Q; [|exact Y]. intros ->. exact (Px _ I).
        * split; [reflexivity|]. exists x. split; [left; reflexivity|exact M].
  Qed.

  (** The dictionary before defaults. *)
  Definition start (sg : signature V) (pos : list V) (ks : list (str * V)) : list entry :=
    combine (firstn (length pos) (map fst (sg_params sg))) (map One pos)
    ++ match sg_varargs sg with Some a => [(a, Many (skipn (length (sg_params sg)) pos))] | None => [] end
    ++ match sg_varkw sg with Some w => [(w, Keys ks)] | None => [] end.
  Lemma firstn_min {A} (l : list A) n : firstn (Nat.min n (length l)) l = firstn n l.
  Proof. rewrite <- firstn_firstn. rewrite (firstn_all l). reflexivity. Qed.
  Lemma combine_firstn_le {A B} (l : list A) (l' : list B) : combine (firstn (length l') l) l' = combine l l'.
  Proof. revert l'. induction l as [|a l IH]; intros [|b l']; cbn; try reflexivity. rewrite IH. reflexivity. Qed.
  Lemma start_names sg pos ks : map fst (start sg pos ks) = firstn (length pos) (map fst (sg_params sg)) ++ names_of (sg_varargs sg) ++ names_of (sg_varkw sg).
  Proof.
    unfold start. rewrite !map_app. rewrite map_fst_combine by (rewrite map_length, firstn_length; lia). destruct (sg_varargs sg), (sg_varkw sg); reflexivity.
  Qed.
  Lemma ext_ones w ks (l : list (str * value V)) : (forall e, In e l -> exists a, snd e = One a) -> ext w ks l = l.
  Proof.
    intros H. destruct w as [w|]; [|reflexivity]. unfold ext. rewrite <- (map_id l) at 2. apply map_ext_in. intros e I. destruct (H e I) as [a E]. rewrite E. destruct (mem _ _); [|reflexivity]. destruct e as [x y]. cbn in *. congruence.
  Qed.
  Lemma ext_start sg pos ks : ext (sg_varkw sg) ks (start sg pos []) = start sg pos ks.
  Proof.
    unfold start. rewrite !ext_app. f_equal; [|f_equal].
    - apply ext_ones. intros [x v] I. apply in_combine_r in I. apply in_map_iff in I. destruct I as (a & <- & _). exists a. reflexivity.
    - destruct (sg_varargs sg) as [a|]; [|destruct (sg_varkw sg); reflexivity]. destruct (sg_varkw sg) as [w|]; [|reflexivity]. cbn [ext map fst snd]. destruct (mem a [w]); reflexivity.
    - destruct (sg_varkw sg) as [w|]; [|reflexivity]. cbn [ext map fst snd]. rewrite (proj2 (mem_in w [w])) by (left; reflexivity). reflexivity.
  Qed.
  Lemma getcallargs_eq sg pos named : getcallargs sg pos named =
    let* d := bind_named (map fst (sg_params sg)) (sg_varkw sg) named (start sg pos []) in
    if ((length (sg_params sg) <? length pos)%nat && match sg_varargs sg with None => true | Some _ => false end)%bool then Err TypeError
    else if (length pos <? length (sg_params sg))%nat then foldM bind_default (sg_params sg) d else Ok d.
  Proof.
    unfold getcallargs. rewrite firstn_min. rewrite map_length.
    match goal with |- bind (bind_named _ _ _ ?d) _ = _ => replace d with (start sg pos []) end; [reflexivity|].
    unfold start. rewrite <- app_assoc. f_equal. f_equal. destruct (sg_varargs sg); [|reflexivity]. f_equal. f_equal. f_equal.
    destruct (Nat.le_gt_cases (length pos) (length (sg_params sg))) as [L|L]; [|rewrite Nat.min_r by lia; reflexivity].
    rewrite Nat.min_l by lia. rewrite !skipn_all2 by lia. reflexivity.
  Qed.

  Lemma in_params (params : list (str * option V)) k : In k (map fst params) <-> exists i o, nth_error params i = Some (k, o).
  Proof.
    rewrite in_map_iff. split.
    - intros ([x o] & E & I). cbn in E. subst x. apply In_nth_error in I. destruct I as [i I]. exists i, o. exact I.
    - intros (i & o & H). exists (k, o). split; [reflexivity|]. exact (nth_error_In _ _ H).
  Qed.
  Lemma nth_params (params : list (str * option V)) i k : nth_error (map fst params) i = Some k <-> exists o, nth_error params i = Some (k, o).
  Proof.
    rewrite nth_error_map. destruct (nth_error params i) as [[x o]|]; cbn; split; try discriminate.
    - intros H. injection H as ->. exists o. reflexivity.
    - intros (o' & H). injection H as -> _. reflexivity.
    - intros (o & H). discriminate.
  Qed.

  Lemma getcallargs_spec sg pos named : legal sg named ->
    match getcallargs sg pos named with
    | Ok d => acceptable sg pos named /\ NoDup (map fst d) /\ forall x v, In (x, v) d <-> receives sg pos named x v
    | Err e => e = TypeError /\ ~ acceptable sg pos named
    end.
  Proof.
    intros [NP NN]. rewrite getcallargs_eq. pose proof NP as NP0. apply NoDup_app_iff in NP0. destruct NP0 as (NP1 & NP2 & NP3).
    set (P := map fst (sg_params sg)) in *.
    pose proof (bind_named_spec P (sg_varkw sg) named (start sg pos []) NN) as B.
    assert (FI : forall k, In k (firstn (length pos) P) <-> exists i o, nth_error (sg_params sg) i = Some (k, o) /\ (i < length pos)%nat).
    { intros k. rewrite in_firstn_nth. unfold P. split.
      - intros (i & Hi & E). apply nth_params in E. destruct E as [o E]. exists i, o. auto.
      - intros (i & o & E & Hi). exists i. split; [exact Hi|]. apply nth_params. exists o. exact E. }
    assert (FE : fits P (sg_varkw sg) named (start sg pos []) <->
      (forall k v, In (k, v) named -> In k P \/ sg_varkw sg <> None) /\ (forall i k o, nth_error (sg_params sg) i = Some (k, o) -> (i < length pos)%nat -> ~ In k (map fst named))).
    { unfold fits. rewrite start_names. split.
      - intros F. split.
        + intros k v I. destruct (F k v I) as [_ F2]. destruct (in_dec (list_eq_dec ascii_dec) k P) as [X|X]; [left; exact X|right; exact (F2 X)].
        + intros i k o E Hi I. apply in_map_iff in I. destruct I as ([k' v] & Ek & I). cbn in Ek. subst k'. destruct (F k v I) as [F1 _]. apply F1; [apply in_params; exists i, o; exact E|]. apply in_or_app. left. apply FI. exists i, o. auto.
      - intros [F1 F2] k v I. split.
        + intros Ik. rewrite in_app_iff. intros [X|X]; [|exact (NP3 k Ik X)]. apply FI in X. destruct X as (i & o & E & Hi). apply (F2 i k o E Hi). apply in_map_iff. exists (k, v). auto.
        + intros X. destruct (F1 k v I) as [Y|Y]; [destruct (X Y)|exact Y]. }
    destruct (bind_named P (sg_varkw sg) named (start sg pos [])) as [d|e]; cbn [bind].
    2:{ destruct B as [-> B]. split; [reflexivity|]. intros (_ & A2 & A3 & _). apply B, FE. split; assumption. }
    destruct B as [F B]. apply FE in F. destruct F as [F1 F2]. rewrite ext_start in B. set (ks := filter (notin P) named) in B.
    match goal with |- context [if ?c then Err TypeError else _] => destruct c eqn:TM end.
    { apply andb_true_iff in TM. destruct TM as [TM EV]. apply Nat.ltb_lt in TM. split; [reflexivity|]. intros (A1 & _). destruct (sg_varargs sg); [discriminate|]. specialize (A1 eq_refl). lia. }
    assert (OK1 : sg_varargs sg = None -> (length pos <= length (sg_params sg))%nat).
    { intros EV. rewrite EV, andb_true_r in TM. apply Nat.ltb_ge in TM. exact TM. }
    clear TM. pose proof (bind_default_spec (sg_params sg) d NP1) as D.
    replace (if (length pos <? length (sg_params sg))%nat then foldM bind_default (sg_params sg) d else Ok d) with (foldM bind_default (sg_params sg) d).
    2:{ destruct (length pos <? length (sg_params sg))%nat eqn:C; [reflexivity|]. apply Nat.ltb_ge in C.
      assert (ALL : forall p, In p (sg_params sg) -> In (fst p) (map fst d)).
      { intros p Ip. subst d. rewrite map_app, start_names. apply in_or_app. left. apply in_or_app. left. fold P. rewrite firstn_all2 by (unfold P; rewrite map_length; lia). apply in_map. exact Ip. }
      destruct (foldM bind_default (sg_params sg) d) as [d'|e].
      - destruct D as [_ ->]. rewrite (flat_map_ext_in _ (fun _ => [])); [f_equal; clear; induction (sg_params sg); cbn; [apply app_nil_r|assumption]|].
        intros p Ip. unfold dflt. rewrite (proj2 (mem_in _ _) (ALL p Ip)). reflexivity.
      - destruct D as (_ & k & Ik & X). destruct (X (ALL _ Ik)). }
    assert (ONE : forall k a, In (k, a) (map one (filter (isin P) named)) <-> exists b, a = One b /\ In k P /\ In (k, b) named).
    { intros k a. rewrite in_map_iff. split.
      - intros ([x b] & E & X). unfold one in E. cbn in E. injection E as -> <-. apply filter_In in X. destruct X as [X Y]. exists b. split; [reflexivity|]. split; [|exact X]. unfold isin in Y. cbn [fst] in Y. destruct (in_dec (list_eq_dec ascii_dec) k P); [assumption|discriminate].
      - intros (b & -> & I & J). exists (k, b). split; [reflexivity|]. apply filter_In. split; [exact J|]. unfold isin. cbn [fst]. destruct (in_dec (list_eq_dec ascii_dec) k P); [reflexivity|contradiction]. }
    assert (ND : forall k, In k (map fst d) <-> (exists i o, nth_error (sg_params sg) i = Some (k, o) /\ (i < length pos)%nat) \/ In k (names_of (sg_varargs sg) ++ names_of (sg_varkw sg)) \/ (In k P /\ In k (map fst named))).
    { intros k. subst d. rewrite map_app, start_names, 2!in_app_iff. fold P. rewrite FI. rewrite or_assoc. apply or_iff_compat_l, or_iff_compat_l. split.
      - intros X. apply in_map_iff in X. destruct X as ([x a] & E & X). cbn in E. subst x. apply ONE in X. destruct X as (b & -> & I & J). split; [exact I|]. apply in_map_iff. exists (k, b). auto.
      - intros [I J]. apply in_map_iff in J. destruct J as ([x b] & E & J). cbn in E. subst x. apply in_map_iff. exists (k, One b). split; [reflexivity|]. apply ONE. exists b. auto. }
    assert (NIL : forall i k o, nth_error (sg_params sg) i = Some (k, o) -> (length pos <= i)%nat -> (In k (map fst d) <-> In k (map fst named))).
    { intros i k o E Hi. assert (Ik : In k P) by (apply in_params; exists i, o; exact E). rewrite ND. split.
      - intros [(j & o' & E' & Hj)|[X|[_ X]]]; [|destruct (NP3 k Ik X)|exact X]. exfalso.
        assert (i = j) by (apply (NoDup_nth P i j k NP1); apply nth_params; eexists; eassumption). lia.
      - intros X. right. right. split; assumption. }
    destruct (foldM bind_default (sg_params sg) d) as [d'|e].
    2:{ destruct D as (-> & k & Ik & X). split; [reflexivity|]. intros (_ & _ & _ & A4). apply In_nth_error in Ik. destruct Ik as [i Ei].
      destruct (Nat.lt_ge_cases i (length pos)) as [Hi|Hi]; [apply X, ND; left; exists i, None; auto|]. apply X. apply (NIL i k None Ei Hi). exact (A4 i k Ei Hi). }
    destruct D as [D1 ->]. split; [|split].
    - split; [exact OK1|]. split; [exact F1|]. split; [exact F2|]. intros i k E Hi. apply (NIL i k None E Hi). apply D1. exact (nth_error_In _ _ E).
    - rewrite map_app. apply NoDup_app_iff. split; [|split].
      + subst d. rewrite map_app. apply NoDup_app_iff. rewrite start_names. fold P. split; [|split].
        * apply NoDup_app_iff. split; [|split; [exact NP2|]].
          -- rewrite <- (firstn_skipn (length pos) P) in NP1. apply NoDup_app_iff in NP1. tauto.
          -- intros x X. apply NP3. rewrite <- (firstn_skipn (length pos) P). apply in_or_app. left. exact X.
        * rewrite map_map. cbn [one fst]. clear - NN. induction named as [|e named IH]; [constructor|]. cbn [map] in NN. inversion NN as [|? ? X Y]. subst. cbn [filter]. destruct (isin P e); [|exact (IH Y)].
          cbn [map]. constructor; [|exact (IH Y)]. intros Z. apply X. apply in_map_iff in Z. destruct Z as (e' & E & Z). apply filter_In in Z. apply in_map_iff. exists e'. tauto.
        * intros x X Y. apply in_map_iff in Y. destruct Y as ([x' a] & E & Y). cbn in E. subst x'. apply ONE in Y. destruct Y as (b & -> & I & J). apply in_app_or in X. destruct X as [X|X]; [|exact (NP3 x I X)].
          apply FI in X. destruct X as (i & o & E & Hi). apply (F2 i x o E Hi). apply in_map_iff. exists (x, b). auto.
      + clear - NP1. unfold P in NP1. induction (sg_params sg) as [|p ps IH]; [constructor|]. cbn [map] in NP1. inversion NP1 as [|? ? X Y]. subst. cbn [flat_map]. rewrite map_app. apply NoDup_app_iff. split; [|split; [exact (IH Y)|]].
        * unfold dflt. destruct (mem _ _); [constructor|]. destruct (snd p); repeat constructor. intros [].
        * intros x I J. assert (x = fst p) by (unfold dflt in I; destruct (mem _ _); [destruct I|]; destruct (snd p); [destruct I as [<-|[]]; reflexivity|destruct I]). subst x. apply X.
          apply in_map_iff in J. destruct J as ([x a] & E & J). cbn in E. subst x. apply in_flat_map in J. destruct J as (q & Iq & J). apply in_map_iff. exists q. split; [|exact Iq].
          unfold dflt in J. destruct (mem _ _); [destruct J|]. destruct (snd q); [destruct J as [J|[]]; congruence|destruct J].
      + intros x I J. apply in_map_iff in J. destruct J as ([x' a] & E & J). cbn in E. subst x'. apply in_flat_map in J. destruct J as (q & Iq & J). unfold dflt in J. destruct (mem (fst q) (map fst d)) eqn:M; [destruct J|]. apply mem_notin in M.
        destruct (snd q); [destruct J as [J|[]]|destruct J]. injection J as <- _. exact (M I).
    - assert (ST : forall x v, In (x, v) (start sg pos ks) <-> (exists i o a, nth_error (sg_params sg) i = Some (x, o) /\ v = One a /\ nth_error pos i = Some a) \/ (sg_varargs sg = Some x /\ v = Many (skipn (length (sg_params sg)) pos)) \/ (sg_varkw sg = Some x /\ v = Keys ks)).
      { intros x v. unfold start. rewrite !in_app_iff. rewrite <- (map_length One pos) at 1. rewrite combine_firstn_le, in_combine_nth. apply or_iff_morph; [|apply or_iff_morph].
        - split.
          + intros (i & E1 & E2). apply nth_params in E1. destruct E1 as [o E1]. rewrite nth_error_map in E2. destruct (nth_error pos i) as [a|] eqn:E3; [|discriminate]. cbn in E2. injection E2 as <-. exists i, o, a. auto.
          + intros (i & o & a & E1 & -> & E3). exists i. split; [apply nth_params; exists o; exact E1|]. rewrite nth_error_map, E3. reflexivity.
        - destruct (sg_varargs sg) as [a|]; [|split; [intros []|intros [X _]; discriminate]]. split; [intros [X|[]]; injection X as <- <-; auto|intros [X ->]; injection X as ->; left; reflexivity].
        - destruct (sg_varkw sg) as [a|]; [|split; [intros []|intros [X _]; discriminate]]. split; [intros [X|[]]; injection X as <- <-; auto|intros [X ->]; injection X as ->; left; reflexivity]. }
      intros x v. rewrite in_app_iff. rewrite B at 1. rewrite in_app_iff, ST, ONE. unfold receives. change (filter _ named) with ks. split.
      + intros [[[(i & o & a & E1 & E2 & E3)|[X|X]]|(b & -> & I & J)]|X].
        * left. exists i, o, a. auto.
        * right. left. exact X.
        * right. right. exact X.
        * left. apply in_params in I. destruct I as (i & o & E). exists i, o, b. split; [exact E|]. split; [reflexivity|]. right. left. split; [|exact J].
          destruct (Nat.le_gt_cases (length pos) i) as [Hi|Hi]; [exact Hi|]. exfalso. apply (F2 i x o E Hi). apply in_map_iff. exists (x, b). auto.
        * apply in_flat_map in X. destruct X as ([y o] & Iq & X). unfold dflt in X. cbn [fst snd] in X. destruct (mem y (map fst d)) eqn:M; [destruct X|]. apply mem_notin in M.
          destruct o as [a|]; [destruct X as [X|[]]; injection X as <- <-|destruct X]. left. apply In_nth_error in Iq. destruct Iq as [i E]. exists i, (Some a), a. split; [exact E|]. split; [reflexivity|]. right. right.
          destruct (Nat.le_gt_cases (length pos) i) as [Hi|Hi]; [|exfalso; apply M, ND; left; exists i, (Some a); auto]. split; [exact Hi|]. split; [|reflexivity]. intros X. apply M. apply (NIL i y (Some a) E Hi). exact X.
      + intros [(i & o & a & E & -> & [X|[(Hi & X)|(Hi & X & ->)]])|[X|X]].
        * left. left. left. exists i, o, a. auto.
        * left. right. exists a. split; [reflexivity|]. split; [apply in_params; exists i, o; exact E|exact X].
        * right. apply in_flat_map. exists (x, Some a). split; [exact (nth_error_In _ _ E)|]. unfold dflt. cbn [fst snd]. rewrite (proj2 (mem_notin _ _)); [left; reflexivity|]. intros Y. apply X. apply (NIL i x (Some a) E Hi). exact Y.
        * left. left. right. left. exact X.
        * left. left. right. right. exact X.
  Qed.
End Bind.

(** ** Messages. *)
Lemma mapM_ok {A B} (f : A -> B) l : mapM (fun x => Ok (f x)) l = Ok (map f l).
Proof. induction l as [|x l IH]; [reflexivity|]. cbn [mapM]. rewrite IH. reflexivity. Qed.
Lemma entries_join {A} (text : A -> str) l : join (lit "," ++ [nl; tab]) (map (fun e => join (lit "=") [fst e; text (snd e)]) l) = entries_text text l.
Proof.
  induction l as [|[k v] l IH]; [reflexivity|]. destruct l as [|e l]; [reflexivity|].
  change (map (fun e => join (lit "=") [fst e; text (snd e)]) ((k, v) :: e :: l)) with (join (lit "=") [k; text v] :: map (fun e => join (lit "=") [fst e; text (snd e)]) (e :: l)).
  change (entries_text text ((k, v) :: e :: l)) with (k ++ "="%char :: text v ++ ","%char :: nl :: tab :: entries_text text (e :: l)). rewrite <- IH.
  set (r := map _ (e :: l)). cbn [join lit list_ascii_of_string app]. destruct r eqn:R; [discriminate|]. rewrite <- app_assoc. reflexivity.
Qed.
Lemma arg_string {V} (text : value V -> str) sg pos named d : ~ In (lit "func") (map fst named) -> getcallargs sg pos named = Ok d ->
  create_arg_string (fun v => Ok (text v)) sg pos named = Ok (entries_text text d).
Proof.
  intros F E. unfold create_arg_string. rewrite (proj2 (mem_notin _ _) F), E. cbn [bind]. rewrite (mapM_ok (fun e => join (lit "=") [fst e; text (snd e)])). cbn [bind]. rewrite entries_join. reflexivity.
Qed.

(** ** Logs. *)
Lemma finished_app n w : finished n w -> forall m w', finished m w' -> finished (n + m) (w ++ w').
Proof.
  induction 1 as [|md fn t n m w w' H1 IH1 H2 IH2]; intros m' v Hv; [exact Hv|].
  cbn [app]. rewrite <- app_assoc. cbn [app]. replace (S (n + m) + m')%nat with (S (n + (m + m'))) by lia. constructor; [exact H1|]. apply IH2. exact Hv.
Qed.
Lemma unfinished_app k w n w' : finished k w -> unfinished n w' -> unfinished n (w ++ w').
Proof.
  intros F U. destruct U as [k' w' F'|k' w1 md fn t n w' F' U].
  - apply (u_none (k + k')). apply finished_app; assumption.
  - rewrite app_assoc. apply (u_call (k + k')); [apply finished_app; assumption|exact U].
Qed.

(** [m] gives [r] and adds the messages of [n] finished calls, or leaves [k] open. *)
Definition good {A} (m : L A) (r : res A) (n k : nat) : Prop :=
  forall l, exists w, m l = (l ++ w, r) /\ match r with Ok _ => finished n w | Err _ => unfinished k w end.
Lemma good_ret {A} (r : res A) : good (retL r) r 0 0.
Proof. intros l. exists []. rewrite app_nil_r. split; [reflexivity|]. destruct r; [constructor|apply (u_none 0); constructor]. Qed.
Lemma good_bind {A B} (m : L A) (f : A -> L B) a r n k' n' k : good m (Ok a) n k' -> good (f a) r n' k -> good (bindL m f) r (n + n') k.
Proof.
  intros Hm Hf l. destruct (Hm l) as (w & E & F). destruct (Hf (l ++ w)) as (w' & E' & F'). exists (w ++ w'). unfold bindL. rewrite E, E', app_assoc. split; [reflexivity|].
  destruct r; [apply finished_app; assumption|exact (unfinished_app n w k w' F F')].
Qed.
Lemma good_fold {A S} (f : S -> A -> L S) (g : S -> A -> res S) n k xs : (forall s x, good (f s x) (g s x) n k) ->
  forall s, exists k', good (foldL f xs s) (foldM g xs s) (length xs * n) k' /\ (xs <> [] -> k' = k).
Proof.
  intros H. induction xs as [|x xs IH]; intros s; [exists 0%nat; split; [apply good_ret|congruence]|]. cbn [foldL foldM length].
  exists k. split; [|reflexivity]. destruct (g s x) as [s'|e] eqn:E.
  - cbn [bind]. destruct (IH s') as (k' & G & K). cbn [Nat.mul]. specialize (H s x). rewrite E in H.
    destruct xs as [|y xs]; [cbn [foldL foldM] in *; apply (good_bind _ _ s' _ _ k _ k H); intros l; exists []; rewrite app_nil_r; split; [reflexivity|constructor]|].
    rewrite K in G by discriminate. exact (good_bind _ _ s' _ _ k _ k H G).
  - cbn [bind]. intros l. specialize (H s x l). rewrite E in H. destruct H as (w & Ew & U). exists w. unfold bindL. rewrite Ew. split; [reflexivity|exact U].
Qed.
Lemma good_logged {A} text name params (body : L A) pos named d r n k : getcallargs (Sig params None None) pos named = Ok d -> ~ In (lit "func") (map fst named) ->
  good body r n k -> good (logged text name params body pos named) r (S n) (S k).
Proof.
  intros E F H l. unfold logged, print_call. rewrite (arg_string text _ _ _ d F E). unfold debug at 1. cbv beta iota.
  match goal with |- context [l ++ [?m]] => set (c := m) end. destruct (H (l ++ [c])) as (w & Ew & G). match goal with |- context [let (_, _) := ?t in _] => replace t with ((l ++ [c]) ++ w, r) by (symmetry; exact Ew) end.
  destruct r as [a|e].
  - unfold debug. exists (c :: w ++ [after]). split; [rewrite <- !app_assoc; reflexivity|]. replace (S n) with (S (n + 0)) by lia. apply f_call; [exact G|constructor].
  - exists (c :: w). split; [rewrite <- app_assoc; reflexivity|]. apply (u_call 0 [] _ _ _ k w); [constructor|exact G].
Qed.

Lemma no_func : ~ In (lit "func") (map fst (@nil (str * pyv))). Proof. intros []. Qed.
Section Grid.
  Variable text : value pyv -> str.
  Lemma good_indices oi oj sr sc : good (indices_l text oi oj sr sc) (Ok (indices oi oj sr sc)) 1 1.
  Proof. eapply good_logged; [reflexivity|exact no_func|apply good_ret]. Qed.
  Lemma good_bilinear sr sc a b c d : good (bilinear_l text sr sc a b c d) (Ok (bilinear sr sc a b c d)) 1 1.
  Proof. eapply good_logged; [reflexivity|exact no_func|apply good_ret]. Qed.
  Lemma good_subdivide oi oj sr sc : good (subdivide_l text oi oj sr sc) (Ok (subdivide oi oj sr sc)) 2 1.
  Proof.
    eapply (good_logged text "subdivide" _ _ _ _ _ _ 1 0); [reflexivity|exact no_func|]. change 1%nat with (1 + 0)%nat. eapply good_bind; [apply good_indices|]. apply good_ret.
  Qed.
  Lemma good_block oi oj sr sc f g : good (interpolate_block_l text oi oj sr sc f g) (interpolate_block oi oj sr sc f g) 3 1.
  Proof.
    eapply (good_logged text "interpolate_block" _ _ _ _ _ _ 2 0); [reflexivity|exact no_func|]. change 2%nat with (1 + (1 + 0))%nat. eapply good_bind; [apply good_indices|]. unfold indices.
    eapply good_bind; [apply good_bilinear|]. apply good_ret.
  Qed.
  Lemma good_body f depth : forall oi oj sr sc g, good (grid_body text depth oi oj sr sc f g) (interpolate_grid depth oi oj sr sc f g) (5 * 4 ^ depth - 2) (depth + 1).
  Proof.
    induction depth as [|depth IH]; intros oi oj sr sc g; [apply good_block|]. cbn [grid_body interpolate_grid].
    destruct (good_fold (fun g b => let '((ui, uj), (li, lj)) := b in grid_call text depth ui uj (li - ui + 1)%Q (lj - uj + 1)%Q g (grid_body text depth ui uj (li - ui + 1)%Q (lj - uj + 1)%Q f g))
      (fun g b => let '((ui, uj), (li, lj)) := b in interpolate_grid depth ui uj (li - ui + 1)%Q (lj - uj + 1)%Q f g) (5 * 4 ^ depth - 1) (depth + 2) (subdivide oi oj sr sc)) with (s := g) as (k' & G & K).
    - intros s [[ui uj] [li lj]]. assert (0 < 4 ^ depth)%nat by (apply Nat.neq_0_lt_0, Nat.pow_nonzero; lia).
      replace (5 * 4 ^ depth - 1)%nat with (S (5 * 4 ^ depth - 2)) by lia. replace (depth + 2)%nat with (S (depth + 1)) by lia. eapply good_logged; [reflexivity|exact no_func|apply IH].
    - rewrite K in G by discriminate. replace (S depth + 1)%nat with (depth + 2)%nat by lia.
      replace (5 * 4 ^ S depth - 2)%nat with (2 + length (subdivide oi oj sr sc) * (5 * 4 ^ depth - 1))%nat.
      + eapply good_bind; [apply good_subdivide|exact G].
      + cbn [length subdivide indices]. cbn [Nat.pow]. assert (0 < 4 ^ depth)%nat by (apply Nat.neq_0_lt_0, Nat.pow_nonzero; lia). lia.
  Qed.
  Lemma good_grid f depth oi oj sr sc g : good (interpolate_grid_l text depth oi oj sr sc f g) (interpolate_grid depth oi oj sr sc f g) (5 * 4 ^ depth - 1) (depth + 2).
  Proof.
    assert (0 < 4 ^ depth)%nat by (apply Nat.neq_0_lt_0, Nat.pow_nonzero; lia).
    replace (5 * 4 ^ depth - 1)%nat with (S (5 * 4 ^ depth - 2)) by lia. replace (depth + 2)%nat with (S (depth + 1)) by lia. eapply good_logged; [reflexivity|exact no_func|apply good_body].
  Qed.
  Lemma good_keyword f depth sr sc g : good (grid_by_keyword text depth sr sc f g) (interpolate_grid depth 0 0 sr sc f g) (5 * 4 ^ depth - 1) (depth + 2).
  Proof.
    assert (0 < 4 ^ depth)%nat by (apply Nat.neq_0_lt_0, Nat.pow_nonzero; lia).
    replace (5 * 4 ^ depth - 1)%nat with (S (5 * 4 ^ depth - 2)) by lia. replace (depth + 2)%nat with (S (depth + 1)) by lia. eapply good_logged; [reflexivity| |apply good_body].
    intros X. cbn in X. repeat (destruct X as [X|X]; [discriminate|]). destruct X.
  Qed.
  Lemma good_err_bind {A B} (m : L A) (f : A -> L B) e n k n' : good m (Err e) n k -> good (bindL m f) (Err e) n' k.
  Proof. intros H l. destruct (H l) as (w & E & F). exists w. unfold bindL. rewrite E. split; [reflexivity|exact F]. Qed.
  Lemma good_pixel_sizes size rows cols : good (get_pixel_size_grids_l text size rows cols) (get_pixel_size_grids size rows cols) 38 3.
  Proof.
    unfold get_pixel_size_grids_l, get_pixel_size_grids. set (z := Grid rows cols (fun _ _ => Num 0)).
    pose proof (good_keyword (fun x y => fst (size x y)) 1 (inject_Z rows) (inject_Z cols) z) as G1.
    pose proof (good_keyword (fun x y => snd (size x y)) 1 (inject_Z rows) (inject_Z cols) z) as G2.
    destruct (interpolate_grid 1 0 0 (inject_Z rows) (inject_Z cols) (fun x y => fst (size x y)) z) as [xg|e]; cbn [bind]; [|exact (good_err_bind _ _ _ _ _ _ G1)].
    destruct (interpolate_grid 1 0 0 (inject_Z rows) (inject_Z cols) (fun x y => snd (size x y)) z) as [yg|e]; cbn [bind].
    - change 38%nat with (19 + (19 + 0))%nat. eapply good_bind; [exact G1|]. eapply good_bind; [exact G2|]. intros l. exists []. rewrite app_nil_r. split; [reflexivity|constructor].
    - change 38%nat with (19 + 19)%nat. eapply good_bind; [exact G1|]. exact (good_err_bind _ _ _ _ _ _ G2).
  Qed.
End Grid.
