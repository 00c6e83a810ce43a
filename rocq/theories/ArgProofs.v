(** * Lemmas for C98. *)
From Verif Require Import Base BaseLemmas PyStr UtilModel UtilSpec UtilProofs IniModel IniSpec IniProofs RunModel StartModel CmdModel CmdSpec CmdProofs ArgSpec ArgModel.
Open Scope Z_scope.

Section Arg.
  Variable table : options.
  Hypothesis OK : options_ok table.
  Definition full : options := ("h"%char, lit "help") :: table.
  Lemma full_declared x n : In (x, n) full <-> declared table x n.
  Proof. unfold full, declared. cbn [In]. split; [intros [E|I]; [injection E as <- <-; auto|auto]|intros [I|[-> ->]]; auto]. Qed.
  Lemma full_nodup : NoDup (map fst full).
  Proof using OK. exact (proj1 (proj2 OK)). Qed.
  Lemma full_name x n : In (x, n) full -> small x /\ exists r, n = x :: r /\ ~ In "="%char n.
  Proof using OK.
    intros [E|I]; [|exact (proj2 (proj2 OK) x n I)]. injection E as <- <-. split; [unfold small; cbn; tauto|]. exists (lit "elp"). split; [reflexivity|].
    cbn. intros H. repeat (destruct H as [H|H]; [discriminate|]). exact H.
  Qed.
  Lemma full_unique x n n' : In (x, n) full -> In (x, n') full -> n = n'.
  Proof using OK.
    pose proof full_nodup as N. revert N. generalize full. induction o as [|[y m] o IH]; intros N I J; [destruct I|]. cbn [map fst] in N. apply NoDup_cons_iff in N. destruct N as [N1 N2].
    destruct I as [I|I], J as [J|J]; [congruence| | |exact (IH N2 I J)].
    - elim N1. apply (in_map fst) in J. injection I as -> _. exact J.
    - elim N1. apply (in_map fst) in I. injection J as -> _. exact I.
  Qed.
  Lemma small_dash x : small x -> x <> dash /\ x <> equals /\ digit x = false.
  Proof. intros H. unfold small in H. cbn [lit list_ascii_of_string In] in H. repeat (destruct H as [<-|H]; [repeat split; discriminate|]). destruct H. Qed.
  Lemma starts_pre o p : startswith o p = true <-> exists s, o = p ++ s.
  Proof.
    unfold startswith. split.
    - intros H. destruct (str_eqb_spec (firstn (length p) o) p) as [E|]; [|discriminate]. exists (skipn (length p) o). rewrite <- E at 1. symmetry. apply firstn_skipn.
    - intros (s & ->). rewrite firstn_app, firstn_all, Nat.sub_diag, firstn_O, app_nil_r. apply str_eqb_refl.
  Qed.

  (** ** Looking up *)
  Lemma in_strings s x : In (s, x) (strings table) <-> exists n, In (x, n) full /\ (s = [dash; x] \/ s = dash :: dash :: n).
  Proof.
    unfold strings. fold full. rewrite in_flat_map. split.
    - intros ([y n] & I & H). cbn [fst snd In] in H. destruct H as [H|[H|[]]]; injection H as <- <-; exists n; auto.
    - intros (n & I & [-> | ->]); exists (x, n); (split; [exact I|]); cbn [fst snd In]; auto.
  Qed.
  Lemma find_string_some s x : find_string table s = Some x <-> exists n, In (x, n) full /\ (s = [dash; x] \/ s = dash :: dash :: n).
  Proof using OK.
    unfold find_string. destruct (find (fun o => str_eqb s (fst o)) (strings table)) as [[s' y]|] eqn:F.
    - apply find_some in F. destruct F as [I E]. cbn [fst] in E. destruct (str_eqb_spec s s') as [<-|]; [|discriminate]. cbn [snd]. apply in_strings in I. split.
      + intros H. injection H as <-. exact I.
      + intros (n & J & K). destruct I as (m & I & L). f_equal.
        destruct (full_name _ _ I) as (Sx & r & -> & _). destruct (full_name _ _ J) as (Sy & q & -> & _). apply small_dash in Sx, Sy. destruct Sx as [Dx _], Sy as [Dy _].
        destruct L as [-> | ->], K as [K|K]; injection K; intros; subst; congruence.
    - split; [discriminate|]. intros (n & J & K). assert (I : In (s, x) (strings table)) by (apply in_strings; eauto). apply (find_none _ _ F) in I. cbn [fst] in I. rewrite str_eqb_refl in I. discriminate.
  Qed.
  Lemma find_string_none s : find_string table s = None <-> forall x n, In (x, n) full -> s <> [dash; x] /\ s <> dash :: dash :: n.
  Proof using OK.
    split.
    - intros F x n I. assert (N : find_string table s <> Some x) by congruence. split; intros E; apply N, find_string_some; exists n; auto.
    - intros H. destruct (find_string table s) as [x|] eqn:F; [|reflexivity]. apply find_string_some in F. destruct F as (n & I & E). destruct (H x n I) as [A B]. tauto.
  Qed.

  (** ** Abbreviations *)
  Lemma tuples_long c q (e : option str) : flat_map (fun o => if startswith (fst o) (dash :: dash :: c :: q) then [(snd o, fst o, e)] else []) (strings table) =
    match find (fun o => startswith (snd o) (c :: q)) full with Some o => [(fst o, dash :: dash :: snd o, e)] | None => [] end.
  Proof using OK.
    unfold strings. fold full. pose proof full_nodup as N. assert (S : forall x n, In (x, n) full -> x <> dash /\ exists r, n = x :: r).
    { intros x n I. destruct (full_name x n I) as (Sx & r & E & _). apply small_dash in Sx. split; [tauto|eauto]. }
    revert N S. generalize full. induction o as [|[x n] o IH]; intros N S; [reflexivity|]. cbn [map fst] in N. apply NoDup_cons_iff in N. destruct N as [N1 N2].
    cbn [flat_map fst snd app]. destruct (S x n (or_introl eq_refl)) as (Dx & r & ->).
    assert (H1 : startswith [dash; x] (dash :: dash :: c :: q) = false) by (rewrite starts_letter; rewrite andb_false_r; reflexivity). rewrite H1. cbn [app].
    rewrite starts_double. cbn [find snd]. destruct (startswith (x :: r) (c :: q)) eqn:E; [|apply IH; [exact N2|intros y m I; apply S; right; exact I]].
    cbn [fst snd app]. f_equal. rewrite starts_cons in E. apply andb_true_iff in E. destruct E as [E _]. apply Ascii.eqb_eq in E. subst c. clear - N1 S.
    assert (S' : forall y m, In (y, m) o -> y <> x /\ y <> dash /\ exists t, m = y :: t).
    { intros y m I. destruct (S y m (or_intror I)) as (D & t & E). split; [intros ->; apply N1; apply (in_map fst) in I; exact I|eauto]. }
    clear S N1. induction o as [|[y m] o IH]; [reflexivity|]. cbn [flat_map fst snd app]. destruct (S' y m (or_introl eq_refl)) as (Dx & Dd & t & ->).
    rewrite starts_letter, andb_false_r, starts_double, starts_cons, (neqb y x Dx). cbn [andb app]. apply IH. intros z k I. apply S'. right. exact I.
  Qed.
  Lemma tuples_none (e : option str) : exists a b l, flat_map (fun o => if startswith (fst o) [dash; dash] then [(snd o, fst o, e)] else []) (strings table) = a :: b :: l.
  Proof using OK.
    destruct OK as (NE & _). unfold strings. destruct table as [|[x n] t]; [contradiction|]. cbn [flat_map fst snd app].
    change (startswith [dash; "h"%char] [dash; dash]) with false. change (startswith (dash :: dash :: lit "help") [dash; dash]) with true. cbn [app].
    assert (H : startswith (dash :: dash :: n) [dash; dash] = true) by (apply starts_pre; exists n; reflexivity). rewrite H.
    destruct (startswith [dash; x] [dash; dash]); cbn [app]; eauto.
  Qed.
  Lemma tuples_letter b (r : str) : b <> dash -> flat_map (fun o => if str_eqb (fst o) [dash; b] then [(snd o, fst o, Some r)] else if startswith (fst o) (dash :: b :: r) then [(snd o, fst o, None)] else []) (strings table) =
    if in_dec ascii_dec b (map fst full) then [(b, [dash; b], Some r)] else [].
  Proof using OK.
    intros D. unfold strings. fold full. pose proof full_nodup as N. revert N. generalize full.
    assert (L : forall (o : options), ~ In b (map fst o) ->
      flat_map (fun o0 => if str_eqb (fst o0) [dash; b] then [(snd o0, fst o0, Some r)] else if startswith (fst o0) (dash :: b :: r) then [(snd o0, fst o0, None)] else [])
        (flat_map (fun o0 : ascii * str => [([dash; fst o0], fst o0); (dash :: dash :: snd o0, fst o0)]) o) = []).
    { induction o as [|[x n] o IH]; intros I; [reflexivity|]. cbn [flat_map fst snd app]. cbn [map fst In] in I.
      rewrite !seq_cons, Ascii.eqb_refl, (neqb x b) by tauto. rewrite (neqb dash b) by congruence. cbn [andb]. rewrite !starts_cons, Ascii.eqb_refl, (neqb x b) by tauto. rewrite (neqb dash b) by congruence. cbn [andb app]. apply IH. tauto. }
    induction o as [|[x n] o IH]; intros N; [reflexivity|]. cbn [map fst] in N. apply NoDup_cons_iff in N. destruct N as [N1 N2]. cbn [flat_map fst snd app].
    rewrite !seq_cons, Ascii.eqb_refl, (neqb dash b) by congruence. cbn [andb]. destruct (Ascii.eqb_spec x b) as [->|Nb].
    - cbn [andb]. rewrite str_eqb_refl. rewrite !starts_cons, (neqb dash b) by congruence. rewrite andb_false_r. cbn [app]. rewrite (L o N1). destruct (in_dec ascii_dec b (map fst ((b, n) :: o))) as [_|X]; [reflexivity|]. elim X. left. reflexivity.
    - cbn [andb]. rewrite !starts_cons, Ascii.eqb_refl, (neqb x b) by exact Nb. rewrite (neqb dash b) by congruence. cbn [andb app]. rewrite (IH N2).
      destruct (in_dec ascii_dec b (map fst o)) as [I|I], (in_dec ascii_dec b (map fst ((x, n) :: o))) as [J|J]; try reflexivity.
      + elim J. right. exact I.
      + cbn [map fst] in J. destruct J as [J|J]; [elim Nb; exact J|elim I; exact J].
  Qed.

  (** ** Words *)
  Definition rest_word (w : str) : kind := if negative_number w then Value else if has_char " " w then Value else Opt None.
  Lemma letter_full b : In b (map fst full) <-> exists n, In (b, n) full.
  Proof. rewrite in_map_iff. split; [intros ([x n] & <- & I); exists n; exact I|intros (n & I); exists (b, n); auto]. Qed.

  (** A word with two dashes. *)
  Lemma word_double r : r <> [] -> parse_word table (dash :: dash :: r) =
    match cut r with
    | ([], _) => inr Usage
    | (c :: q, e) => match find (fun o => startswith (snd o) (c :: q)) full with
                     | Some o => match parse_word table (dash :: dash :: r) with inl (Opt (Some (_, n, _))) => inl (Opt (Some (fst o, n, e))) | x => x end
                     | None => inl (rest_word (dash :: dash :: r))
                     end
    end /\
    (forall c q e o, cut r = (c :: q, e) -> find (fun o => startswith (snd o) (c :: q)) full = Some o -> exists n, parse_word table (dash :: dash :: r) = inl (Opt (Some (fst o, dash :: dash :: n, e)))).
  Proof using OK.
    intros R.
    assert (A : forall c q e o, cut r = (c :: q, e) -> find (fun o => startswith (snd o) (c :: q)) full = Some o -> exists n, parse_word table (dash :: dash :: r) = inl (Opt (Some (fst o, dash :: dash :: n, e)))).
    { intros c q e [x n] C F. cbn [fst]. pose proof F as F'. apply find_some in F. destruct F as [I S]. cbn [snd] in S. destruct (full_name x n I) as (Sx & r0 & En & Ne).
      unfold parse_word. rewrite Ascii.eqb_refl. cbn [negb]. destruct (find_string table (dash :: dash :: r)) as [y|] eqn:E1.
      - apply find_string_some in E1. destruct E1 as (m & J & [E1|E1]); [injection E1 as <- _; apply full_name in J; destruct J as [Sy _]; apply small_dash in Sy; tauto|]. injection E1 as ->.
        destruct (full_name y m J) as (Sy & r1 & Em & Nm). assert (C' : cut m = (m, None)) by (apply cut_none; auto). rewrite C' in C. injection C as Cm <-.
        rewrite Em in Cm. injection Cm as -> ->. rewrite En, starts_cons in S. apply andb_true_iff in S. destruct S as [S _]. apply Ascii.eqb_eq in S. subst x. exists m. reflexivity.
      - assert (SP : match split_eq (dash :: dash :: r) with Some (p, e) => match find_string table p with Some a => Some (a, p, Some e) | None => None end | None => None end =
                     match split_eq r with Some (q, e) => match find_string table (dash :: dash :: q) with Some a => Some (a, dash :: dash :: q, Some e) | None => None end | None => None end).
        { cbn [split_eq]. change (Ascii.eqb dash equals) with false. cbn [split_eq]. destruct (split_eq r) as [[q0 e0]|]; reflexivity. }
        rewrite SP. clear SP.
        assert (Tu : tuples table (dash :: dash :: r) = [(x, dash :: dash :: n, e)]).
        { unfold tuples. rewrite Ascii.eqb_refl, cut_dashes, C. cbn [fst snd]. rewrite tuples_long, F'. reflexivity. }
        destruct (match split_eq r with Some (q0, e0) => match find_string table (dash :: dash :: q0) with Some a => Some (a, dash :: dash :: q0, Some e0) | None => None end | None => None end) as [[[y p] e']|] eqn:E2.
        + unfold cut in C. destruct (split_eq r) as [[q0 e0]|]; [|discriminate]. injection C as -> <-. destruct (find_string table (dash :: dash :: c :: q)) as [z|] eqn:E3; [|discriminate].
          injection E2 as <- <- <-. apply find_string_some in E3. destruct E3 as (m & J & [E3|E3]); [discriminate|]. injection E3 as <-.
          destruct (full_name z (c :: q) J) as (Sz & r1 & Ez & _). injection Ez as -> _. rewrite En, starts_cons in S. apply andb_true_iff in S. destruct S as [S _]. apply Ascii.eqb_eq in S. subst x.
          exists (z :: q). reflexivity.
        + exists n. rewrite Tu. destruct (split_eq r) as [[q0 e0]|]; [|reflexivity]. destruct (find_string table (dash :: dash :: q0)); [discriminate|reflexivity]. }
    split; [|exact A]. destruct (cut r) as [[|c q] e] eqn:C.
    - unfold parse_word. rewrite Ascii.eqb_refl. cbn [negb].
      assert (E1 : find_string table (dash :: dash :: r) = None).
      { apply find_string_none. intros x n I. destruct (full_name x n I) as (Sx & r1 & En & Ne). split; [intros E; injection E as <- _; apply small_dash in Sx; tauto|]. intros E. injection E as ->.
        destruct e as [e|]; [apply cut_some in C; destruct C as [C _]; apply Ne; rewrite C; left; reflexivity|]. apply cut_none in C. destruct C as [C _]. congruence. }
      rewrite E1. destruct e as [e|]; [|apply cut_none in C; destruct C as [C _]; congruence]. apply cut_some in C. destruct C as [-> _]. cbn [app].
      cbn [split_eq]. change (Ascii.eqb dash equals) with false. rewrite Ascii.eqb_refl.
      assert (E2 : find_string table [dash; dash] = None).
      { apply find_string_none. intros x n I. destruct (full_name x n I) as (Sx & r1 & -> & _). split; [intros E; injection E as <-; apply small_dash in Sx; tauto|discriminate]. }
      rewrite E2. unfold tuples. rewrite Ascii.eqb_refl. cbn [split_eq]. change (Ascii.eqb dash equals) with false. rewrite Ascii.eqb_refl.
      destruct (tuples_none (Some e)) as (a & b & l & ->). reflexivity.
    - destruct (find (fun o => startswith (snd o) (c :: q)) full) as [o|] eqn:F; [destruct (A c q e o eq_refl F) as (n & ->); reflexivity|].
      assert (Nf : forall x n, In (x, n) full -> n <> c :: q).
      { intros x n I E. apply (find_none _ _ F) in I. cbn [snd] in I. rewrite E in I. rewrite starts_self in I. discriminate. }
      unfold parse_word. rewrite Ascii.eqb_refl. cbn [negb].
      assert (E1 : find_string table (dash :: dash :: r) = None).
      { apply find_string_none. intros x n I. destruct (full_name x n I) as (Sx & r1 & En & Ne). split; [intros E; injection E as <- _; apply small_dash in Sx; tauto|]. intros E. injection E as ->.
        assert (C' : cut n = (n, None)) by (apply cut_none; auto). rewrite C' in C. injection C as C _. exact (Nf x n I C). }
      rewrite E1.
      assert (SP : match split_eq (dash :: dash :: r) with Some (p, e) => match find_string table p with Some a => Some (a, p, Some e) | None => None end | None => None end = None).
      { cbn [split_eq]. change (Ascii.eqb dash equals) with false. cbn [split_eq]. destruct (split_eq r) as [[q0 e0]|] eqn:Sr; [|reflexivity]. unfold cut in C. rewrite Sr in C. injection C as -> <-.
        assert (E2 : find_string table (dash :: dash :: c :: q) = None).
        { apply find_string_none. intros x n I. split; [discriminate|]. intros E. injection E as E. exact (Nf x n I (eq_sym E)). }
        rewrite E2. reflexivity. }
      rewrite SP. unfold tuples. rewrite Ascii.eqb_refl, cut_dashes, C. cbn [fst snd]. rewrite tuples_long, F. unfold rest_word. destruct (negative_number (dash :: dash :: r)), (has_char " " (dash :: dash :: r)); reflexivity.
  Qed.

  (** A word with one dash. *)
  Lemma word_single b r : b <> dash -> parse_word table (dash :: b :: r) =
    if in_dec ascii_dec b (map fst full) then inl (Opt (Some (b, [dash; b], match r with [] => None | c :: e => Some (if Ascii.eqb c equals then e else c :: e) end)))
    else inl (rest_word (dash :: b :: r)).
  Proof using OK.
    intros D. unfold parse_word. rewrite Ascii.eqb_refl. cbn [negb].
    assert (Lo : forall s, find_string table (dash :: b :: s) = if in_dec ascii_dec b (map fst full) then match s with [] => Some b | _ => None end else None).
    { intros s. destruct (in_dec ascii_dec b (map fst full)) as [I|I].
      - apply letter_full in I. destruct I as (n & I). destruct s as [|c s]; [apply find_string_some; exists n; auto|]. apply find_string_none. intros x m J. split; [discriminate|]. intros E. injection E as E _. congruence.
      - apply find_string_none. intros x m J. split; intros E; injection E; intros; subst; [|congruence]. apply I, letter_full. exists m. exact J. }
    rewrite Lo. destruct (in_dec ascii_dec b (map fst full)) as [I|I].
    - apply letter_full in I. destruct I as (n & I). destruct (full_name b n I) as (Sb & _). apply small_dash in Sb. destruct Sb as (_ & Be & _).
      destruct r as [|c e]; [reflexivity|]. cbn [split_eq]. change (Ascii.eqb dash equals) with false. rewrite (neqb b equals Be). cbn [split_eq].
      destruct (Ascii.eqb_spec c equals) as [->|Ce]; [rewrite Lo; reflexivity|].
      assert (Tu : tuples table (dash :: b :: c :: e) = [(b, [dash; b], Some (c :: e))]).
      { unfold tuples. rewrite (neqb b dash D). etransitivity; [exact (tuples_letter b (c :: e) D)|]. destruct (in_dec ascii_dec b (map fst full)) as [_|X]; [reflexivity|]. elim X. apply letter_full. eauto. }
      rewrite Tu. destruct (split_eq e) as [[a b0]|]; [rewrite Lo|]; reflexivity.
    - assert (SP : match split_eq (dash :: b :: r) with Some (p, e) => match find_string table p with Some a => Some (a, p, Some e) | None => None end | None => None end = None).
      { cbn [split_eq]. change (Ascii.eqb dash equals) with false. cbn [split_eq]. assert (E0 : find_string table [dash] = None) by (apply find_string_none; intros x m J; split; discriminate).
        destruct (Ascii.eqb b equals); [rewrite E0; reflexivity|]. destruct (split_eq r) as [[a b0]|]; [|reflexivity]. rewrite Lo. reflexivity. }
      assert (Tu : tuples table (dash :: b :: r) = []).
      { unfold tuples. rewrite (neqb b dash D). etransitivity; [exact (tuples_letter b r D)|]. destruct (in_dec ascii_dec b (map fst full)) as [X|_]; [elim I; exact X|reflexivity]. }
      rewrite SP, Tu. unfold rest_word. destruct (negative_number (dash :: b :: r)), (has_char " " (dash :: b :: r)); reflexivity.
  Qed.
  Lemma rest_value w : rest_word w = Value <-> below_zero w \/ In " "%char w.
  Proof.
    unfold rest_word. rewrite <- number_iff, <- space_iff. destruct (negative_number w); [tauto|]. destruct (has_char " " w); [tauto|]. split; [discriminate|intros [H|H]; discriminate].
  Qed.
  Lemma find_full x n c q : In (x, n) full -> startswith n (c :: q) = true -> find (fun o => startswith (snd o) (c :: q)) full = Some (x, n).
  Proof using OK.
    intros I S. destruct (find (fun o => startswith (snd o) (c :: q)) full) as [[y m]|] eqn:F; [|apply (find_none _ _ F) in I; cbn [snd] in I; congruence].
    apply find_some in F. destruct F as [J T]. cbn [snd] in T. destruct (full_name x n I) as (_ & r & En & _). destruct (full_name y m J) as (_ & r' & Em & _).
    rewrite En, starts_cons in S. rewrite Em, starts_cons in T. apply andb_true_iff in S, T. destruct S as [S _], T as [T _]. apply Ascii.eqb_eq in S, T. subst c. subst y. rewrite (full_unique x m n J I). reflexivity.
  Qed.
  Lemma begins_double r : r <> [] -> (begins_like table (dash :: dash :: r) <-> match fst (cut r) with [] => True | p => find (fun o => startswith (snd o) p) full <> None end).
  Proof using OK.
    intros R. split.
    - intros (x & n & D & H). apply full_declared in D. destruct (full_name x n D) as (Sx & r0 & En & Ne). destruct H as [(s & E)|(p & s & E & H)].
      + injection E as E _. apply small_dash in Sx. destruct Sx as [Sx _]. elim Sx. symmetry. exact E.
      + assert (Np : ~ In equals p) by (intros J; apply Ne; rewrite E; apply in_or_app; left; exact J).
        assert (C : fst (cut r) = p).
        { destruct H as [H|(e & H)]; injection H as ->.
          - rewrite (proj2 (cut_none p p) (conj eq_refl Np)). reflexivity.
          - change (fst (cut (p ++ equals :: e)) = p). rewrite (proj2 (cut_some (p ++ equals :: e) p e) (conj eq_refl Np)). reflexivity. }
        rewrite C. destruct p as [|c q]; [exact Logic.I|]. rewrite (find_full x n c q D); [discriminate|]. apply starts_pre. exists s. exact E.
    - intros H. destruct (cut r) as [q e] eqn:C. cbn [fst] in H.
      assert (W : dash :: dash :: r = lit "--" ++ q \/ exists e, dash :: dash :: r = lit "--" ++ q ++ lit "=" ++ e).
      { destruct e as [e|]; [apply cut_some in C as [-> _]; right; exists e; reflexivity|apply cut_none in C as [-> _]; left; reflexivity]. }
      destruct q as [|c q].
      + exists "h"%char, (lit "help"). split; [right; auto|]. right. exists [], (lit "help"). split; [reflexivity|exact W].
      + destruct (find (fun o => startswith (snd o) (c :: q)) full) as [[x n]|] eqn:F; [|congruence]. apply find_some in F. destruct F as [I S]. cbn [snd] in S. apply starts_pre in S. destruct S as [s S].
        exists x, n. split; [apply full_declared; exact I|]. right. exists (c :: q), s. split; [exact S|exact W].
  Qed.
  Lemma begins_single b r : b <> dash -> (begins_like table (dash :: b :: r) <-> In b (map fst full)).
  Proof.
    intros D. rewrite letter_full. split.
    - intros (x & n & I & [(s & E)|(p & s & _ & [E|(e & E)])]); [|injection E as E _; elim D; exact E|injection E as E _; elim D; exact E]. injection E as <- _. exists n. apply full_declared. exact I.
    - intros (n & I). exists b, n. split; [apply full_declared; exact I|]. left. exists r. reflexivity.
  Qed.
  Lemma below_letter b r : below_zero (dash :: b :: r) -> ~ In b (map fst full).
  Proof using OK.
    intros B I. apply letter_full in I. destruct I as (n & I). destruct (full_name b n I) as (Sb & _). pose proof (small_dash b Sb) as (_ & _ & Db).
    apply number_iff in B. unfold negative_number, digits1 in B. cbn [after_point] in B. rewrite Db in B. cbn [andb orb] in B. rewrite andb_true_iff in B. destruct B as [_ B]. apply andb_true_iff in B. destruct B as [B _]. apply Ascii.eqb_eq in B. subst b.
    unfold small in Sb. cbn [lit list_ascii_of_string In] in Sb. repeat (destruct Sb as [Sb|Sb]; [discriminate|]). exact Sb.
  Qed.

  (** Words that can be values. *)
  Lemma value_iff w : w <> lit "--" -> (parse_word table w = inl Value <-> free table w).
  Proof using OK.
    intros W. destruct w as [|c r]; [split; [intros _; left; discriminate|reflexivity]|].
    destruct (ascii_dec c dash) as [->|C].
    2:{ split; [intros _; left; intros s E; injection E as E _; elim C; exact E|]. intros _. unfold parse_word. rewrite (neqb c dash C). reflexivity. }
    destruct r as [|b r].
    { split; [intros _; right; left; reflexivity|]. intros _. unfold parse_word. rewrite Ascii.eqb_refl. cbn [negb].
      assert (E0 : find_string table [dash] = None) by (apply find_string_none; intros x m J; split; discriminate). rewrite E0. reflexivity. }
    assert (F : free table (dash :: b :: r) <-> below_zero (dash :: b :: r) \/ (In " "%char (dash :: b :: r) /\ ~ begins_like table (dash :: b :: r))).
    { unfold free. split; [|tauto]. intros [H|[H|H]]; [elim (H (b :: r)); reflexivity|discriminate|exact H]. }
    rewrite F. clear F. destruct (ascii_dec b dash) as [->|B].
    - assert (R : r <> []) by (intros ->; apply W; reflexivity). rewrite (begins_double r R).
      assert (NZ : ~ below_zero (dash :: dash :: r)) by (rewrite <- number_iff, number_double; discriminate).
      destruct (word_double r R) as [P A]. destruct (cut r) as [[|c q] e] eqn:C; cbn [fst].
      + rewrite P. split; [discriminate|tauto].
      + destruct (find (fun o => startswith (snd o) (c :: q)) full) as [o|] eqn:F.
        * destruct (A c q e o eq_refl F) as (n & E). rewrite E. split; [discriminate|]. intros [H|[_ H]]; [tauto|]. elim H. discriminate.
        * rewrite P. split; [intros H; injection H as H; apply rest_value in H; destruct H as [H|H]; [tauto|right; split; [exact H|tauto]]|].
          intros H. f_equal. apply rest_value. destruct H as [H|[H _]]; auto.
    - rewrite (begins_single b r B). rewrite (word_single b r B). destruct (in_dec ascii_dec b (map fst full)) as [I|I].
      + split; [discriminate|]. intros [H|[_ H]]; [elim (below_letter b r H I)|elim (H I)].
      + split; [intros H; injection H as H; apply rest_value in H; tauto|]. intros H. f_equal. apply rest_value. tauto.
  Qed.
  (** Words that are options. *)
  Definition option_word (w : str) (x : ascii) (e : option str) : Prop := exists n, In (x, n) full /\
    match e with
    | None => w = [dash; x] \/ shortened w n
    | Some v => (exists p, shortened p n /\ w = p ++ equals :: v) \/ w = dash :: x :: equals :: v \/ (exists c v', v = c :: v' /\ c <> equals /\ w = dash :: x :: v)
    end.
  Lemma shortened_iff p n : shortened p n <-> exists c q s, p = dash :: dash :: c :: q /\ n = (c :: q) ++ s.
  Proof.
    unfold shortened. split; intros (x & r & s & -> & E); exists x, r, s; (split; [reflexivity|]).
    - injection E as E. exact E.
    - rewrite E. reflexivity.
  Qed.
  Lemma option_found w x m e : parse_word table w = inl (Opt (Some (x, m, e))) -> option_word w x e.
  Proof using OK.
    intros P. destruct w as [|c r]; [discriminate|]. destruct (ascii_dec c dash) as [->|C]; [|unfold parse_word in P; rewrite (neqb c dash C) in P; discriminate].
    destruct r as [|b r].
    { unfold parse_word in P. rewrite Ascii.eqb_refl in P. cbn [negb] in P. assert (E0 : find_string table [dash] = None) by (apply find_string_none; intros y k J; split; discriminate). rewrite E0 in P. discriminate. }
    destruct (ascii_dec b dash) as [->|B].
    - destruct r as [|b r].
      { unfold parse_word in P. rewrite Ascii.eqb_refl in P. cbn [negb] in P.
        assert (E2 : find_string table [dash; dash] = None).
        { apply find_string_none. intros y k I. destruct (full_name y k I) as (Sx & r1 & -> & _). split; [intros E; injection E as <-; apply small_dash in Sx; tauto|discriminate]. }
        rewrite E2 in P. cbn [split_eq] in P. change (Ascii.eqb dash equals) with false in P. unfold tuples in P. rewrite Ascii.eqb_refl in P. cbn [split_eq] in P. change (Ascii.eqb dash equals) with false in P.
        destruct (tuples_none None) as (a & a' & l & T). cbv beta iota in P. rewrite T in P. discriminate. }
      destruct (word_double (b :: r)) as [Q A]; [discriminate|]. destruct (cut (b :: r)) as [[|c q] e'] eqn:C; [congruence|].
      destruct (find (fun o => startswith (snd o) (c :: q)) full) as [[y n]|] eqn:F.
      + destruct (A c q e' (y, n) eq_refl F) as (k & E). rewrite E in P. injection P as -> _ ->. apply find_some in F. destruct F as [I S]. cbn [snd] in S. apply starts_pre in S. destruct S as [s S].
        exists n. split; [exact I|]. destruct e as [v|].
        * apply cut_some in C. destruct C as [C _]. left. exists (dash :: dash :: c :: q). split; [apply shortened_iff; exists c, q, s; auto|]. rewrite C. reflexivity.
        * apply cut_none in C. destruct C as [C _]. right. apply shortened_iff. exists c, q, s. rewrite C. auto.
      + rewrite Q in P. unfold rest_word in P. destruct (negative_number _) in P; [discriminate|]. destruct (has_char " " (dash :: dash :: b :: r)); discriminate.
    - rewrite (word_single b r B) in P. destruct (in_dec ascii_dec b (map fst full)) as [I|I].
      + injection P as -> _ E. apply letter_full in I. destruct I as (n & I). exists n. split; [exact I|]. destruct r as [|c r]; [subst e; left; reflexivity|].
        destruct (Ascii.eqb_spec c equals) as [->|Ce]; subst e; [right; left; reflexivity|]. right; right. exists c, r. auto.
      + unfold rest_word in P. destruct (negative_number _) in P; [discriminate|]. destruct (has_char " " (dash :: b :: r)); discriminate.
  Qed.
  Lemma option_known w x e : option_word w x e -> exists m, parse_word table w = inl (Opt (Some (x, m, e))).
  Proof using OK.
    intros (n & I & H). destruct (full_name x n I) as (Sx & r0 & En & Ne). pose proof (small_dash x Sx) as (Dx & Ex & _).
    assert (Lo : forall p v, shortened p n -> exists c q, p = dash :: dash :: c :: q /\ find (fun o => startswith (snd o) (c :: q)) full = Some (x, n) /\ cut (c :: q) = (c :: q, None) /\ cut (c :: q ++ equals :: v) = (c :: q, Some v)).
    { intros p v S. apply shortened_iff in S. destruct S as (c & q & s & -> & E). exists c, q. split; [reflexivity|].
      assert (Nq : ~ In equals (c :: q)) by (intros J; apply Ne; rewrite E; apply in_or_app; left; exact J).
      split; [apply find_full; [exact I|apply starts_pre; exists s; exact E]|]. split; [apply cut_none; auto|]. apply cut_some. auto. }
    assert (Le : In x (map fst full)) by (apply letter_full; eauto).
    destruct e as [v|].
    - destruct H as [(p & S & ->)|[->|(c & v' & -> & Ce & ->)]].
      + destruct (Lo p v S) as (c & q & -> & F & _ & C). destruct (proj2 (word_double (c :: q ++ equals :: v) ltac:(discriminate)) c q (Some v) (x, n) C F) as (k & E). exists (dash :: dash :: k). exact E.
      + exists [dash; x]. rewrite (word_single x (equals :: v) Dx). destruct (in_dec ascii_dec x (map fst full)); [|contradiction]. rewrite Ascii.eqb_refl. reflexivity.
      + exists [dash; x]. rewrite (word_single x (c :: v') Dx). destruct (in_dec ascii_dec x (map fst full)); [|contradiction]. rewrite (neqb c equals Ce). reflexivity.
    - destruct H as [->|S].
      + exists [dash; x]. rewrite (word_single x [] Dx). destruct (in_dec ascii_dec x (map fst full)); [reflexivity|contradiction].
      + destruct (Lo w [] S) as (c & q & -> & F & C & _). destruct (proj2 (word_double (c :: q) ltac:(discriminate)) c q None (x, n) C F) as (k & E). exists (dash :: dash :: k). exact E.
  Qed.
  Lemma option_not_dashes w x e : option_word w x e -> str_eqb w (lit "--") = false.
  Proof using OK.
    intros (n & I & H). destruct (full_name x n I) as (Sx & _). apply small_dash in Sx. destruct Sx as [Dx _]. destruct (str_eqb_spec w (lit "--")) as [->|]; [|reflexivity]. exfalso.
    destruct e as [v|].
    - destruct H as [(p & S & E)|[E|(c & v' & -> & _ & E)]]; [|discriminate|discriminate]. apply shortened_iff in S. destruct S as (c & q & s & -> & _). discriminate.
    - destruct H as [E|S]; [injection E as E; elim Dx; symmetry; exact E|]. apply shortened_iff in S. destruct S as (c & q & s & E & _). discriminate.
  Qed.

  (** ** Lines *)
  Lemma letters_help e a : letters table a e = letters table a e -> a = "h"%char -> forall o, letters table a e = inl o -> fst o = true.
  Proof.
    intros _ -> o E. destruct e as [|c e]; cbn [letters] in E; [discriminate|]. change (negb (Ascii.eqb "h" "h")) with false in E. cbn [letters] in E.
    destruct (find_string table [dash; c]) as [b|]; [|discriminate]. destruct e as [|d e]; [injection E as <-; reflexivity|]. destruct (letters table b (d :: e)) as [[u t]|]; [injection E as <-; reflexivity|discriminate].
  Qed.
  Lemma left_over_values cs : forall l, take_values table cs true <> inl l.
  Proof.
    assert (G : forall n cs, (length cs < n)%nat -> forall l, take_values table cs true <> inl l).
    { clear cs. induction n as [|n IH]; intros cs Hn l; [lia|]. destruct cs as [|[w [|[t|]]] cs]; cbn [take_values length] in *; [discriminate| | |].
      - apply IH. lia.
      - destruct (consume_word table t) as [[h [|x|x v]]|s]; [| | |discriminate].
        + destruct h; [discriminate|]. apply IH. lia.
        + destruct cs as [|[f [|o]] cs]; [discriminate| |discriminate]. destruct h; [discriminate|]. destruct (value_of f); [|discriminate]. cbn [length] in Hn.
          specialize (IH cs ltac:(lia)). destruct (take_values table cs true) as [l'|]; [elim (IH l' eq_refl)|discriminate].
        + destruct h; [discriminate|]. destruct (value_of v); [|discriminate]. specialize (IH cs ltac:(lia)). destruct (take_values table cs true) as [l'|]; [elim (IH l' eq_refl)|discriminate].
      - apply IH. lia. }
    apply (G (S (length cs))). lia.
  Qed.
  Lemma take_help w m e cs l : take_values table ((w, Opt (Some ("h"%char, m, e))) :: cs) false <> inl l.
  Proof.
    cbn [take_values]. unfold consume_word. destruct e as [e|]; [|cbn; discriminate]. change (negb (Ascii.eqb "h" "h")) with false. cbv iota.
    destruct m as [|a [|b m]]; [discriminate|discriminate|]. destruct (Ascii.eqb b dash); [discriminate|]. destruct (letters table "h" e) as [[u t]|] eqn:L; [|discriminate].
    apply (letters_help e "h" eq_refl eq_refl) in L. cbn [fst] in L. subst u. destruct t as [|x|x v]; [discriminate| |discriminate]. destruct cs as [|[f [|o]] cs]; discriminate.
  Qed.
  Lemma table_h x n : In (x, n) table -> x <> "h"%char.
  Proof using OK. intros I ->. destruct OK as (_ & N & _). apply NoDup_cons_iff in N. destruct N as [N _]. apply N. apply (in_map fst) in I. exact I. Qed.
  Lemma consume_other x m e : x <> "h"%char -> consume_word table (x, m, e) = inl (false, match e with None => Wants x | Some v => Has x v end).
  Proof. intros N. unfold consume_word, last_one. rewrite (neqb x "h" N). destruct e; reflexivity. Qed.

  Lemma parsed n : forall argv l, (length argv < n)%nat -> parse_values table argv = inl l -> line_gives table argv l.
  Proof using OK.
    induction n as [|n IH]; intros argv l Hn P; [lia|]. destruct argv as [|w ws]; [injection P as <-; constructor|]. unfold parse_values in P. cbn [kinds length] in P, Hn.
    destruct (str_eqb_spec w (lit "--")) as [->|W]; [cbn [take_values] in P; elim (left_over_values _ _ P)|].
    destruct (parse_word table w) as [k|] eqn:K; [|discriminate]. destruct (kinds table ws) as [cs|] eqn:Ks; [|discriminate].
    destruct k as [|[[[x m] e]|]]; [cbn [take_values] in P; elim (left_over_values _ _ P)| |cbn [take_values] in P; elim (left_over_values _ _ P)].
    apply option_found in K. destruct (ascii_dec x "h"%char) as [->|Xh]; [elim (take_help _ _ _ _ _ P)|].
    destruct K as (nm & I & K). assert (I' : In (x, nm) table) by (destruct I as [I|I]; [injection I as <- _; congruence|exact I]).
    cbn [take_values] in P. rewrite (consume_other x m e Xh) in P. destruct e as [v|]; cbv iota in P.
    - destruct (value_of v) as [v'|] eqn:V; [|discriminate]. apply value_ok in V. destruct V as [-> V]. destruct (take_values table cs false) as [l'|] eqn:T; [|discriminate]. injection P as <-.
      change (w :: ws) with ([w] ++ ws). apply Gives_more.
      + destruct K as [(p & S & ->)|[->|(c & v' & -> & Ce & ->)]]; [exact (Long_equals table x nm p v I' S V)|exact (Letter_equals table x nm v I' V)|exact (Letter_joined table x nm c v' I' Ce V)].
      + apply IH; [lia|]. unfold parse_values. rewrite Ks. exact T.
    - destruct cs as [|[v [|o]] cs]; [discriminate| |discriminate]. destruct (value_of v) as [v'|] eqn:V; [|discriminate]. apply value_ok in V. destruct V as [-> V]. destruct (take_values table cs false) as [l'|] eqn:T; [|discriminate]. injection P as <-.
      destruct ws as [|v' ws]; [discriminate|]. cbn [kinds] in Ks. destruct (str_eqb_spec v' (lit "--")) as [->|V2]; [discriminate|]. destruct (parse_word table v') as [k|] eqn:K2; [|discriminate]. destruct (kinds table ws) as [cs'|] eqn:Ks'; [|discriminate].
      injection Ks as -> -> ->. apply (value_iff v V) in K2. change (w :: v :: ws) with ([w; v] ++ ws). apply Gives_more.
      + destruct K as [->|S]; [exact (Letter_next table x nm v I' K2)|exact (Long_next table x nm w v I' S K2)].
      + apply IH; [cbn [length] in Hn; lia|]. unfold parse_values. rewrite Ks'. exact T.
  Qed.
  Lemma free_not_dashes v : free table v -> v <> lit "--".
  Proof using OK.
    intros F ->. destruct F as [F|[F|[F|[F _]]]]; [elim (F (lit "-")); reflexivity|discriminate| |].
    - apply number_iff in F. discriminate.
    - cbn in F. destruct F as [F|[F|[]]]; discriminate.
  Qed.
  Lemma word_has w x n v ws l : In (x, n) table -> option_word w x (Some v) -> v <> lit "--" -> parse_values table ws = inl l -> parse_values table (w :: ws) = inl ((x, v) :: l).
  Proof using OK.
    intros I O V P. pose proof (table_h x n I) as Xh. unfold parse_values in *. cbn [kinds]. rewrite (option_not_dashes w x _ O). destruct (option_known w x _ O) as (m & ->).
    destruct (kinds table ws) as [cs|]; [|discriminate]. cbn [take_values]. rewrite (consume_other x m (Some v) Xh). cbv iota. rewrite (proj2 (value_ok v v) (conj eq_refl V)), P. reflexivity.
  Qed.
  Lemma word_wants w x n v ws l : In (x, n) table -> option_word w x None -> free table v -> parse_values table ws = inl l -> parse_values table (w :: v :: ws) = inl ((x, v) :: l).
  Proof using OK.
    intros I O F P. pose proof (table_h x n I) as Xh. pose proof (free_not_dashes v F) as V. unfold parse_values in *. cbn [kinds]. rewrite (option_not_dashes w x _ O). destruct (option_known w x _ O) as (m & ->).
    destruct (str_eqb_spec v (lit "--")); [contradiction|]. rewrite (proj2 (value_iff v V) F). destruct (kinds table ws) as [cs|]; [|discriminate]. cbn [take_values]. rewrite (consume_other x m None Xh). cbv iota.
    rewrite (proj2 (value_ok v v) (conj eq_refl V)), P. reflexivity.
  Qed.
  Lemma given argv l : line_gives table argv l -> parse_values table argv = inl l.
  Proof using OK.
    induction 1 as [|ws x v ws' l G _ IH]; [reflexivity|]. assert (F : forall x n, In (x, n) table -> In (x, n) full) by (intros; right; assumption).
    destruct G as [x n p v I S V|x n p v I S V|x n v I V|x n v I V|x n c v I Ce V]; cbn [app].
    - apply (word_wants p x n v ws' l I); [exists n; split; [auto|right; exact S]|exact V|exact IH].
    - apply (word_has _ x n v ws' l I); [exists n; split; [auto|left; exists p; split; [exact S|reflexivity]]|exact V|exact IH].
    - apply (word_wants _ x n v ws' l I); [exists n; split; [auto|left; reflexivity]|exact V|exact IH].
    - apply (word_has _ x n v ws' l I); [exists n; split; [auto|right; left; reflexivity]|exact V|exact IH].
    - apply (word_has _ x n (c :: v) ws' l I); [exists n; split; [auto|right; right; exists c, v; auto]|exact V|exact IH].
  Qed.
  Lemma accepted argv l : parse_values table argv = inl l <-> line_gives table argv l.
  Proof using OK. split; [apply (parsed (S (length argv))); lia|apply given]. Qed.
End Arg.
Lemma namespace_last x l v : namespace x l v = last_value x l v.
Proof.
  revert v. induction l as [|[y w] l IH]; intros v; [reflexivity|]. cbn [namespace last_value]. rewrite IH. destruct (Ascii.eqb_spec y x) as [->|N]; destruct (ascii_dec _ x); congruence.
Qed.
