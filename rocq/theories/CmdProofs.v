(** * Lemmas: the command line *)
From Verif Require Import Base PyStr UtilModel UtilSpec UtilProofs IniModel IniSpec IniProofs RunModel StartModel CmdModel CmdSpec.
Open Scope Z_scope.

(** ** Comparing words *)
Lemma seq_cons a s b t : str_eqb (a :: s) (b :: t) = (Ascii.eqb a b && str_eqb s t)%bool.
Proof.
  destruct (str_eqb_spec (a :: s) (b :: t)) as [E|E].
  - injection E as -> ->. rewrite Ascii.eqb_refl, str_eqb_refl. reflexivity.
  - destruct (Ascii.eqb_spec a b) as [->|]; [|reflexivity]. destruct (str_eqb_spec s t) as [->|]; [elim E; reflexivity|reflexivity].
Qed.
Lemma seq_nil_cons b t : str_eqb [] (b :: t) = false. Proof. reflexivity. Qed.
Lemma seq_cons_nil a s : str_eqb (a :: s) [] = false. Proof. reflexivity. Qed.
Lemma eqb_sym (a b : ascii) : Ascii.eqb a b = Ascii.eqb b a.
Proof. destruct (Ascii.eqb_spec a b), (Ascii.eqb_spec b a); congruence. Qed.
Lemma neqb a b : a <> b -> Ascii.eqb a b = false.
Proof. intros H. destruct (Ascii.eqb_spec a b); congruence. Qed.
Lemma find_step s n a (l : list (str * act)) :
  match find (fun o => str_eqb s (fst o)) ((n, a) :: l) with Some o => Some (snd o) | None => None end =
  if str_eqb s n then Some a else match find (fun o => str_eqb s (fst o)) l with Some o => Some (snd o) | None => None end.
Proof. cbn [find fst]. destruct (str_eqb s n); reflexivity. Qed.
Lemma find_eq s : find_option s =
  if str_eqb s (lit "-h") then Some AHelp else if str_eqb s (lit "--help") then Some AHelp else
  if str_eqb s (lit "-c") then Some AConfig else if str_eqb s (lit "--config_file") then Some AConfig else
  if str_eqb s (lit "-v") then Some AVerbose else if str_eqb s (lit "--verbose") then Some AVerbose else None.
Proof. unfold find_option, option_table. rewrite !find_step. reflexivity. Qed.

(** The letter of a single-dash option. *)
Definition letter (x : ascii) : option act := find_option [dash; x].
Lemma letter_eq x : letter x = if Ascii.eqb x "h" then Some AHelp else if Ascii.eqb x "c" then Some AConfig else if Ascii.eqb x "v" then Some AVerbose else None.
Proof.
  unfold letter. rewrite find_eq. cbn [lit list_ascii_of_string]. rewrite !seq_cons, !seq_nil_cons. unfold dash. rewrite Ascii.eqb_refl. cbn [andb].
  rewrite str_eqb_refl, !Bool.andb_true_r, !Bool.andb_false_r. reflexivity.
Qed.
Lemma letter_in x : (exists a, letter x = Some a) <-> In x (lit "hcv").
Proof.
  rewrite letter_eq. cbn [lit list_ascii_of_string In]. split.
  - intros (a & H). destruct (Ascii.eqb_spec x "h"); [auto|]. destruct (Ascii.eqb_spec x "c"); [auto|]. destruct (Ascii.eqb_spec x "v"); [auto|discriminate].
  - intros [<-|[<-|[<-|[]]]]; eexists; reflexivity.
Qed.
Lemma find_single x r : x <> dash -> find_option (dash :: x :: r) = match r with [] => letter x | _ => None end.
Proof.
  intros X. destruct r as [|y r]; [reflexivity|]. rewrite find_eq. cbn [lit list_ascii_of_string].
  rewrite !seq_cons, !seq_cons_nil. unfold dash in *. rewrite (neqb x "-" X). cbn [andb]. rewrite !Bool.andb_false_r. reflexivity.
Qed.

(** Words with a single dash. *)
Definition other_word (w : str) : cls := if negative_number w then Argument else if has_char " " w then Argument else Option None.
Definition single_class (x : ascii) (r : str) : cls :=
  match letter x with
  | Some a => Option (Some (a, [dash; x], match r with [] => None | y :: r' => Some (if Ascii.eqb y equals then r' else r) end))
  | None => other_word (dash :: x :: r)
  end.
Lemma starts_dashes n w x r : w = dash :: x :: r -> x <> dash -> startswith (dash :: dash :: n) w = false.
Proof.
  intros -> X. unfold startswith. cbn [length firstn]. rewrite !seq_cons, (neqb dash x) by congruence. cbn [andb]. rewrite Bool.andb_false_r. reflexivity.
Qed.
Lemma tuples_single x r : x <> dash -> option_tuples (dash :: x :: r) = match letter x with Some a => [(a, [dash; x], Some r)] | None => [] end.
Proof.
  intros X. cbn [option_tuples]. rewrite (neqb x dash X). unfold option_table. cbn [flat_map fst snd].
  change (lit "--help") with (dash :: dash :: lit "help"). change (lit "--config_file") with (dash :: dash :: lit "config_file").
  change (lit "--verbose") with (dash :: dash :: lit "verbose"). rewrite !(starts_dashes _ (dash :: x :: r) x r eq_refl X).
  rewrite !seq_cons, (neqb dash x) by congruence. cbn [andb]. rewrite !Bool.andb_false_r.
  change (lit "-h") with [dash; "h"%char]. change (lit "-c") with [dash; "c"%char]. change (lit "-v") with [dash; "v"%char].
  rewrite !seq_cons, Ascii.eqb_refl, str_eqb_refl, !Bool.andb_true_r. cbn [andb]. rewrite letter_eq.
  assert (N : forall y, startswith [dash; y] (dash :: x :: r) = (Ascii.eqb y x && str_eqb [] r)%bool).
  { intros y. unfold startswith. cbn [length firstn]. rewrite !seq_cons, Ascii.eqb_refl. cbn [andb]. rewrite firstn_nil. reflexivity. }
  rewrite !N. rewrite (eqb_sym x "h"), (eqb_sym x "c"), (eqb_sym x "v").
  destruct (Ascii.eqb_spec "h" x) as [<-|]; [reflexivity|]. destruct (Ascii.eqb_spec "c" x) as [<-|]; [reflexivity|].
  destruct (Ascii.eqb_spec "v" x) as [<-|]; reflexivity.
Qed.
Lemma letter_known x a : letter x = Some a -> x <> dash /\ x <> equals.
Proof. intros H. assert (I : In x (lit "hcv")) by (apply letter_in; eauto). cbn in I. destruct I as [<-|[<-|[<-|[]]]]; split; discriminate. Qed.
Lemma parse_single x r : x <> dash -> parse_optional (dash :: x :: r) = inl (single_class x r).
Proof.
  intros X. unfold parse_optional, single_class. rewrite Ascii.eqb_refl. cbn [negb]. rewrite (find_single x r X), (tuples_single x r X).
  destruct (letter x) as [a|] eqn:L.
  - destruct (letter_known x a L) as [_ XE]. destruct r as [|y r]; [reflexivity|].
    cbn [split_eq]. change (Ascii.eqb dash equals) with false. rewrite (neqb x equals XE). cbn [split_eq].
    destruct (Ascii.eqb_spec y equals) as [->|Y].
    + fold (letter x). rewrite L. reflexivity.
    + destruct (split_eq r) as [[p e]|]; [|reflexivity]. rewrite (find_single x (y :: p) X). reflexivity.
  - assert (S : match split_eq (dash :: x :: r) with Some (p, e) => match find_option p with Some a => Some (a, p, Some e) | None => None end | None => None end = None).
    { cbn [split_eq]. change (Ascii.eqb dash equals) with false. cbn [split_eq]. destruct (Ascii.eqb_spec x equals) as [->|Y]; [reflexivity|].
      destruct (split_eq r) as [[p e]|]; [|reflexivity]. rewrite (find_single x p X). destruct p; [rewrite L|]; reflexivity. }
    rewrite S. unfold other_word. destruct (negative_number (dash :: x :: r)), (has_char " " (dash :: x :: r)), r; reflexivity.
Qed.
(** Words with two dashes. *)
Definition long_of (x : ascii) : option (str * act) :=
  if Ascii.eqb x "h" then Some (lit "help", AHelp) else if Ascii.eqb x "c" then Some (lit "config_file", AConfig)
  else if Ascii.eqb x "v" then Some (lit "verbose", AVerbose) else None.
Definition cut (r : str) : str * option str := match split_eq r with Some (q, e) => (q, Some e) | None => (r, None) end.
Definition double_class (r : str) : cls + stop :=
  match cut r with
  | ([], _) => inr Usage
  | (x :: q, e) =>
    match long_of x with
    | Some (n, a) => if startswith n (x :: q) then inl (Option (Some (a, dash :: dash :: n, e))) else inl (other_word (dash :: dash :: r))
    | None => inl (other_word (dash :: dash :: r))
    end
  end.
Lemma starts_double n q : startswith (dash :: dash :: n) (dash :: dash :: q) = startswith n q.
Proof. unfold startswith. cbn [length firstn]. rewrite !seq_cons, Ascii.eqb_refl. reflexivity. Qed.
Lemma starts_letter x q : startswith [dash; x] (dash :: dash :: q) = (Ascii.eqb x dash && match q with [] => true | _ => false end)%bool.
Proof. unfold startswith. cbn [length firstn]. rewrite !seq_cons, Ascii.eqb_refl, firstn_nil. destruct q; reflexivity. Qed.
Lemma cut_dashes r : match split_eq (dash :: dash :: r) with Some (p, e) => (p, Some e) | None => (dash :: dash :: r, None) end = (dash :: dash :: fst (cut r), snd (cut r)).
Proof. unfold cut. cbn [split_eq]. change (Ascii.eqb dash equals) with false. cbn [split_eq]. destruct (split_eq r) as [[q e]|]; reflexivity. Qed.
Lemma tuples_double r : option_tuples (dash :: dash :: r) =
  let '(q, e) := cut r in
  (if startswith (lit "help") q then [(AHelp, lit "--help", e)] else []) ++
  (if startswith (lit "config_file") q then [(AConfig, lit "--config_file", e)] else []) ++
  (if startswith (lit "verbose") q then [(AVerbose, lit "--verbose", e)] else []).
Proof.
  cbn [option_tuples]. rewrite Ascii.eqb_refl, cut_dashes. destruct (cut r) as [q e]. cbn [fst snd]. unfold option_table. cbn [flat_map fst snd].
  change (lit "-h") with [dash; "h"%char]. change (lit "-c") with [dash; "c"%char]. change (lit "-v") with [dash; "v"%char]. rewrite !starts_letter.
  change (Ascii.eqb "h" dash) with false. change (Ascii.eqb "c" dash) with false. change (Ascii.eqb "v" dash) with false. cbn [andb app].
  change (lit "--help") with (dash :: dash :: lit "help"). change (lit "--config_file") with (dash :: dash :: lit "config_file").
  change (lit "--verbose") with (dash :: dash :: lit "verbose"). rewrite !starts_double. rewrite !app_nil_r. reflexivity.
Qed.
Lemma starts_self s : startswith s s = true.
Proof. unfold startswith. rewrite firstn_all. apply str_eqb_refl. Qed.
Lemma starts_cons a s b t : startswith (a :: s) (b :: t) = (Ascii.eqb a b && startswith s t)%bool.
Proof. unfold startswith. cbn [length firstn]. apply seq_cons. Qed.
Lemma find_double q : find_option (dash :: dash :: q) =
  if str_eqb q (lit "help") then Some AHelp else if str_eqb q (lit "config_file") then Some AConfig else if str_eqb q (lit "verbose") then Some AVerbose else None.
Proof.
  rewrite find_eq. change (lit "-h") with [dash; "h"%char]. change (lit "-c") with [dash; "c"%char]. change (lit "-v") with [dash; "v"%char].
  change (lit "--help") with (dash :: dash :: lit "help"). change (lit "--config_file") with (dash :: dash :: lit "config_file").
  change (lit "--verbose") with (dash :: dash :: lit "verbose"). rewrite !seq_cons, Ascii.eqb_refl.
  change (Ascii.eqb dash "h") with false. change (Ascii.eqb dash "c") with false. change (Ascii.eqb dash "v") with false. reflexivity.
Qed.
Lemma number_double r : negative_number (dash :: dash :: r) = false.
Proof. reflexivity. Qed.
Lemma split_none r : split_eq r = None -> cut r = (r, None).
Proof. intros H. unfold cut. rewrite H. reflexivity. Qed.
Lemma tuples_head x q :
  (if startswith (lit "help") (x :: q) then [(AHelp, lit "--help")] else []) ++
  (if startswith (lit "config_file") (x :: q) then [(AConfig, lit "--config_file")] else []) ++
  (if startswith (lit "verbose") (x :: q) then [(AVerbose, lit "--verbose")] else []) =
  match long_of x with Some (n, a) => if startswith n (x :: q) then [(a, dash :: dash :: n)] else [] | None => [] end.
Proof.
  unfold long_of. destruct (Ascii.eqb_spec x "h") as [->|H1].
  { change (lit "config_file") with ("c"%char :: lit "onfig_file"). change (lit "verbose") with ("v"%char :: lit "erbose"). rewrite !(starts_cons "c"), !(starts_cons "v"). cbn [andb Ascii.eqb Bool.eqb].
    destruct (startswith (lit "help") _); reflexivity. }
  destruct (Ascii.eqb_spec x "c") as [->|H2].
  { change (lit "help") with ("h"%char :: lit "elp"). change (lit "verbose") with ("v"%char :: lit "erbose"). rewrite !(starts_cons "h"), !(starts_cons "v"). cbn [andb Ascii.eqb Bool.eqb].
    destruct (startswith (lit "config_file") _); reflexivity. }
  destruct (Ascii.eqb_spec x "v") as [->|H3].
  { change (lit "help") with ("h"%char :: lit "elp"). change (lit "config_file") with ("c"%char :: lit "onfig_file"). rewrite !(starts_cons "h"), !(starts_cons "c"). cbn [andb Ascii.eqb Bool.eqb].
    destruct (startswith (lit "verbose") _); reflexivity. }
  change (lit "help") with ("h"%char :: lit "elp"). change (lit "config_file") with ("c"%char :: lit "onfig_file"). change (lit "verbose") with ("v"%char :: lit "erbose").
  rewrite !starts_cons, (neqb "h" x), (neqb "c" x), (neqb "v" x) by congruence. reflexivity.
Qed.
Lemma parse_double r : parse_optional (dash :: dash :: r) = double_class r.
Proof.
  unfold parse_optional. rewrite Ascii.eqb_refl. cbn [negb]. rewrite tuples_double, find_double.
  assert (SP : match split_eq (dash :: dash :: r) with Some (p, e) => match find_option p with Some a => Some (a, p, Some e) | None => None end | None => None end =
               match split_eq r with Some (q, e) => match find_option (dash :: dash :: q) with Some a => Some (a, dash :: dash :: q, Some e) | None => None end | None => None end).
  { cbn [split_eq]. change (Ascii.eqb dash equals) with false. cbn [split_eq]. destruct (split_eq r) as [[q e]|]; reflexivity. }
  rewrite SP. clear SP. unfold double_class. destruct (split_eq r) as [[q e]|] eqn:SR; unfold cut; rewrite SR.
  - (* with a value *)
    assert (RN : r <> [] /\ forall n, has_char equals n = false -> str_eqb r n = false).
    { split; [intros ->; discriminate|]. intros n Hn. destruct (str_eqb_spec r n) as [->|]; [|reflexivity]. exfalso. clear -SR Hn.
      revert q e SR. induction n as [|c n IH]; intros q e SR; [discriminate|]. cbn [split_eq] in SR. cbn [has_char existsb] in Hn. rewrite eqb_sym in Hn.
      destruct (Ascii.eqb c equals); [discriminate|]. destruct (split_eq n) as [[a b]|]; [|discriminate]. apply (IH Hn a b eq_refl). }
    destruct RN as [_ RN]. rewrite !RN by reflexivity. rewrite find_double. destruct q as [|x q]; [reflexivity|].
    pose proof (tuples_head x q) as T.
    destruct (str_eqb_spec (x :: q) (lit "help")) as [E|_]; [rewrite E; injection E as -> ->; reflexivity|].
    destruct (str_eqb_spec (x :: q) (lit "config_file")) as [E|_]; [rewrite E; injection E as -> ->; reflexivity|].
    destruct (str_eqb_spec (x :: q) (lit "verbose")) as [E|_]; [rewrite E; injection E as -> ->; reflexivity|].
    unfold other_word. rewrite number_double.
    destruct (long_of x) as [[n a]|]; [destruct (startswith n (x :: q))|];
    destruct (startswith (lit "help") (x :: q)), (startswith (lit "config_file") (x :: q)), (startswith (lit "verbose") (x :: q));
    cbn [app] in *; try discriminate; try (injection T as <- <-; reflexivity); destruct (has_char " " _); reflexivity.
  - destruct r as [|x q]; [reflexivity|].
    pose proof (tuples_head x q) as T.
    destruct (str_eqb_spec (x :: q) (lit "help")) as [E|_]; [rewrite E; injection E as -> ->; reflexivity|].
    destruct (str_eqb_spec (x :: q) (lit "config_file")) as [E|_]; [rewrite E; injection E as -> ->; reflexivity|].
    destruct (str_eqb_spec (x :: q) (lit "verbose")) as [E|_]; [rewrite E; injection E as -> ->; reflexivity|].
    unfold other_word. rewrite number_double.
    destruct (long_of x) as [[n a]|]; [destruct (startswith n (x :: q))|];
    destruct (startswith (lit "help") (x :: q)), (startswith (lit "config_file") (x :: q)), (startswith (lit "verbose") (x :: q));
    cbn [app] in *; try discriminate; try (injection T as <- <-; reflexivity); destruct (has_char " " _); reflexivity.
Qed.

(** ** Long names cut short *)
Definition name_of (a : act) : string := match a with AHelp => "--help" | AConfig => "--config_file" | AVerbose => "--verbose" end.
Lemma starts_iff o p : startswith o p = true <-> exists s, o = p ++ s.
Proof.
  unfold startswith. destruct (str_eqb_spec (firstn (length p) o) p) as [E|E]; split; try discriminate; try reflexivity.
  - intros _. exists (skipn (length p) o). rewrite <- E at 1. symmetry. apply firstn_skipn.
  - intros (s & ->). elim E. rewrite firstn_app, firstn_all, Nat.sub_diag. cbn. apply app_nil_r.
Qed.
Lemma long_name x n a : long_of x = Some (n, a) -> lit (name_of a) = dash :: dash :: n /\ exists n', n = x :: n'.
Proof.
  unfold long_of. destruct (Ascii.eqb_spec x "h") as [->|]; [intros [= <- <-]; split; [reflexivity|eexists; reflexivity]|].
  destruct (Ascii.eqb_spec x "c") as [->|]; [intros [= <- <-]; split; [reflexivity|eexists; reflexivity]|].
  destruct (Ascii.eqb_spec x "v") as [->|]; [intros [= <- <-]; split; [reflexivity|eexists; reflexivity]|discriminate].
Qed.
Lemma short_iff a p : short_for p (name_of a) <-> exists x q n, p = dash :: dash :: x :: q /\ long_of x = Some (n, a) /\ startswith n (x :: q) = true.
Proof.
  split.
  - intros (x & r & s & -> & H). exists x, r.
    assert (L : exists n, long_of x = Some (n, a) /\ lit (name_of a) = dash :: dash :: n) by (destruct a; cbn in H; injection H as <- _; eexists; (split; reflexivity)).
    destruct L as (n & L & E). exists n. split; [reflexivity|]. split; [exact L|]. apply starts_iff. exists s. rewrite E in H. injection H as H. exact H.
  - intros (x & q & n & -> & L & H). destruct (long_name x n a L) as [E _]. apply starts_iff in H as (s & ->). exists x, q, s. split; [reflexivity|exact E].
Qed.
Lemma short_no_eq a p : short_for p (name_of a) -> ~ In equals p.
Proof.
  intros (x & r & s & -> & H) I. assert (J : In equals (lit (name_of a))) by (rewrite H; apply in_or_app; left; exact I).
  destruct a; cbn in J; repeat (destruct J as [J|J]; [discriminate|]); exact J.
Qed.
Lemma cut_some r q e : cut r = (q, Some e) <-> r = q ++ equals :: e /\ ~ In equals q.
Proof.
  unfold cut. revert q e. induction r as [|c r IH]; intros q e; cbn [split_eq].
  - split; [discriminate|]. intros [H _]. destruct q; discriminate.
  - destruct (Ascii.eqb_spec c equals) as [->|C].
    + split; [intros [= <- <-]; split; [reflexivity|intros []]|]. intros [H N]. destruct q as [|y q]; [injection H as ->; reflexivity|].
      injection H as <- _. elim N. left. reflexivity.
    + destruct (split_eq r) as [[a b]|] eqn:S.
      * split.
        -- intros [= <- <-]. destruct (proj1 (IH a b) eq_refl) as [-> N]. split; [reflexivity|]. intros [H|H]; [congruence|contradiction].
        -- intros [H N]. destruct q as [|y q]; [injection H as H _; congruence|]. injection H as <- H.
           assert (K : (a, Some b) = (q, Some e)) by (apply IH; split; [exact H|intros I; apply N; right; exact I]). injection K as <- <-. reflexivity.
      * split; [discriminate|]. intros [H N]. destruct q as [|y q]; [injection H as H _; congruence|]. injection H as <- H.
        assert (K : (r, None) = (q, Some e)) by (apply IH; split; [exact H|intros I; apply N; right; exact I]). discriminate.
Qed.
Lemma cut_none r q : cut r = (q, None) <-> r = q /\ ~ In equals q.
Proof.
  unfold cut. revert q. induction r as [|c r IH]; intros q; cbn [split_eq].
  - split; [intros [= <-]; split; [reflexivity|intros []]|intros [<- _]; reflexivity].
  - destruct (Ascii.eqb_spec c equals) as [->|C]; [split; [discriminate|intros [<- N]; elim N; left; reflexivity]|].
    destruct (split_eq r) as [[a b]|].
    + split; [discriminate|]. intros [<- N]. assert (K : (a, Some b) = (r, None)) by (apply IH; split; [reflexivity|intros I; apply N; right; exact I]). discriminate.
    + split; [intros [= <-]; split; [reflexivity|]|intros [<- _]; reflexivity]. destruct (proj1 (IH r) eq_refl) as [_ N]. intros [H|H]; [congruence|contradiction].
Qed.

(** ** Numbers and plain words *)
Lemma digit_in c : digit c = existsb (Ascii.eqb c) (lit "0123456789").
Proof. destruct c as [[] [] [] [] [] [] [] []]; reflexivity. Qed.
Lemma digit_iff c : digit c = true <-> is_digit c.
Proof.
  rewrite digit_in, existsb_exists. unfold is_digit. split; [intros (x & I & E); apply Ascii.eqb_eq in E; subst x; exact I|intros I; exists c; split; [exact I|apply Ascii.eqb_refl]].
Qed.
Definition line_end (e : str) : Prop := e = [] \/ e = ["010"%char].
Lemma digits_end_iff s : digits_end s = true <-> exists ds e, line_end e /\ Forall is_digit ds /\ s = ds ++ e.
Proof.
  induction s as [|c s IH]; cbn [digits_end].
  - split; [intros _; exists [], []; split; [left; reflexivity|split; [constructor|reflexivity]]|reflexivity].
  - destruct (digit c) eqn:D.
    + rewrite IH. apply digit_iff in D. split; intros (ds & e & L & F & E).
      * exists (c :: ds), e. split; [exact L|]. split; [constructor; assumption|]. rewrite E. reflexivity.
      * destruct ds as [|d ds].
        -- cbn in E. destruct L as [->| ->]; [discriminate|]. injection E as -> ->. cbv in D. repeat (destruct D as [D|D]; [discriminate|]). elim D.
        -- injection E as <- ->. inversion F; subst. exists ds, e. auto.
    + assert (ND : forall ds e, Forall is_digit ds -> c :: s = ds ++ e -> ds = [] /\ e = c :: s).
      { intros [|d ds] e F E; [auto|]. injection E as <- _. inversion F as [|? ? F1 _]; subst. apply digit_iff in F1. congruence. }
      split.
      * destruct (Ascii.eqb_spec c nl) as [->|]; [|discriminate]. destruct s; [|discriminate]. intros _. exists [], [nl]. split; [right; reflexivity|]. split; [constructor|reflexivity].
      * intros (ds & e & L & F & E). destruct (ND ds e F E) as [-> ->]. destruct L as [L|L]; [discriminate|]. injection L as -> ->. reflexivity.
Qed.
Lemma digits1_iff s : digits1 s = true <-> exists ds e, line_end e /\ ds <> [] /\ Forall is_digit ds /\ s = ds ++ e.
Proof.
  unfold digits1. destruct s as [|c s].
  - split; [discriminate|]. intros (ds & e & _ & N & _ & E). destruct ds; [elim N; reflexivity|discriminate].
  - rewrite andb_true_iff, digit_iff, digits_end_iff. split.
    + intros [D (ds & e & L & F & ->)]. exists (c :: ds), e. split; [exact L|]. split; [discriminate|]. split; [constructor; assumption|reflexivity].
    + intros (ds & e & L & N & F & E). destruct ds as [|d ds]; [elim N; reflexivity|]. injection E as <- ->. inversion F; subst. split; [assumption|]. exists ds, e. auto.
Qed.
Lemma after_point_iff s : after_point s = true <-> exists d0 ds e, line_end e /\ ds <> [] /\ Forall is_digit ds /\ Forall is_digit d0 /\ s = d0 ++ dot :: ds ++ e.
Proof.
  induction s as [|c s IH]; cbn [after_point].
  - split; [discriminate|]. intros (d0 & ds & e & _ & _ & _ & _ & E). destruct d0; discriminate.
  - destruct (digit c) eqn:D.
    + rewrite IH. apply digit_iff in D. split; intros (d0 & ds & e & L & N & F & F0 & E).
      * exists (c :: d0), ds, e. rewrite E. repeat (split; [first [assumption|constructor; assumption]|]). reflexivity.
      * destruct d0 as [|d d0]; [injection E as -> _; cbv in D; repeat (destruct D as [D|D]; [discriminate|]); elim D|].
        injection E as <- ->. inversion F0; subst. exists d0, ds, e. repeat (split; [assumption|]). reflexivity.
    + rewrite andb_true_iff, Ascii.eqb_eq, digits1_iff. split.
      * intros [-> (ds & e & L & N & F & ->)]. exists [], ds, e. repeat (split; [first [assumption|constructor]|]). reflexivity.
      * intros (d0 & ds & e & L & N & F & F0 & E). destruct d0 as [|d d0].
        -- injection E as -> ->. split; [reflexivity|]. exists ds, e. auto.
        -- injection E as <- _. inversion F0 as [|? ? F1 _]; subst. apply digit_iff in F1. congruence.
Qed.
Lemma number_iff w : negative_number w = true <-> below_zero w.
Proof.
  unfold negative_number, below_zero. destruct w as [|c s].
  - split; [discriminate|]. intros (ds & e & _ & _ & _ & [E|(d0 & _ & E)]); discriminate.
  - rewrite andb_true_iff, orb_true_iff, Ascii.eqb_eq, digits1_iff, after_point_iff. split.
    + intros [-> [(ds & e & L & N & F & ->)|(d0 & ds & e & L & N & F & F0 & ->)]]; exists ds, e; (split; [exact L|]); (split; [exact N|]); (split; [exact F|]).
      * left. reflexivity.
      * right. exists d0. split; [exact F0|reflexivity].
    + intros (ds & e & L & N & F & [E|(d0 & F0 & E)]); injection E as -> ->; (split; [reflexivity|]).
      * left. exists ds, e. auto.
      * right. exists d0, ds, e. auto.
Qed.
Lemma space_iff w : has_char " " w = true <-> In " "%char w.
Proof.
  unfold has_char. rewrite existsb_exists. split; [intros (x & I & E); apply Ascii.eqb_eq in E; subst x; exact I|intros I; exists " "%char; split; [exact I|reflexivity]].
Qed.
Lemma other_iff w : other_word w = Argument <-> below_zero w \/ In " "%char w.
Proof.
  unfold other_word. rewrite <- number_iff, <- space_iff. destruct (negative_number w); [tauto|]. destruct (has_char " " w); [tauto|].
  split; [discriminate|intros [H|H]; discriminate].
Qed.
Lemma like_single x r : x <> dash -> (like_option (dash :: x :: r) <-> In x (lit "hcv")).
Proof.
  intros X. unfold like_option. split.
  - intros [(y & s & E & I)|(p & name & s & I & E & [H|(e & H)])]; [injection E as <- _; exact I| |]; injection H as H _; elim X; exact H.
  - intros I. left. exists x, r. split; [reflexivity|exact I].
Qed.
Lemma long_some x : forall n a, long_of x = Some (n, a) -> In (name_of a) ["--help"%string; "--config_file"%string; "--verbose"%string].
Proof. intros n [] _; cbn; tauto. Qed.
Lemma like_double r : r <> [] -> (like_option (dash :: dash :: r) <->
  fst (cut r) = [] \/ exists x q n a, fst (cut r) = x :: q /\ long_of x = Some (n, a) /\ startswith n (x :: q) = true).
Proof.
  intros RN. split.
  - intros [(y & s & E & I)|(p & name & s & I & E & H)].
    + injection E as <- _. cbv in I. repeat (destruct I as [I|I]; [discriminate|]). elim I.
    + assert (NE : ~ In equals p).
      { intros J. assert (K : In equals (lit name)) by (rewrite E; apply in_or_app; right; apply in_or_app; left; exact J).
        cbn in I. destruct I as [<-|[<-|[<-|[]]]]; cbv in K; repeat (destruct K as [K|K]; [discriminate|]); exact K. }
      assert (C : fst (cut r) = p).
      { destruct H as [H|(e & H)]; injection H as ->.
        - rewrite (proj2 (cut_none p p) (conj eq_refl NE)). reflexivity.
        - change (fst (cut (p ++ equals :: e)) = p). rewrite (proj2 (cut_some (p ++ equals :: e) p e) (conj eq_refl NE)). reflexivity. }
      rewrite C. destruct p as [|x q]; [left; reflexivity|right].
      assert (L : exists n a, long_of x = Some (n, a) /\ lit name = dash :: dash :: n).
      { cbn in I. destruct I as [<-|[<-|[<-|[]]]]; cbn in E; injection E as <- _; eexists; eexists; (split; reflexivity). }
      destruct L as (n & a & L & N). exists x, q, n, a. split; [reflexivity|]. split; [exact L|]. apply starts_iff. exists s. rewrite N in E. injection E as E. exact E.
  - intros H. right. destruct (cut r) as [q e] eqn:C. cbn [fst] in H.
    assert (W : dash :: dash :: r = lit "--" ++ q \/ exists e, dash :: dash :: r = lit "--" ++ q ++ lit "=" ++ e).
    { destruct e as [e|]; [apply cut_some in C as [-> _]; right; exists e; reflexivity|apply cut_none in C as [-> _]; left; reflexivity]. }
    destruct H as [->|(x & q' & n & a & -> & L & S)].
    + exists [], "--help"%string, (lit "help"). split; [left; reflexivity|]. split; [reflexivity|exact W].
    + apply starts_iff in S as (s & ->). destruct (long_name x _ a L) as [N _]. exists (x :: q'), (name_of a), s. split; [apply (long_some x _ _ L)|]. split; [exact N|exact W].
Qed.
Lemma no_dash_plain w : (forall r, w <> dash :: r) -> parse_optional w = inl Argument.
Proof. destruct w as [|c r]; intros H; [reflexivity|]. unfold parse_optional. rewrite (neqb c dash); [reflexivity|]. intros ->. apply (H r eq_refl). Qed.
Lemma plain_iff w : w <> lit "--" -> (parse_optional w = inl Argument <-> plain w).
Proof.
  intros W. destruct w as [|c r].
  { split; [intros _; left; discriminate|reflexivity]. }
  destruct (ascii_dec c dash) as [->|C].
  2:{ assert (A : forall s, c :: r <> dash :: s) by (intros s [= E _]; congruence). split; [intros _; left; exact A|intros _; apply no_dash_plain; exact A]. }
  destruct r as [|x r]; [split; [intros _; right; left; reflexivity|reflexivity]|].
  assert (NF : ~ (forall s, dash :: x :: r <> lit "-" ++ s)) by (intros H; apply (H (x :: r)); reflexivity).
  destruct (ascii_dec x dash) as [->|X].
  - rewrite parse_double. assert (RN : r <> []) by (intros ->; apply W; reflexivity). unfold plain. rewrite (like_double r RN).
    assert (NB : ~ below_zero (dash :: dash :: r)) by (rewrite <- number_iff; rewrite number_double; discriminate).
    pose proof (other_iff (dash :: dash :: r)) as O. unfold double_class. destruct (cut r) as [[|x q] e] eqn:CR; cbn [fst].
    + split; [discriminate|]. intros [H|[H|[H|[_ H]]]]; [elim (NF H)|discriminate|elim (NB H)|elim H; left; reflexivity].
    + destruct (long_of x) as [[n a]|] eqn:L; [destruct (startswith n (x :: q)) eqn:S|].
      * split; [discriminate|]. intros [H|[H|[H|[_ H]]]]; [elim (NF H)|discriminate|elim (NB H)|]. elim H. right. exists x, q, n, a. auto.
      * split.
        -- intros [= H]. apply O in H as [H|H]; [elim (NB H)|]. right. right. right. split; [exact H|]. intros [J|(y & q' & n' & a' & J & L' & S')]; [discriminate|].
           injection J as <- <-. rewrite L in L'. injection L' as <- <-. congruence.
        -- intros [H|[H|[H|[H _]]]]; [elim (NF H)|discriminate|elim (NB H)|]. f_equal. apply O. right. exact H.
      * split.
        -- intros [= H]. apply O in H as [H|H]; [elim (NB H)|]. right. right. right. split; [exact H|]. intros [J|(y & q' & n' & a' & J & L' & S')]; [discriminate|].
           injection J as <- <-. congruence.
        -- intros [H|[H|[H|[H _]]]]; [elim (NF H)|discriminate|elim (NB H)|]. f_equal. apply O. right. exact H.
  - rewrite (parse_single x r X). unfold plain, single_class. rewrite (like_single x r X). pose proof (other_iff (dash :: x :: r)) as O.
    destruct (letter x) as [a|] eqn:L.
    + assert (I : In x (lit "hcv")) by (apply letter_in; eauto). split; [discriminate|]. intros [H|[H|[H|[_ H]]]]; [elim (NF H)|discriminate| |contradiction].
      exfalso. apply number_iff in H. clear -H I. cbn in I. destruct I as [<-|[<-|[<-|[]]]]; discriminate.
    + assert (I : ~ In x (lit "hcv")) by (intros I; apply letter_in in I as (a & I); congruence). split.
      * intros [= H]. apply O in H. destruct H as [H|H]; [right; right; left; exact H|]. right. right. right. auto.
      * intros [H|[H|H]]; [elim (NF H)|discriminate|]. f_equal. apply O. tauto.
Qed.

(** ** Option words *)
Definition long_word (w : str) (t : act * str * option str) : Prop :=
  exists a p n, short_for p (name_of a) /\ lit (name_of a) = dash :: dash :: n /\
    ((w = p /\ t = (a, dash :: dash :: n, None)) \/ exists e, w = p ++ equals :: e /\ t = (a, dash :: dash :: n, Some e)).
Definition letter_word (w : str) (t : act * str * option str) : Prop :=
  exists x a, letter x = Some a /\
    ((w = [dash; x] /\ t = (a, [dash; x], None)) \/
     (exists e, w = dash :: x :: equals :: e /\ t = (a, [dash; x], Some e)) \/
     (exists y e, y <> equals /\ w = dash :: x :: y :: e /\ t = (a, [dash; x], Some (y :: e)))).
Lemma option_iff w t : w <> lit "--" -> (parse_optional w = inl (Option (Some t)) <-> long_word w t \/ letter_word w t).
Proof.
  intros W. assert (OW : forall w t, inl (B := stop) (other_word w) <> inl (Option (Some t))).
  { intros w' t' H. unfold other_word in H. destruct (negative_number w'); [discriminate|]. destruct (has_char " " w'); discriminate. }
  assert (LW : forall r, dash :: dash :: r <> lit "--" -> (parse_optional (dash :: dash :: r) = inl (Option (Some t)) <-> long_word (dash :: dash :: r) t)).
  { clear W w. intros r W. rewrite parse_double. unfold double_class. split.
    - destruct (cut r) as [[|x q] e] eqn:CR; [discriminate|]. destruct (long_of x) as [[n a]|] eqn:L; [|intros H; elim (OW _ _ H)].
      destruct (startswith n (x :: q)) eqn:S; [|intros H; elim (OW _ _ H)]. intros [= <-]. exists a, (dash :: dash :: x :: q), n.
      split; [apply short_iff; exists x, q, n; auto|]. split; [apply (long_name x n a L)|].
      destruct e as [e|]; [apply cut_some in CR as [-> _]; right; exists e; split; reflexivity|apply cut_none in CR as [-> _]; left; split; reflexivity].
    - intros (a & p & n & S & N & H). pose proof (short_no_eq a p S) as NE. apply short_iff in S as (x & q & n' & -> & L & S).
      destruct (long_name x n' a L) as [N' _]. rewrite N in N'. injection N' as <-.
      assert (NQ : ~ In equals (x :: q)) by (intros I; apply NE; right; right; exact I).
      destruct H as [[E ->]|(e & E & ->)]; injection E as ->.
      + rewrite (proj2 (cut_none (x :: q) (x :: q)) (conj eq_refl NQ)), L, S. reflexivity.
      + change (x :: q ++ equals :: e) with ((x :: q) ++ equals :: e). rewrite (proj2 (cut_some ((x :: q) ++ equals :: e) (x :: q) e) (conj eq_refl NQ)), L, S. reflexivity. }
  assert (NL : forall w, (forall r, w <> dash :: dash :: r) -> ~ long_word w t).
  { intros w' H (a & p & n & S & _ & K). apply short_iff in S as (x & q & n' & -> & _). destruct K as [[-> _]|(e & -> & _)]; eapply H; reflexivity. }
  assert (NS : forall w, (forall x r, x <> dash -> w <> dash :: x :: r) -> ~ letter_word w t).
  { intros w' H (x & a & L & K). destruct (letter_known x a L) as [X _].
    destruct K as [[-> _]|[(e & -> & _)|(y & e & _ & -> & _)]]; eapply H; try reflexivity; exact X. }
  destruct w as [|c r].
  { split; [discriminate|]. intros [H|H]; [elim (NL [])|elim (NS [])]; try exact H; intros; discriminate. }
  destruct (ascii_dec c dash) as [->|C].
  2:{ split; [|intros [H|H]; exfalso; [apply (NL (c :: r)) in H|apply (NS (c :: r)) in H]; try exact H; intros; congruence].
      rewrite no_dash_plain by (intros s; congruence). discriminate. }
  destruct r as [|x r]; [split; [discriminate|]; intros [H|H]; exfalso; [apply (NL [dash]) in H|apply (NS [dash]) in H]; try exact H; intros; discriminate|].
  destruct (ascii_dec x dash) as [->|X].
  - rewrite (LW r W). split; [left; assumption|]. intros [H|H]; [exact H|]. exfalso. apply (NS (dash :: dash :: r)) in H; [exact H|]. intros y s Y [= E _]. congruence.
  - rewrite (parse_single x r X). unfold single_class. split.
    + destruct (letter x) as [a|] eqn:L; [|intros H; elim (OW _ _ H)]. intros [= <-]. right. exists x, a. split; [exact L|]. destruct r as [|y r]; [left; split; reflexivity|right].
      destruct (Ascii.eqb_spec y equals) as [->|Y]; [left; exists r; split; reflexivity|right; exists y, r; auto].
    + intros [H|(y & a & L & K)]; [exfalso; apply (NL (dash :: x :: r)) in H; [exact H|intros s [= E _]; congruence]|].
      destruct K as [[E ->]|[(e & E & ->)|(z & e & Z & E & ->)]]; injection E as -> ->; rewrite L; [reflexivity|rewrite Ascii.eqb_refl; reflexivity|rewrite (neqb z equals Z); reflexivity].
Qed.

(** Letters in one word. *)
Lemma rep_app n : repeat AVerbose n ++ [AVerbose] = repeat AVerbose (S n).
Proof. induction n; [reflexivity|]. cbn [repeat app] in *. rewrite IHn. reflexivity. Qed.
Lemma cluster_vs n e b e' : letter b = Some e -> cluster AVerbose (vs n ++ b :: e') =
  match e' with
  | [] => let '(l, t) := last_act e in inl (repeat AVerbose (S n) ++ l, t)
  | _ => match cluster e e' with inl (l, t) => inl (repeat AVerbose (S n) ++ l, t) | inr s => inr s end
  end.
Proof.
  intros L. induction n as [|n IH].
  - cbn [vs repeat app cluster]. fold (letter b). rewrite L. destruct e'; reflexivity.
  - change (vs (S n) ++ b :: e') with ("v"%char :: (vs n ++ b :: e')). cbn [cluster].
    change (find_option [dash; "v"%char]) with (Some AVerbose). destruct (vs n ++ b :: e') as [|y s] eqn:E; [destruct n; discriminate|]. rewrite IH.
    destruct e'; [destruct (last_act e) as [l t]; reflexivity|]. destruct (cluster e (a :: e')) as [[l t]|]; reflexivity.
Qed.
Lemma cluster_shape e l t : cluster AVerbose e = inl (l, t) -> ~ In AHelp l -> exists n,
  (t = NoValue /\ e = vs (S n) /\ l = repeat AVerbose (S (S n))) \/
  (t = Wanted /\ e = vs n ++ lit "c" /\ l = repeat AVerbose (S n)) \/
  (exists x f, t = Given (x :: f) /\ e = vs n ++ lit "c" ++ x :: f /\ l = repeat AVerbose (S n)).
Proof.
  revert l t. induction e as [|b e IH]; intros l t; [discriminate|]. cbn [cluster]. fold (letter b). destruct (letter b) as [a|] eqn:L; [|discriminate].
  assert (B : b = match a with AHelp => "h"%char | AConfig => "c"%char | AVerbose => "v"%char end).
  { rewrite letter_eq in L. destruct (Ascii.eqb_spec b "h") as [->|]; [injection L as <-; reflexivity|].
    destruct (Ascii.eqb_spec b "c") as [->|]; [injection L as <-; reflexivity|]. destruct (Ascii.eqb_spec b "v") as [->|]; [injection L as <-; reflexivity|discriminate]. }
  destruct e as [|y e].
  - destruct a; cbn [last_act]; intros [= <- <-] H.
    + elim H. right. left. reflexivity.
    + exists O. right. left. rewrite B. auto.
    + exists O. left. rewrite B. auto.
  - destruct a.
    + intros H N. destruct (cluster AHelp (y :: e)) as [[l' t']|] eqn:K; [|discriminate]. injection H as <- <-. elim N. right. clear -K. cbn [cluster] in K.
      destruct (find_option [dash; y]); [|discriminate]. destruct e; [destruct (last_act a); injection K as <- _; left; reflexivity|].
      destruct (cluster a (a0 :: e)) as [[l t]|]; [injection K as <- _; left; reflexivity|discriminate].
    + intros [= <- <-] _. exists O. right. right. exists y, e. rewrite B. auto.
    + destruct (cluster AVerbose (y :: e)) as [[l' t']|]; [|discriminate]. intros [= <- <-] N.
      destruct (IH l' t' eq_refl (fun I => N (or_intror I))) as (n & [(-> & E & ->)|[(-> & E & ->)|(x & f & -> & E & ->)]]); exists (S n).
      * left. split; [reflexivity|]. split; [|reflexivity]. rewrite E, B. reflexivity.
      * right. left. split; [reflexivity|]. split; [|reflexivity]. rewrite E, B. reflexivity.
      * right. right. exists x, f. split; [reflexivity|]. split; [|reflexivity]. rewrite E, B. reflexivity.
Qed.
Lemma cluster_help e l t : cluster AHelp e = inl (l, t) -> In AHelp l.
Proof.
  destruct e as [|y e]; [discriminate|]. cbn [cluster]. destruct (find_option [dash; y]); [|discriminate].
  destruct e; [destruct (last_act a); intros [= <- _]; left; reflexivity|]. destruct (cluster a (a0 :: e)) as [[l' t']|]; [intros [= <- _]; left; reflexivity|discriminate].
Qed.
Lemma flags_inl l v v' : take_flags l v = inl v' -> ~ In AHelp l /\ v' = (match l with [] => v | _ => true end).
Proof.
  revert v. induction l as [|a l IH]; intros v; cbn [take_flags]; [intros [= <-]; split; [intros []|reflexivity]|].
  destruct a; [discriminate| |]; intros H; destruct (IH true H) as [N ->]; (split; [intros [I|I]; [discriminate|contradiction]|destruct l; reflexivity]).
Qed.
Lemma flags_vs n v : take_flags (repeat AVerbose n) v = inl (match n with O => v | S _ => true end).
Proof. revert v. induction n as [|n IH]; intros v; [reflexivity|]. cbn [repeat take_flags]. rewrite IH. destruct n; reflexivity. Qed.
Lemma flags_vs_help n l v : take_flags (repeat AVerbose n ++ AHelp :: l) v = inr Help.
Proof. revert v. induction n as [|n IH]; intros v; [reflexivity|]. cbn [repeat app take_flags]. apply IH. Qed.

(** ** Whole lines *)
Lemma left_over cs : forall c v x, take_words cs c v true <> inl x.
Proof.
  assert (G : forall n cs, (length cs < n)%nat -> forall c v x, take_words cs c v true <> inl x).
  { clear cs. induction n as [|n IH]; intros cs Hn c v x; [lia|]. destruct cs as [|[w [|[t|]]] cs]; cbn [take_words length] in *; [discriminate| | |].
    - apply IH. lia.
    - destruct (consume t) as [[l [| |f]]|s]; [| | |discriminate].
      + destruct (take_flags l v); [apply IH; lia|discriminate].
      + destruct cs as [|[f [|o]] cs]; [discriminate| |discriminate]. destruct (take_flags l v); [|discriminate]. destruct (value_of f); [|discriminate]. cbn [length] in Hn. apply IH. lia.
      + destruct (take_flags l v); [|discriminate]. destruct (value_of f); [|discriminate]. apply IH. lia.
    - apply IH. lia. }
  apply (G (S (length cs))). lia.
Qed.
Lemma value_ok f f' : value_of f = inl f' <-> f' = f /\ f <> lit "--".
Proof. unfold value_of. destruct (str_eqb_spec f (lit "--")) as [->|N]; (split; [first [discriminate|intros [= <-]; auto]|intros [-> H]; congruence]). Qed.

Definition told (l : list item) (c : option str) (v : bool) (c' : option str) (v' : bool) : Prop :=
  c' = last_file l c /\ (v' = true <-> v = true \/ In Verbosely l).
Lemma last_app l l' c : last_file (l ++ l') c = last_file l' (last_file l c).
Proof. revert c. induction l as [|[|f] l IH]; intros c; cbn [app last_file]; [reflexivity|apply IH|apply IH]. Qed.
Lemma told_app l l' c v c1 v1 c2 v2 : told l c v c1 v1 -> told l' c1 v1 c2 v2 -> told (l ++ l') c v c2 v2.
Proof. intros [-> V] [-> V']. split; [symmetry; apply last_app|]. rewrite V', V, in_app_iff. tauto. Qed.
Lemma last_vs n c : last_file (repeat Verbosely n) c = c.
Proof. induction n; [reflexivity|]. exact IHn. Qed.
Lemma told_vs n c v : told (repeat Verbosely n) c v c (match n with O => v | S _ => true end).
Proof. split; [symmetry; apply last_vs|]. destruct n; cbn [repeat In]; [tauto|]. split; [intros _; right; left; reflexivity|reflexivity]. Qed.
Lemma told_file n f c v : told (repeat Verbosely n ++ [Settings f]) c v (Some f) (match n with O => v | S _ => true end).
Proof.
  eapply told_app; [apply told_vs|]. split; [reflexivity|]. cbn [In]. destruct n; (split; [auto|intros [H|[H|[]]]; [exact H|discriminate]]).
Qed.

(** What one option word does, when it neither stops the program nor asks for help. *)
Definition effect (t : act * str * option str) (n : nat) (tl : tail) : Prop :=
  exists l, consume t = inl (l, tl) /\ l = repeat AVerbose n.
Lemma word_effect w t l tl : long_word w t \/ letter_word w t -> consume t = inl (l, tl) -> ~ In AHelp l ->
  exists n, l = repeat AVerbose n /\
    match tl with
    | NoValue => says_ [w] (repeat Verbosely n)
    | Wanted => forall f, plain f -> says_ [w; f] (repeat Verbosely n ++ [Settings f])
    | Given f => f <> lit "--" -> says_ [w] (repeat Verbosely n ++ [Settings f])
    end.
Proof.
  intros [(a & p & m & S & N & K)|(x & a & L & K)] H NH.
  - destruct K as [[-> ->]|(e & -> & ->)]; cbn [consume] in H.
    + destruct a; cbn [last_act] in H; injection H as <- <-.
      * elim NH. left. reflexivity.
      * exists O. split; [reflexivity|]. intros f F. apply (Long_config p f S F).
      * exists 1%nat. split; [reflexivity|]. apply (Long_verbose p S).
    + destruct a; [discriminate| |discriminate]. injection H as <- <-. exists O. split; [reflexivity|]. intros F. apply (Long_config_eq p e S F).
  - destruct (letter_known x a L) as [X XE].
    assert (B : x = match a with AHelp => "h"%char | AConfig => "c"%char | AVerbose => "v"%char end).
    { clear -L. rewrite letter_eq in L. destruct (Ascii.eqb_spec x "h") as [->|]; [injection L as <-; reflexivity|].
      destruct (Ascii.eqb_spec x "c") as [->|]; [injection L as <-; reflexivity|]. destruct (Ascii.eqb_spec x "v") as [->|]; [injection L as <-; reflexivity|discriminate]. }
    destruct K as [[-> ->]|[(e & -> & ->)|(y & e & Y & -> & ->)]]; cbn [consume] in H.
    + destruct a; cbn [last_act] in H; injection H as <- <-.
      * elim NH. left. reflexivity.
      * exists O. split; [reflexivity|]. intros f F. rewrite B. apply (Letters_config 0 f F).
      * exists 1%nat. split; [reflexivity|]. rewrite B. apply (Letters 0).
    + destruct a.
      * rewrite (neqb x dash X) in H. apply cluster_help in H. contradiction.
      * injection H as <- <-. exists O. split; [reflexivity|]. intros F. rewrite B. apply (Config_eq e F).
      * rewrite (neqb x dash X) in H. destruct (cluster_shape e l tl H NH) as (n & [(-> & -> & ->)|[(-> & -> & ->)|(z & f & -> & -> & ->)]]).
        -- exists (S (S n)). split; [reflexivity|]. rewrite B. apply (Eq_letters n).
        -- exists (S n). split; [reflexivity|]. intros f F. rewrite B. apply (Eq_config n f F).
        -- exists (S n). split; [reflexivity|]. intros F. rewrite B. apply (Eq_file n z f F).
    + destruct a.
      * rewrite (neqb x dash X) in H. apply cluster_help in H. contradiction.
      * injection H as <- <-. exists O. split; [reflexivity|]. intros F. rewrite B. apply (Letters_file 0 y e); [intros _; exact Y|exact F].
      * rewrite (neqb x dash X) in H. destruct (cluster_shape (y :: e) l tl H NH) as (n & [(-> & -> & ->)|[(-> & -> & ->)|(z & f & -> & -> & ->)]]).
        -- exists (S (S n)). split; [reflexivity|]. rewrite B. apply (Letters (S n)).
        -- exists (S n). split; [reflexivity|]. intros f F. rewrite B. apply (Letters_config (S n) f F).
        -- exists (S n). split; [reflexivity|]. intros F. rewrite B. apply (Letters_file (S n) z f); [discriminate|exact F].
Qed.

Lemma taken_says n : forall ws, (length ws < n)%nat -> forall cs c v c' v', classify ws = inl cs -> take_words cs c v false = inl (c', v') ->
  exists l, line_says ws l /\ told l c v c' v'.
Proof.
  induction n as [|n IH]; intros ws Hn cs c v c' v' K T; [lia|]. destruct ws as [|w ws]; cbn [classify length] in *.
  - injection K as <-. injection T as <- <-. exists []. split; [constructor|]. split; [reflexivity|]. cbn [In]. tauto.
  - destruct (str_eqb_spec w (lit "--")) as [_|W]; [injection K as <-; elim (left_over _ _ _ _ T)|].
    destruct (parse_optional w) as [[|[t|]]|] eqn:P; [| | |discriminate]; (destruct (classify ws) as [cs'|] eqn:KS; [|discriminate]); injection K as <-; cbn [take_words] in T;
    [elim (left_over _ _ _ _ T)| |elim (left_over _ _ _ _ T)].
    pose proof (proj1 (option_iff w t W) P) as S. destruct (consume t) as [[l tl]|] eqn:C; [|discriminate].
    destruct tl as [| |f].
    + destruct (take_flags l v) as [v1|] eqn:F; [|discriminate]. destruct (flags_inl l v v1 F) as [NH _].
      destruct (word_effect w t l NoValue S C NH) as (m & -> & SY). rewrite flags_vs in F. injection F as <-.
      destruct (IH ws ltac:(lia) cs' c _ c' v' KS T) as (l & LS & TO). exists (repeat Verbosely m ++ l). split; [apply (Something [w]); assumption|]. eapply told_app; [apply told_vs|exact TO].
    + destruct ws as [|f ws]; cbn [classify] in KS; [injection KS as <-; discriminate|].
      destruct (str_eqb_spec f (lit "--")) as [_|FD]; [injection KS as <-; discriminate|].
      destruct (parse_optional f) as [[|o]|] eqn:PF; [|destruct (classify ws); [injection KS as <-; discriminate|discriminate]|discriminate].
      destruct (classify ws) as [cs2|] eqn:KS2; [|discriminate]. injection KS as <-.
      destruct (take_flags l v) as [v1|] eqn:F; [|discriminate]. destruct (flags_inl l v v1 F) as [NH _].
      destruct (word_effect w t l Wanted S C NH) as (m & -> & SY). rewrite flags_vs in F. injection F as <-.
      destruct (value_of f) as [f'|] eqn:V; [|discriminate]. apply value_ok in V as [-> _].
      cbn [length] in Hn. destruct (IH ws ltac:(lia) cs2 (Some f) _ c' v' KS2 T) as (l & LS & TO).
      exists ((repeat Verbosely m ++ [Settings f]) ++ l). split; [apply (Something [w; f]); [apply SY, plain_iff; assumption|exact LS]|]. eapply told_app; [apply told_file|exact TO].
    + destruct (take_flags l v) as [v1|] eqn:F; [|discriminate]. destruct (flags_inl l v v1 F) as [NH _].
      destruct (word_effect w t l (Given f) S C NH) as (m & -> & SY). rewrite flags_vs in F. injection F as <-.
      destruct (value_of f) as [f'|] eqn:V; [|discriminate]. apply value_ok in V as [-> FD].
      destruct (IH ws ltac:(lia) cs' (Some f) _ c' v' KS T) as (l & LS & TO).
      exists ((repeat Verbosely m ++ [Settings f]) ++ l). split; [apply (Something [w]); [apply SY, FD|exact LS]|]. eapply told_app; [apply told_file|exact TO].
Qed.

Lemma vs_snoc n : vs (S n) = vs n ++ lit "v".
Proof. induction n; [reflexivity|]. change ("v"%char :: vs (S n) = "v"%char :: (vs n ++ lit "v")). rewrite IHn. reflexivity. Qed.
Lemma cluster_letters n : cluster AVerbose (vs (S n)) = inl (repeat AVerbose (S (S n)), NoValue).
Proof. rewrite vs_snoc. change (lit "v") with ["v"%char]. rewrite (cluster_vs n AVerbose "v" [] eq_refl). cbn [last_act]. rewrite rep_app. reflexivity. Qed.
Lemma cluster_config n : cluster AVerbose (vs n ++ lit "c") = inl (repeat AVerbose (S n), Wanted).
Proof. change (lit "c") with ["c"%char]. rewrite (cluster_vs n AConfig "c" [] eq_refl). cbn [last_act]. rewrite app_nil_r. reflexivity. Qed.
Lemma cluster_file n x f : cluster AVerbose (vs n ++ lit "c" ++ x :: f) = inl (repeat AVerbose (S n), Given (x :: f)).
Proof. change (lit "c" ++ x :: f) with ("c"%char :: x :: f). rewrite (cluster_vs n AConfig "c" (x :: f) eq_refl). cbn [cluster]. rewrite app_nil_r. reflexivity. Qed.
Lemma vs_head n s : n <> O -> exists e, vs n ++ s = "v"%char :: e.
Proof. destruct n; [congruence|]. intros _. eexists. reflexivity. Qed.

Definition form (ws : list str) (l : list item) : Prop :=
  exists w t n, w <> lit "--" /\ (long_word w t \/ letter_word w t) /\
    ((ws = [w] /\ consume t = inl (repeat AVerbose n, NoValue) /\ l = repeat Verbosely n) \/
     (exists f, plain f /\ ws = [w; f] /\ consume t = inl (repeat AVerbose n, Wanted) /\ l = repeat Verbosely n ++ [Settings f]) \/
     (exists f, f <> lit "--" /\ ws = [w] /\ consume t = inl (repeat AVerbose n, Given f) /\ l = repeat Verbosely n ++ [Settings f])).
Lemma long_not_dd a p e : short_for p (name_of a) -> p ++ e <> lit "--".
Proof. intros (x & r & s & -> & _). discriminate. Qed.
Lemma says_form ws l : says_ ws l -> form ws l.
Proof.
  assert (NM : forall a, exists n, lit (name_of a) = dash :: dash :: n) by (intros []; eexists; reflexivity).
  assert (LV : letter "v" = Some AVerbose) by reflexivity. assert (LC : letter "c" = Some AConfig) by reflexivity.
  (* a word of letters after -v *)
  assert (LT : forall n s, vs n ++ s <> [] -> (n = O -> forall e, s <> equals :: e) -> letter_word (dash :: "v"%char :: vs n ++ s) (AVerbose, [dash; "v"%char], Some (vs n ++ s))).
  { intros n s NN NE. exists "v"%char, AVerbose. split; [exact LV|]. right. right. destruct n as [|n].
    - cbn [vs repeat app] in *. destruct s as [|y e]; [congruence|]. exists y, e. split; [intros ->; apply (NE eq_refl e eq_refl)|]. split; reflexivity.
    - exists "v"%char, (vs n ++ s). split; [discriminate|]. split; reflexivity. }
  assert (CS : forall e, consume (AVerbose, [dash; "v"%char], Some e) = cluster AVerbose e) by reflexivity.
  intros H. destruct H as [p S|p f S F|p f S F|f F|n|n f F|n x f XE F|n|n f F|n x f F]; unfold form.
  - destruct (NM AVerbose) as (m & N). exists p, (AVerbose, dash :: dash :: m, None), 1%nat. split; [rewrite <- (app_nil_r p); apply (long_not_dd AVerbose); exact S|].
    split; [left; exists AVerbose, p, m; split; [exact S|]; split; [exact N|]; left; split; reflexivity|]. left. split; [reflexivity|]. split; reflexivity.
  - destruct (NM AConfig) as (m & N). exists p, (AConfig, dash :: dash :: m, None), O. split; [rewrite <- (app_nil_r p); apply (long_not_dd AConfig); exact S|].
    split; [left; exists AConfig, p, m; split; [exact S|]; split; [exact N|]; left; split; reflexivity|]. right. left. exists f. split; [exact F|]. split; [reflexivity|]. split; reflexivity.
  - destruct (NM AConfig) as (m & N). exists (p ++ lit "=" ++ f), (AConfig, dash :: dash :: m, Some f), O. split; [apply (long_not_dd AConfig); exact S|].
    split; [left; exists AConfig, p, m; split; [exact S|]; split; [exact N|]; right; exists f; split; reflexivity|]. right. right. exists f. split; [exact F|]. split; [reflexivity|]. split; reflexivity.
  - exists (lit "-c=" ++ f), (AConfig, [dash; "c"%char], Some f), O. split; [discriminate|]. split; [right; exists "c"%char, AConfig; split; [exact LC|]; right; left; exists f; split; reflexivity|].
    right. right. exists f. split; [exact F|]. split; [reflexivity|]. split; reflexivity.
  - destruct n as [|n].
    + exists (lit "-v"), (AVerbose, [dash; "v"%char], None), 1%nat. split; [discriminate|]. split; [right; exists "v"%char, AVerbose; split; [exact LV|]; left; split; reflexivity|].
      left. split; [reflexivity|]. split; reflexivity.
    + exists (lit "-" ++ vs (S (S n))), (AVerbose, [dash; "v"%char], Some (vs (S n))), (S (S n)). split; [discriminate|].
      split; [right; rewrite <- (app_nil_r (vs (S n))); change (lit "-" ++ vs (S (S n))) with (dash :: "v"%char :: vs (S n)); rewrite <- (app_nil_r (vs (S n))) at 1; apply LT; [discriminate|intros; discriminate]|].
      left. split; [reflexivity|]. split; [rewrite CS; apply cluster_letters|reflexivity].
  - destruct n as [|n].
    + exists (lit "-c"), (AConfig, [dash; "c"%char], None), O. split; [discriminate|]. split; [right; exists "c"%char, AConfig; split; [exact LC|]; left; split; reflexivity|].
      right. left. exists f. split; [exact F|]. split; [reflexivity|]. split; reflexivity.
    + exists (lit "-" ++ vs (S n) ++ lit "c"), (AVerbose, [dash; "v"%char], Some (vs n ++ lit "c")), (S n). split; [discriminate|].
      split; [right; apply LT; [destruct n; discriminate|intros _ e; discriminate]|]. right. left. exists f. split; [exact F|]. split; [reflexivity|]. split; [rewrite CS; apply cluster_config|reflexivity].
  - destruct n as [|n].
    + exists (lit "-c" ++ x :: f), (AConfig, [dash; "c"%char], Some (x :: f)), O. split; [discriminate|].
      split; [right; exists "c"%char, AConfig; split; [exact LC|]; right; right; exists x, f; split; [apply XE; reflexivity|]; split; reflexivity|].
      right. right. exists (x :: f). split; [exact F|]. split; [reflexivity|]. split; reflexivity.
    + exists (lit "-" ++ vs (S n) ++ lit "c" ++ x :: f), (AVerbose, [dash; "v"%char], Some (vs n ++ lit "c" ++ x :: f)), (S n). split; [discriminate|].
      split; [right; apply LT; [destruct n; discriminate|intros _ e; discriminate]|]. right. right. exists (x :: f). split; [exact F|]. split; [reflexivity|]. split; [rewrite CS; apply cluster_file|reflexivity].
  - exists (lit "-v=" ++ vs (S n)), (AVerbose, [dash; "v"%char], Some (vs (S n))), (S (S n)). split; [discriminate|].
    split; [right; exists "v"%char, AVerbose; split; [exact LV|]; right; left; exists (vs (S n)); split; reflexivity|]. left. split; [reflexivity|]. split; [rewrite CS; apply cluster_letters|reflexivity].
  - exists (lit "-v=" ++ vs n ++ lit "c"), (AVerbose, [dash; "v"%char], Some (vs n ++ lit "c")), (S n). split; [discriminate|].
    split; [right; exists "v"%char, AVerbose; split; [exact LV|]; right; left; eexists; split; reflexivity|]. right. left. exists f. split; [exact F|]. split; [reflexivity|]. split; [rewrite CS; apply cluster_config|reflexivity].
  - exists (lit "-v=" ++ vs n ++ lit "c" ++ x :: f), (AVerbose, [dash; "v"%char], Some (vs n ++ lit "c" ++ x :: f)), (S n). split; [discriminate|].
    split; [right; exists "v"%char, AVerbose; split; [exact LV|]; right; left; eexists; split; reflexivity|]. right. right. exists (x :: f). split; [exact F|]. split; [reflexivity|]. split; [rewrite CS; apply cluster_file|reflexivity].
Qed.

Lemma plain_not_dd f : plain f -> f <> lit "--".
Proof.
  intros [H|[->|[H|[H _]]]] E; subst.
  - apply (H (lit "-")). reflexivity.
  - discriminate.
  - apply number_iff in H. discriminate.
  - cbv in H. repeat (destruct H as [H|H]; [discriminate|]). exact H.
Qed.
Lemma classify_word w t ws : w <> lit "--" -> parse_optional w = inl t -> classify (w :: ws) = match classify ws with inl cs => inl ((w, t) :: cs) | inr s => inr s end.
Proof. intros W P. cbn [classify]. destruct (str_eqb_spec w (lit "--")); [contradiction|]. rewrite P. reflexivity. Qed.
Lemma says_step ws l : says_ ws l -> exists cs,
  (forall ws', classify (ws ++ ws') = match classify ws' with inl cs' => inl (cs ++ cs') | inr s => inr s end) /\
  forall cs' c v left, exists v', take_words (cs ++ cs') c v left = take_words cs' (last_file l c) v' left /\ (v' = true <-> v = true \/ In Verbosely l).
Proof.
  intros H. destruct (says_form ws l H) as (w & t & n & W & P & K). apply (option_iff w t W) in P.
  destruct K as [(-> & C & ->)|[(f & F & -> & C & ->)|(f & F & -> & C & ->)]].
  - exists [(w, Option (Some t))]. split; [intros ws'; apply (classify_word w _ ws' W P)|]. intros cs' c v left. exists (match n with O => v | S _ => true end).
    cbn [app take_words]. rewrite C, flags_vs, last_vs. split; [reflexivity|apply (told_vs n c v)].
  - pose proof (plain_not_dd f F) as FD. apply (plain_iff f FD) in F. exists [(w, Option (Some t)); (f, Argument)]. split.
    + intros ws'. cbn [app]. rewrite (classify_word w _ (f :: ws') W P), (classify_word f _ ws' FD F). destruct (classify ws'); reflexivity.
    + intros cs' c v left. exists (match n with O => v | S _ => true end). cbn [app take_words]. rewrite C, flags_vs, (proj2 (value_ok f f) (conj eq_refl FD)).
      destruct (told_file n f c v) as [<- T]. split; [reflexivity|exact T].
  - exists [(w, Option (Some t))]. split; [intros ws'; apply (classify_word w _ ws' W P)|]. intros cs' c v left. exists (match n with O => v | S _ => true end).
    cbn [app take_words]. rewrite C, flags_vs, (proj2 (value_ok f f) (conj eq_refl F)). destruct (told_file n f c v) as [<- T]. split; [reflexivity|exact T].
Qed.
Lemma line_step ws l : line_says ws l -> exists cs,
  (forall ws', classify (ws ++ ws') = match classify ws' with inl cs' => inl (cs ++ cs') | inr s => inr s end) /\
  forall cs' c v left, exists v', take_words (cs ++ cs') c v left = take_words cs' (last_file l c) v' left /\ (v' = true <-> v = true \/ In Verbosely l).
Proof.
  induction 1 as [|ws l ws2 l2 S L (cs2 & K2 & T2)].
  - exists []. split; [intros ws'; cbn [app]; destruct (classify ws'); reflexivity|]. intros cs' c v left. exists v. split; [reflexivity|]. cbn [In]. tauto.
  - destruct (says_step ws l S) as (cs & K & T). exists (cs ++ cs2). split.
    + intros ws'. rewrite <- app_assoc, K, K2. destruct (classify ws'); [rewrite app_assoc|]; reflexivity.
    + intros cs' c v left. destruct (T (cs2 ++ cs') c v left) as (v1 & E1 & V1). destruct (T2 cs' (last_file l c) v1 left) as (v2 & E2 & V2).
      exists v2. rewrite <- app_assoc, E1, E2, last_app. split; [reflexivity|]. rewrite V2, V1, in_app_iff. tauto.
Qed.

Lemma parse_iff argv c v : parse_args argv = inl (c, v) <-> exists l, line_says argv l /\ c = last_file l None /\ (v = true <-> said_verbose l).
Proof.
  unfold parse_args, said_verbose. split.
  - destruct (classify argv) as [cs|] eqn:K; [|discriminate]. intros T. destruct (taken_says (S (length argv)) argv ltac:(lia) cs _ _ _ _ K T) as (l & L & C & V).
    exists l. split; [exact L|]. split; [exact C|]. rewrite V. split; [intros [H|H]; [discriminate|exact H]|auto].
  - intros (l & L & -> & V). destruct (line_step argv l L) as (cs & K & T). specialize (K []). rewrite app_nil_r in K. cbn [classify] in K. rewrite app_nil_r in K. rewrite K.
    destruct (T [] None false false) as (v' & E & V'). rewrite app_nil_r in E. rewrite E. cbn [take_words]. f_equal. f_equal.
    destruct v, v'; try reflexivity; exfalso.
    + assert (X : false = true) by (apply V'; right; apply V; reflexivity). discriminate.
    + destruct V' as [V' _]. destruct (V' eq_refl) as [H|H]; [discriminate|]. apply V in H. discriminate.
Qed.

(** ** Help *)
Lemma classify_ok ws : (forall w, In w ws -> ~ undecided w) -> exists cs, classify ws = inl cs.
Proof.
  induction ws as [|w ws IH]; intros H; [exists []; reflexivity|]. cbn [classify]. destruct (str_eqb_spec w (lit "--")) as [_|W]; [eexists; reflexivity|].
  assert (P : exists c, parse_optional w = inl c).
  { destruct w as [|c r]; [eexists; reflexivity|]. destruct (ascii_dec c dash) as [->|C]; [|exists Argument; apply no_dash_plain; congruence].
    destruct r as [|x r]; [eexists; reflexivity|]. destruct (ascii_dec x dash) as [->|X]; [|rewrite (parse_single x r X); eexists; reflexivity].
    rewrite parse_double. unfold double_class. destruct (cut r) as [[|x q] e] eqn:CR.
    - exfalso. destruct e as [e|]; [apply cut_some in CR as [-> _]; apply (H (dash :: dash :: [] ++ equals :: e)); [left; reflexivity|exists e; reflexivity]|].
      apply cut_none in CR as [-> _]. apply W. reflexivity.
    - destruct (long_of x) as [[n a]|]; [destruct (startswith n (x :: q))|]; eexists; reflexivity. }
  destruct P as (c & ->). destruct (IH (fun w I => H w (or_intror I))) as (cs & ->). eexists. reflexivity.
Qed.
Lemma help_word w : asks_help w -> w <> lit "--" /\ exists t n, parse_optional w = inl (Option (Some t)) /\ consume t = inl (repeat AVerbose n ++ [AHelp], NoValue).
Proof.
  intros [S|(n & ->)].
  - assert (W : w <> lit "--") by (rewrite <- (app_nil_r w); apply (long_not_dd AHelp); exact S). split; [exact W|].
    exists (AHelp, dash :: dash :: lit "help", None), O. split; [|reflexivity]. apply (option_iff w _ W). left. exists AHelp, w, (lit "help"). split; [exact S|]. split; [reflexivity|]. left. split; reflexivity.
  - assert (W : lit "-" ++ vs n ++ lit "h" <> lit "--") by (destruct n; discriminate). split; [exact W|]. destruct n as [|n].
    + exists (AHelp, [dash; "h"%char], None), O. split; reflexivity.
    + exists (AVerbose, [dash; "v"%char], Some (vs n ++ lit "h")), (S n). split.
      * apply (option_iff _ _ W). right. exists "v"%char, AVerbose. split; [reflexivity|]. right. right.
        destruct n as [|n]; [exists "h"%char, []|exists "v"%char, (vs n ++ lit "h")]; (split; [discriminate|]; split; reflexivity).
      * change (cluster AVerbose (vs n ++ ["h"%char]) = inl (repeat AVerbose (S n) ++ [AHelp], NoValue)). rewrite (cluster_vs n AHelp "h" [] eq_refl). reflexivity.
Qed.
Lemma help_line ws l h rest : line_says ws l -> asks_help h -> (forall w, In w rest -> ~ undecided w) -> parse_args (ws ++ h :: rest) = inr Help.
Proof.
  intros L H R. destruct (line_step ws l L) as (cs & K & T). destruct (help_word h H) as (W & t & n & P & C). destruct (classify_ok rest R) as (cr & KR).
  unfold parse_args. rewrite K, (classify_word h _ rest W P), KR. destruct (T ((h, Option (Some t)) :: cr) None false false) as (v & -> & _).
  cbn [take_words]. rewrite C. rewrite flags_vs_help. reflexivity.
Qed.

(** Help is given only when asked for. *)
Definition help_in (w : str) : Prop := short_for w "--help" \/ exists r, w = lit "-" ++ r /\ In "h"%char r.
Lemma cluster_asked e : forall a l t, cluster a e = inl (l, t) -> In AHelp l -> a = AHelp \/ In "h"%char e.
Proof.
  induction e as [|b e IH]; intros a l t; cbn [cluster].
  - destruct a; try discriminate. intros [= <- _] [].
  - destruct a; [intros; left; reflexivity|intros [= <- _] []|]. fold (letter b). destruct (letter b) as [x|] eqn:L; [|discriminate].
    assert (B : x = AHelp -> b = "h"%char).
    { intros ->. rewrite letter_eq in L. destruct (Ascii.eqb_spec b "h"); [assumption|]. destruct (Ascii.eqb b "c"); [discriminate|]. destruct (Ascii.eqb b "v"); discriminate. }
    destruct e as [|y e].
    + destruct x; cbn [last_act]; intros [= <- _] I; right; [left; auto| |]; cbn in I; decompose [or] I; try discriminate; contradiction.
    + destruct (cluster x (y :: e)) as [[l' t']|] eqn:K; [|discriminate]. intros [= <- _] [I|I]; [discriminate|].
      right. destruct (IH x l' t' K I) as [X|X]; [left; auto|right; exact X].
Qed.
Lemma word_asked w t l tl : long_word w t \/ letter_word w t -> consume t = inl (l, tl) -> In AHelp l -> help_in w.
Proof.
  intros [(a & p & m & S & N & K)|(x & a & L & K)] H I.
  - destruct K as [[-> ->]|(e & -> & ->)]; cbn [consume] in H.
    + destruct a; cbn [last_act] in H; injection H as <- _; [left; exact S|elim I|destruct I as [I|[]]; discriminate].
    + destruct a; try discriminate. injection H as <- _. elim I.
  - destruct (letter_known x a L) as [X _]. right.
    assert (B : a = AHelp -> x = "h"%char).
    { intros ->. rewrite letter_eq in L. destruct (Ascii.eqb_spec x "h"); [assumption|]. destruct (Ascii.eqb x "c"); [discriminate|]. destruct (Ascii.eqb x "v"); discriminate. }
    destruct K as [[-> ->]|[(e & -> & ->)|(y & e & Y & -> & ->)]]; cbn [consume] in H.
    + destruct a; cbn [last_act] in H; injection H as <- _; [exists [x]; split; [reflexivity|left; auto]|elim I|destruct I as [I|[]]; discriminate].
    + eexists. split; [reflexivity|]. destruct a; [left; auto|injection H as <- _; elim I|]. rewrite (neqb x dash X) in H.
      destruct (cluster_asked e _ _ _ H I) as [D|D]; [discriminate|]. right. right. exact D.
    + eexists. split; [reflexivity|]. destruct a; [left; auto|injection H as <- _; elim I|]. rewrite (neqb x dash X) in H.
      destruct (cluster_asked _ _ _ _ H I) as [D|D]; [discriminate|]. right. exact D.
Qed.
Lemma flags_help l v s : take_flags l v = inr s -> s = Help /\ In AHelp l.
Proof.
  revert v. induction l as [|a l IH]; intros v; cbn [take_flags]; [discriminate|]. destruct a.
  - intros [= <-]. split; [reflexivity|left; reflexivity].
  - intros H. destruct (IH _ H). split; [assumption|right; assumption].
  - intros H. destruct (IH _ H). split; [assumption|right; assumption].
Qed.
Lemma value_help f : value_of f <> inr Help.
Proof. unfold value_of. destruct (str_eqb f (lit "--")); discriminate. Qed.
Lemma cluster_not_help e : forall a, cluster a e <> inr Help.
Proof.
  induction e as [|b e IH]; intros a; cbn [cluster]; [destruct a; discriminate|]. destruct a; [|discriminate|];
  (destruct (find_option [dash; b]) as [x|]; [|discriminate]; destruct e; [destruct (last_act x); discriminate|]; specialize (IH x); destruct (cluster x (a :: e)) as [[]|]; congruence).
Qed.
Lemma consume_not_help t : consume t <> inr Help.
Proof.
  destruct t as [[a n] [e|]]; [|discriminate]. cbn [consume]. destruct a, n as [|c [|b n]]; try discriminate; (destruct (Ascii.eqb b dash); [discriminate|apply cluster_not_help]).
Qed.
Definition asked (p : str * cls) : Prop := exists t l tl, snd p = Option (Some t) /\ consume t = inl (l, tl) /\ In AHelp l.
Lemma taken_asked n : forall cs, (length cs < n)%nat -> forall c v left, take_words cs c v left = inr Help -> exists p, In p cs /\ asked p.
Proof.
  induction n as [|n IH]; intros cs Hn c v left; [lia|]. destruct cs as [|[w [|[t|]]] cs]; cbn [take_words length] in *.
  - destruct left; discriminate.
  - intros H. destruct (IH cs ltac:(lia) _ _ _ H) as (p & I & A). exists p. split; [right|]; assumption.
  - destruct (consume t) as [[l tl]|s] eqn:C; [|intros [= ->]; elim (consume_not_help t C)].
    assert (HERE : In AHelp l -> exists p, In p ((w, Option (Some t)) :: cs) /\ asked p).
    { intros I. exists (w, Option (Some t)). split; [left; reflexivity|]. exists t, l, tl. auto. }
    destruct tl as [| |f].
    + destruct (take_flags l v) as [v1|s] eqn:F; [|intros _; apply HERE, (flags_help l v s F)]. intros H. destruct (IH cs ltac:(lia) _ _ _ H) as (p & I & A). exists p. split; [right|]; assumption.
    + destruct cs as [|[f [|o]] cs]; [discriminate| |discriminate]. destruct (take_flags l v) as [v1|s] eqn:F; [|intros _; apply HERE, (flags_help l v s F)].
      destruct (value_of f) as [f'|s] eqn:V; [|intros [= ->]; elim (value_help f V)]. cbn [length] in Hn. intros H. destruct (IH cs ltac:(lia) _ _ _ H) as (p & I & A). exists p. split; [right; right|]; assumption.
    + destruct (take_flags l v) as [v1|s] eqn:F; [|intros _; apply HERE, (flags_help l v s F)].
      destruct (value_of f) as [f'|s] eqn:V; [|intros [= ->]; elim (value_help f V)]. intros H. destruct (IH cs ltac:(lia) _ _ _ H) as (p & I & A). exists p. split; [right|]; assumption.
  - intros H. destruct (IH cs ltac:(lia) _ _ _ H) as (p & I & A). exists p. split; [right|]; assumption.
Qed.
Lemma classify_in ws : forall cs, classify ws = inl cs -> forall w t, In (w, Option (Some t)) cs -> In w ws /\ w <> lit "--" /\ parse_optional w = inl (Option (Some t)).
Proof.
  induction ws as [|w ws IH]; intros cs; cbn [classify]; [intros [= <-] ? ? []|]. destruct (str_eqb_spec w (lit "--")) as [_|W].
  - intros [= <-] x t [H|H]; [discriminate|]. apply in_map_iff in H as (y & H & _). discriminate.
  - destruct (parse_optional w) as [c|] eqn:P; [|discriminate]. destruct (classify ws) as [cs'|]; [|discriminate]. intros [= <-] x t [H|H].
    + injection H as <- ->. split; [left; reflexivity|]. split; assumption.
    + destruct (IH cs' eq_refl x t H) as (A & B & C). split; [right; exact A|]. split; assumption.
Qed.
Lemma classify_usage ws s : classify ws = inr s -> s = Usage.
Proof.
  induction ws as [|w ws IH]; cbn [classify]; [discriminate|]. destruct (str_eqb w (lit "--")); [discriminate|]. destruct (parse_optional w) as [c|s'] eqn:P.
  - destruct (classify ws) as [cs|s'']; [discriminate|]. intros [= <-]. apply IH. reflexivity.
  - intros [= <-]. clear IH. destruct w as [|c r]; [discriminate|]. destruct (ascii_dec c dash) as [->|C]; [|rewrite no_dash_plain in P by congruence; discriminate].
    destruct r as [|x r]; [discriminate|]. destruct (ascii_dec x dash) as [->|X]; [|rewrite (parse_single x r X) in P; discriminate].
    rewrite parse_double in P. unfold double_class in P. destruct (cut r) as [[|x q] e]; [congruence|]. destruct (long_of x) as [[n a]|]; [destruct (startswith n (x :: q))|]; discriminate.
Qed.
Lemma help_asked argv : parse_args argv = inr Help -> exists w, In w argv /\ help_in w.
Proof.
  unfold parse_args. destruct (classify argv) as [cs|s] eqn:K; [|intros [= ->]; apply classify_usage in K; discriminate].
  intros T. destruct (taken_asked (S (length cs)) cs ltac:(lia) _ _ _ T) as ([w c] & I & t & l & tl & E & C & A). cbn [snd] in E. subst c.
  destruct (classify_in argv cs K w t I) as (IW & W & P). exists w. split; [exact IW|]. apply (word_asked w t l tl); [apply (proj1 (option_iff w t W) P)|exact C|exact A].
Qed.

Lemma parse_says a i : line_says a i -> exists v, parse_args a = inl (last_file i None, v) /\ (v = true <-> said_verbose i).
Proof.
  intros H. exists (existsb (fun x => match x with Verbosely => true | _ => false end) i).
  assert (V : existsb (fun x => match x with Verbosely => true | _ => false end) i = true <-> said_verbose i).
  { unfold said_verbose. rewrite existsb_exists. split; [intros ([|f] & I & E); [exact I|discriminate]|intros I; exists Verbosely; auto]. }
  split; [|exact V]. apply parse_iff. exists i. auto.
Qed.

(** ** The settings of a run *)
Definition parsed (disk : str -> option str) (n : str) : option cfgfile :=
  match disk n with Some t => match ini_file t with Ok f => Some f | Err _ => None end | None => None end.
Lemma load_is disk n p p' : load_text disk n p = Ok p' -> set_config_file (parsed disk) n p = Ok p' /\ (disk n = None <-> parsed disk n = None).
Proof.
  unfold load_text, set_config_file, read_file, cfg_read, parsed. cbn [p_readonce p_file p_conf]. destruct (disk n) as [t|].
  - destruct (ini_file t) as [f|]; cbn [bind]; [|discriminate]. intros H. split; [exact H|]. split; discriminate.
  - intros H. split; [exact H|]. split; reflexivity.
Qed.
Lemma import_is disk n p : imported disk n = Ok p -> new_parser (parsed disk) n = Ok p /\ (disk n = None <-> parsed disk n = None).
Proof.
  unfold imported, new_parser. destruct (disk n) as [t|] eqn:D.
  - intros H. destruct (load_is disk n _ _ H) as [L I]. rewrite <- D. split; [|exact I]. destruct (parsed disk n) as [f|] eqn:P; [|assert (X : disk n = None) by (apply I; reflexivity); congruence].
    unfold set_config_file in L. exact L.
  - unfold parsed. rewrite D. intros [= <-]. split; [reflexivity|]. split; reflexivity.
Qed.
Lemma reads_one disk n ns fs : (forall n t, disk n = Some t -> ~ In return_ t) -> (disk n = None <-> parsed disk n = None) -> reads disk ns fs ->
  reads disk (n :: ns) (match parsed disk n with Some f => [f] | None => [] end ++ fs).
Proof.
  intros NR I R. destruct (parsed disk n) as [f|] eqn:P.
  - unfold parsed in P. destruct (disk n) as [t|] eqn:D; [|discriminate]. destruct (ini_file t) as [g|] eqn:F; [|discriminate]. injection P as ->.
    apply ini_iff in F as (d & O & W & S); [|apply (NR n t D)]. cbn [app]. apply (Reads_file disk n t d); assumption.
  - cbn [app]. apply Reads_missing; [apply I; reflexivity|exact R].
Qed.
