(** * Lemmas about the text of configuration files *)
From Coq Require Import Ascii String Lia.
From Verif Require Import Base PyStr UtilModel IniModel IniSpec.
Open Scope Z_scope.

(** ** Characters and trimming *)

Lemma white_iff c : white c = true <-> space_char c.
Proof.
  unfold white, space_char. rewrite Bool.orb_true_iff, !Bool.andb_true_iff, !Z.leb_le. cbn [In]. lia.
Qed.
Lemma white_false c : white c = false <-> ~ space_char c.
Proof. rewrite <- white_iff. destruct (white c); split; congruence. Qed.

Definition spaces (s : str) : Prop := forall c, In c s -> space_char c.
Lemma spaces_cons c s : spaces (c :: s) <-> space_char c /\ spaces s.
Proof. unfold spaces. cbn [In]. split; [intros H; split; auto|intros [A B] d [<-|I]; auto]. Qed.
Lemma spaces_app a b : spaces (a ++ b) <-> spaces a /\ spaces b.
Proof. unfold spaces. split; [intros H; split; intros c I; apply H, in_or_app; tauto|intros [A B] c I; apply in_app_or in I as [I|I]; auto]. Qed.
Lemma spaces_rev a : spaces a -> spaces (rev a).
Proof. unfold spaces. intros H c I. apply H. apply in_rev. exact I. Qed.
Lemma on_line_app a b : on_line (a ++ b) <-> on_line a /\ on_line b.
Proof. unfold on_line. split; [intros H; split; intros c I; apply H, in_or_app; tauto|intros [A B] c I; apply in_app_or in I as [I|I]; auto]. Qed.
Lemma on_line_cons c b : on_line (c :: b) <-> (c <> newline /\ c <> return_) /\ on_line b.
Proof. unfold on_line. cbn [In]. split; [intros H; split; auto|intros [A B] d [<-|I]; auto]. Qed.

Lemma lstrip_spaces g s : spaces g -> lstrip (g ++ s) = lstrip s.
Proof.
  induction g as [|c g IH]; intros H; [reflexivity|]. apply spaces_cons in H as [W H].
  cbn [app lstrip]. rewrite (proj2 (white_iff c) W). apply IH, H.
Qed.
Lemma lstrip_bare s : begins_bare s -> lstrip s = s.
Proof.
  destruct s as [|c s]; intros H; [reflexivity|]. cbn [lstrip].
  rewrite (proj2 (white_false c) (H c s eq_refl)). reflexivity.
Qed.
Lemma lstrip_split s : exists g, s = g ++ lstrip s /\ spaces g /\ begins_bare (lstrip s) /\ (lstrip s <> [] -> indent_of s = Z.of_nat (length g)).
Proof.
  induction s as [|c s (g & E & G & B & I)].
  - exists []. split; [reflexivity|]. split; [intros c []|]. split; [intros c t H; discriminate|intros H; elim (H eq_refl)].
  - cbn [lstrip indent_of]. destruct (white c) eqn:W.
    + exists (c :: g). split; [cbn [app]; f_equal; exact E|]. split; [apply spaces_cons; split; [apply white_iff, W|exact G]|]. split; [exact B|].
      intros N. rewrite (I N). cbn [length]. lia.
    + exists []. split; [reflexivity|]. split; [intros d []|]. split; [|reflexivity]. intros d t H. injection H as <- _. apply white_false, W.
Qed.
Lemma begins_rev s : begins_bare (rev s) <-> ends_bare s.
Proof.
  split; intros H c t E.
  - apply (H c (rev t)). rewrite E, rev_app_distr. reflexivity.
  - apply (H c (rev t)). rewrite <- (rev_involutive s), E. reflexivity.
Qed.
Lemma rstrip_spaces s g : spaces g -> rstrip (s ++ g) = rstrip s.
Proof. intros H. unfold rstrip. rewrite rev_app_distr, lstrip_spaces by (apply spaces_rev, H). reflexivity. Qed.
Lemma rstrip_bare s : ends_bare s -> rstrip s = s.
Proof. intros H. unfold rstrip. rewrite lstrip_bare by (apply begins_rev, H). apply rev_involutive. Qed.
Lemma rstrip_split s : exists g, s = rstrip s ++ g /\ spaces g /\ ends_bare (rstrip s).
Proof.
  destruct (lstrip_split (rev s)) as (g & E & G & B & _). exists (rev g). split; [|split].
  - unfold rstrip. rewrite <- rev_app_distr, <- E, rev_involutive. reflexivity.
  - apply spaces_rev, G.
  - apply begins_rev. unfold rstrip. rewrite rev_involutive. exact B.
Qed.
Lemma ends_app s t : t <> [] -> ends_bare t -> ends_bare (s ++ t).
Proof.
  intros N H c u E. destruct (exists_last N) as (t' & d & ->). rewrite app_assoc in E.
  apply app_inj_tail in E as [_ <-]. apply (H d t' eq_refl).
Qed.
Lemma begins_app s t : s <> [] -> begins_bare s -> begins_bare (s ++ t).
Proof. destruct s as [|x s]; intros N H c u E; [elim (N eq_refl)|]. injection E as <- _. apply (H x s eq_refl). Qed.

Lemma strip_core g t e : spaces g -> spaces e -> trimmed t -> strip (g ++ t ++ e) = t.
Proof.
  intros G E [B F]. unfold strip. rewrite app_assoc, rstrip_spaces by exact E.
  destruct t as [|c t].
  - rewrite app_nil_r. change g with ([] ++ g). rewrite rstrip_spaces by exact G. reflexivity.
  - rewrite rstrip_bare by (apply ends_app; [discriminate|exact F]).
    rewrite lstrip_spaces by exact G. apply lstrip_bare, B.
Qed.
Lemma strip_split s : exists g e, s = g ++ strip s ++ e /\ spaces g /\ spaces e /\ trimmed (strip s) /\
  (strip s <> [] -> indent_of s = Z.of_nat (length g)).
Proof.
  destruct (rstrip_split s) as (e & E & SE & EB).
  destruct (lstrip_split (rstrip s)) as (g & E' & SG & BB & _).
  exists g, e. unfold strip. split; [rewrite app_assoc, <- E'; exact E|]. split; [exact SG|]. split; [exact SE|].
  assert (EL : ends_bare (lstrip (rstrip s))).
  { intros c t H. rewrite H in E'. rewrite app_assoc in E'. apply (EB c _ E'). }
  split; [split; assumption|]. intros N.
  rewrite E, E', <- app_assoc. clear E. revert N BB. generalize (lstrip (rstrip s)). intros l N BB. clear -SG N BB.
  induction g as [|c g IH].
  - destruct l as [|c l]; [elim (N eq_refl)|]. cbn [app indent_of length].
    rewrite (proj2 (white_false c) (BB c l eq_refl)). reflexivity.
  - apply spaces_cons in SG as [W SG]. cbn [app indent_of length]. rewrite (proj2 (white_iff c) W), (IH SG). lia.
Qed.
Lemma indent_core g t u : spaces g -> t <> [] -> begins_bare t -> indent_of (g ++ t ++ u) = Z.of_nat (length g).
Proof.
  intros G N B. induction g as [|c g IH].
  - destruct t as [|c t]; [elim (N eq_refl)|]. cbn [app indent_of length].
    rewrite (proj2 (white_false c) (B c t eq_refl)). reflexivity.
  - apply spaces_cons in G as [W G]. cbn [app indent_of length]. rewrite (proj2 (white_iff c) W), (IH G). lia.
Qed.

(** ** Comments, headers and signs *)

Lemma comment_iff v : is_comment v = true <-> marked v.
Proof.
  unfold is_comment, marked, mark. destruct v as [|c v].
  - split; [discriminate|intros (c & t & E & _); discriminate].
  - rewrite Bool.orb_true_iff, !Ascii.eqb_eq. split; [intros H; exists c, v; auto|intros (d & t & E & H)]. injection E as <- _. exact H.
Qed.
Lemma comment_false v : is_comment v = false <-> ~ marked v.
Proof. rewrite <- comment_iff. destruct (is_comment v); split; congruence. Qed.

Lemma until_iff s h : until_bracket s = Some h <-> exists r, s = h ++ "]"%char :: r /\ ~ In "]"%char h.
Proof.
  revert h. induction s as [|c s IH]; intros h; cbn [until_bracket].
  - split; [discriminate|]. intros (r & E & _). destruct h; discriminate.
  - destruct (Ascii.eqb c "]") eqn:E.
    + apply Ascii.eqb_eq in E as ->. split.
      * intros H. injection H as <-. exists s. split; [reflexivity|intros []].
      * intros (r & E & N). destruct h as [|x h]; [reflexivity|]. injection E as <- _. elim N. left. reflexivity.
    + apply Ascii.eqb_neq in E. destruct (until_bracket s) as [h'|].
      * split.
        -- intros H. injection H as <-. destruct (proj1 (IH h') eq_refl) as (r & -> & N). exists r. split; [reflexivity|].
           intros [I|I]; [congruence|contradiction].
        -- intros (r & H & N). destruct h as [|x h]; [injection H; congruence|]. injection H as <- H.
           f_equal. f_equal. assert (K : Some h' = Some h) by (apply IH; exists r; split; [exact H|intros I; apply N; right; exact I]). congruence.
      * split; [discriminate|]. intros (r & H & N). destruct h as [|x h]; [injection H; congruence|]. injection H as <- H.
        assert (K : None = Some h) by (apply IH; exists r; split; [exact H|intros I; apply N; right; exact I]). discriminate K.
Qed.
Lemma header_iff v h : header_of v = Some h <-> exists r, v = "["%char :: h ++ "]"%char :: r /\ h <> [] /\ ~ In "]"%char h.
Proof.
  unfold header_of. destruct v as [|c v].
  - split; [discriminate|intros (r & E & _); discriminate].
  - destruct (Ascii.eqb c "[") eqn:E.
    + apply Ascii.eqb_eq in E as ->. split.
      * destruct (until_bracket v) as [[|x k]|] eqn:U; try discriminate. intros H. injection H as <-.
        apply until_iff in U as (r & -> & N). exists r. split; [reflexivity|]. split; [discriminate|exact N].
      * intros (r & H & NE & N). injection H as H.
        assert (U : until_bracket v = Some h) by (apply until_iff; exists r; split; assumption). rewrite U.
        destruct h; [elim (NE eq_refl)|reflexivity].
    + apply Ascii.eqb_neq in E. split; [discriminate|]. intros (r & H & _). injection H. congruence.
Qed.
Lemma header_none v : header_of v = None <-> ~ bracketed v.
Proof.
  split.
  - intros H (h & r & E & NE & N). assert (K : header_of v = Some h) by (apply header_iff; exists r; auto). congruence.
  - intros H. destruct (header_of v) as [h|] eqn:E; [|reflexivity]. apply header_iff in E as (r & E & NE & N).
    elim H. exists h, r. auto.
Qed.
Lemma until_app s g : ~ In "]"%char g -> until_bracket (s ++ g) = until_bracket s.
Proof.
  intros N. induction s as [|c s IH]; cbn [app until_bracket].
  - destruct (until_bracket g) as [h|] eqn:U; [|reflexivity]. apply until_iff in U as (r & -> & _). elim N. apply in_or_app. right. left. reflexivity.
  - rewrite IH. reflexivity.
Qed.
Lemma spaces_no_bracket g : spaces g -> ~ In "]"%char g.
Proof. intros H I. apply H in I. unfold space_char in I. cbv in I. lia. Qed.
Lemma header_app s g : s <> [] -> spaces g -> header_of (s ++ g) = header_of s.
Proof.
  intros N G. destruct s as [|c s]; [elim (N eq_refl)|]. cbn [app header_of]. rewrite until_app by (apply spaces_no_bracket, G). reflexivity.
Qed.

Lemma sign_b c : (Ascii.eqb c "=" || Ascii.eqb c ":")%bool = true <-> sign c.
Proof. rewrite Bool.orb_true_iff, !Ascii.eqb_eq. reflexivity. Qed.
Lemma delimiter_iff v a b : at_delimiter v = Some (a, b) <-> exists c, v = a ++ c :: b /\ sign c /\ forall d, In d a -> ~ sign d.
Proof.
  revert a b. induction v as [|c v IH]; intros a b; cbn [at_delimiter].
  - split; [discriminate|]. intros (c & E & _). destruct a; discriminate.
  - destruct (Ascii.eqb c "=" || Ascii.eqb c ":")%bool eqn:E.
    + apply sign_b in E. split.
      * intros H. injection H as <- <-. exists c. split; [reflexivity|]. split; [exact E|intros d []].
      * intros (d & H & S & N). destruct a as [|x a]; [injection H as <- <-; reflexivity|]. injection H as <- _. elim (N c (or_introl eq_refl) E).
    + assert (NS : ~ sign c) by (rewrite <- sign_b, E; discriminate). split.
      * destruct (at_delimiter v) as [[a' b']|]; [|discriminate]. intros H. injection H as <- <-.
        destruct (proj1 (IH a' b') eq_refl) as (d & -> & S & N). exists d. split; [reflexivity|]. split; [exact S|].
        intros x [<-|I]; auto.
      * intros (d & H & S & N). destruct a as [|x a]; [injection H as <- <-; contradiction|]. injection H as <- H.
        assert (K : at_delimiter v = Some (a, b)) by (apply IH; exists d; split; [exact H|split; [exact S|intros y I; apply N; right; exact I]]).
        rewrite K. reflexivity.
Qed.
Lemma sign_bare c : sign c -> ~ space_char c.
Proof. intros [->| ->] I; unfold space_char in I; cbv in I; lia. Qed.
Lemma mark_bare c : mark c -> ~ space_char c.
Proof. intros [->| ->] I; unfold space_char in I; cbv in I; lia. Qed.
Lemma sign_space c : space_char c -> ~ sign c.
Proof. intros H S. exact (sign_bare c S H). Qed.

(** ** One line *)

Lemma gap_spaces g : gap g -> spaces g.
Proof. intros [_ H]. exact H. Qed.

Definition contribution (st : scan) (f : filler) : scan :=
  match f with
  | Empty _ => if sc_open st then Scan (add_line [] (sc_sections st)) true (sc_indent st) else st
  | Remark _ _ _ => st
  end.
Lemma marked_strip g m t : spaces g -> mark m -> is_comment (strip (g ++ m :: t)) = true.
Proof.
  intros G M. destruct (rstrip_split t) as (e & E & SE & EB).
  assert (K : strip (g ++ (m :: rstrip t) ++ e) = m :: rstrip t).
  { apply strip_core; [exact G|exact SE|]. split.
    - intros c u H. injection H as <- _. apply mark_bare, M.
    - destruct (rstrip t) as [|x r] eqn:R.
      + intros c u H. change [m] with ([] ++ [m]) in H. apply app_inj_tail in H as [_ <-]. apply mark_bare, M.
      + change (m :: x :: r) with ([m] ++ (x :: r)). apply ends_app; [discriminate|exact EB]. }
  cbn [app] in K. rewrite <- E in K. rewrite K. apply comment_iff. exists m, (rstrip t). auto.
Qed.
Lemma scan_filler st f : filler_ok f -> scan_line st (filler_line f) = Ok (contribution st f).
Proof.
  intros H. destruct f as [g|g m t]; cbn [filler_ok filler_line contribution] in *; unfold scan_line.
  - assert (K : strip g = []).
    { change g with ([] ++ [] ++ g). apply strip_core; [intros c []|apply gap_spaces, H|]. split; intros c u E; [discriminate|destruct u; discriminate]. }
    rewrite K. reflexivity.
  - destruct H as (G & M & _). rewrite marked_strip; [reflexivity|apply gap_spaces, G|exact M].
Qed.
Lemma scan_more st g t e : gap g -> gap e -> t <> [] -> trimmed t -> ~ marked t -> sc_open st = true -> sc_indent st < Z.of_nat (length g) ->
  scan_line st (g ++ t ++ e) = Ok (Scan (add_line t (sc_sections st)) true (sc_indent st)).
Proof.
  intros G E N T M O I. unfold scan_line. rewrite strip_core by (first [assumption|apply gap_spaces; assumption]).
  rewrite (proj2 (comment_false t) M). destruct t as [|x t]; [elim (N eq_refl)|].
  rewrite indent_core; [|apply gap_spaces, G|discriminate|apply T].
  rewrite O, (proj2 (Z.ltb_lt _ _) I). reflexivity.
Qed.
Lemma scan_header st g h r : gap g -> h <> [] -> ~ In "]"%char h -> (sc_open st = true -> Z.of_nat (length g) <= sc_indent st) ->
  scan_line st (g ++ "["%char :: h ++ "]"%char :: r) = Ok (Scan ((h, []) :: sc_sections st) false (Z.of_nat (length g))).
Proof.
  intros G N NI I. destruct (rstrip_split r) as (e & E & SE & EB).
  assert (L : g ++ "["%char :: h ++ "]"%char :: r = g ++ ("["%char :: h ++ "]"%char :: rstrip r) ++ e).
  { rewrite E at 1. cbn [app]. f_equal. f_equal. rewrite <- app_assoc. reflexivity. }
  assert (T : trimmed ("["%char :: h ++ "]"%char :: rstrip r)).
  { split.
    - intros c u H. injection H as <- _. intros J. unfold space_char in J. cbv in J. lia.
    - change ("["%char :: h ++ "]"%char :: rstrip r) with (("["%char :: h) ++ ("]"%char :: rstrip r)). apply ends_app; [discriminate|].
      destruct (rstrip r) as [|x q] eqn:R.
      + intros c u H. change ["]"%char] with ([] ++ ["]"%char]) in H. apply app_inj_tail in H as [_ <-]. intros J. unfold space_char in J. cbv in J. lia.
      + change ("]"%char :: x :: q) with (["]"%char] ++ (x :: q)). apply ends_app; [discriminate|exact EB]. }
  rewrite L. unfold scan_line. rewrite strip_core by (first [assumption|apply gap_spaces; assumption]).
  rewrite indent_core; [|apply gap_spaces, G|discriminate|apply T].
  assert (M : is_comment ("["%char :: h ++ "]"%char :: rstrip r) = false) by reflexivity. rewrite M.
  assert (C : (sc_open st && (sc_indent st <? Z.of_nat (length g)))%bool = false).
  { destruct (sc_open st); [|reflexivity]. apply Z.ltb_ge, I. reflexivity. }
  rewrite C.
  assert (K : header_of ("["%char :: h ++ "]"%char :: rstrip r) = Some h) by (apply header_iff; exists (rstrip r); auto).
  rewrite K. reflexivity.
Qed.
Lemma scan_setting h os ss op k s : setting_ok s -> (op = true -> Z.of_nat (length (s_indent s)) <= k) ->
  scan_line (Scan ((h, os) :: ss) op k) (s_indent s ++ s_name s ++ s_before s ++ s_sign s :: s_after s ++ s_value s ++ s_end s) =
  Ok (Scan ((h, (s_name s, [s_value s]) :: os) :: ss) true (Z.of_nat (length (s_indent s)))).
Proof.
  destruct s as [g n b c a v e tl]. unfold setting_ok. cbn [s_indent s_name s_before s_sign s_after s_value s_end].
  intros (G & B & A & E & S & _ & NN & TN & MN & SN & _ & TV & BR & _) I.
  (* the visible part of the line *)
  set (x := match v with [] => [] | _ => a ++ v end). set (e' := match v with [] => a ++ e | _ => e end).
  set (core := n ++ b ++ c :: x).
  assert (L : g ++ n ++ b ++ c :: a ++ v ++ e = g ++ core ++ e').
  { unfold core, x, e'. destruct v as [|y v]; cbn [app].
    - rewrite <- !app_assoc. reflexivity.
    - rewrite <- !app_assoc. cbn [app]. rewrite <- !app_assoc. reflexivity. }
  assert (SE' : spaces e').
  { unfold e'. destruct v; [apply spaces_app; split|]; apply gap_spaces; assumption. }
  assert (EC : ends_bare (c :: x)).
  { unfold x. destruct v as [|y v].
    - intros d u H. change [c] with ([] ++ [c]) in H. apply app_inj_tail in H as [_ <-]. apply sign_bare, S.
    - change (c :: a ++ y :: v) with ((c :: a) ++ y :: v). apply ends_app; [discriminate|apply TV]. }
  assert (T : trimmed core).
  { split; [unfold core; apply begins_app; [exact NN|apply TN]|]. unfold core. rewrite app_assoc. apply ends_app; [discriminate|exact EC]. }
  assert (NC : core <> []) by (unfold core; destruct n; [elim (NN eq_refl)|discriminate]).
  rewrite L. unfold scan_line. rewrite strip_core by (first [assumption|apply gap_spaces; assumption]).
  assert (M : is_comment core = false).
  { apply comment_false. intros (d & t & H & MM). apply MN. unfold core in H. destruct n as [|y n]; [elim (NN eq_refl)|].
    injection H as <- _. exists y, n. auto. }
  rewrite M.
  rewrite indent_core; [|apply gap_spaces, G|exact NC|apply T]. cbn [sc_open sc_indent sc_sections].
  assert (C : (op && (k <? Z.of_nat (length g)))%bool = false) by (destruct op; [apply Z.ltb_ge, I; reflexivity|reflexivity]).
  rewrite C.
  assert (H : header_of core = None).
  { apply header_none in BR. unfold core, x. destruct v as [|y v]; [|exact BR].
    rewrite app_nil_r in BR. replace (n ++ b ++ c :: a) with ((n ++ b ++ [c]) ++ a) in BR by (rewrite <- !app_assoc; reflexivity).
    rewrite header_app in BR; [exact BR|destruct n; [elim (NN eq_refl)|discriminate]|apply gap_spaces, A]. }
  rewrite H.
  assert (D : at_delimiter core = Some (n ++ b, x)).
  { apply delimiter_iff. exists c. split; [unfold core; rewrite app_assoc; reflexivity|]. split; [exact S|].
    intros d J. apply in_app_or in J as [J|J]; [apply SN, J|]. apply sign_space. apply gap_spaces in B. apply B, J. }
  rewrite D. rewrite rstrip_spaces by (apply gap_spaces, B). rewrite rstrip_bare by apply TN.
  assert (X : strip x = v).
  { unfold x. destruct v as [|y v]; [reflexivity|]. replace (a ++ y :: v) with (a ++ (y :: v) ++ []) by (rewrite app_nil_r; reflexivity).
    apply strip_core; [apply gap_spaces, A|intros d []|exact TV]. }
  rewrite X. destruct core; [elim (NC eq_refl)|]. destruct n; [elim (NN eq_refl)|]. reflexivity.
Qed.

(** ** Documents are read as they say *)

Lemma fold_app {A S} (f : S -> A -> res S) l l' s : foldM f (l ++ l') s = bind (foldM f l s) (fun s' => foldM f l' s').
Proof. revert s. induction l as [|x l IH]; intros s; [reflexivity|]. cbn [app foldM]. destruct (f s x); cbn [bind]; [apply IH|reflexivity]. Qed.

Lemma in_turn_cons {A} (P : A -> A -> Prop) x l : in_turn P (x :: l) <-> in_turn P l /\ (forall y b, l = y :: b -> P x y).
Proof.
  split.
  - intros H. split; [intros a y z b E; apply (H (x :: a) y z b); cbn; f_equal; exact E|].
    intros y b ->. apply (H [] x y b eq_refl).
  - intros [H K] a y z b E. destruct a as [|w a]; injection E as <- E; [apply (K z b E)|apply (H a y z b E)].
Qed.
Lemma in_turn_snoc {A} (P : A -> A -> Prop) l y : in_turn P (l ++ [y]) <-> in_turn P l /\ (forall a x, l = a ++ [x] -> P x y).
Proof.
  split.
  - intros H. split.
    + intros a x z b ->. apply (H a x z (b ++ [y])). rewrite <- app_assoc. reflexivity.
    + intros a x ->. apply (H a x y []). rewrite <- app_assoc. reflexivity.
  - intros [H K] a x z b E. destruct (exists_last (l := z :: b) ltac:(discriminate)) as (b' & w & F).
    rewrite F in E. assert (E' : l ++ [y] = (a ++ x :: b') ++ [w]) by (rewrite <- app_assoc; exact E).
    apply app_inj_tail in E' as [-> <-].
    destruct b' as [|q b'].
    + injection F as -> ->. apply (K a x). reflexivity.
    + injection F as <- ->. apply (H a x z b'). reflexivity.
Qed.

Lemma scan_fillers fs st : Forall filler_ok fs -> sc_open st = false -> foldM scan_line (map filler_line fs) st = Ok st.
Proof.
  intros H O. induction H as [|f fs F H IH]; [reflexivity|]. cbn [map foldM]. rewrite scan_filler by exact F. cbn [bind].
  replace (contribution st f) with st; [exact IH|]. destruct f; cbn [contribution]; [rewrite O|]; reflexivity.
Qed.
Lemma scan_tails tl h o v os ss k : Forall (tail_ok k) tl ->
  foldM scan_line (map tail_line tl) (Scan ((h, (o, v) :: os) :: ss) true (Z.of_nat k)) =
  Ok (Scan ((h, (o, rev (flat_map tail_text tl) ++ v) :: os) :: ss) true (Z.of_nat k)).
Proof.
  intros H. revert v. induction H as [|t tl T H IH]; intros v; [reflexivity|]. cbn [map foldM].
  assert (E : scan_line (Scan ((h, (o, v) :: os) :: ss) true (Z.of_nat k)) (tail_line t) =
              Ok (Scan ((h, (o, rev (tail_text t) ++ v) :: os) :: ss) true (Z.of_nat k))).
  { destruct t as [f|g t e]; cbn [tail_ok tail_line tail_text] in *.
    - rewrite scan_filler by exact T. destruct f; reflexivity.
    - destruct T as (G & E & _ & N & TT & M & I). rewrite scan_more; try assumption; [reflexivity|reflexivity|]. cbn [sc_indent]. lia. }
  rewrite E. cbn [bind]. rewrite IH. cbn [flat_map]. rewrite rev_app_distr, <- app_assoc. reflexivity.
Qed.
Definition opt_state (s : setting) : str * list str := (s_name s, rev (s_value s :: flat_map tail_text (s_tail s))).
Definition sec_state (x : section) : str * list (str * list str) := (h_name x, rev (map opt_state (h_settings x))).
Lemma scan_one h os ss op k s : setting_ok s -> (op = true -> Z.of_nat (length (s_indent s)) <= k) ->
  foldM scan_line (setting_lines s) (Scan ((h, os) :: ss) op k) = Ok (Scan ((h, opt_state s :: os) :: ss) true (Z.of_nat (length (s_indent s)))).
Proof.
  intros H I. unfold setting_lines. cbn [foldM]. rewrite scan_setting by assumption. cbn [bind].
  rewrite scan_tails by apply H. unfold opt_state. reflexivity.
Qed.
Lemma scan_settings l h os ss op k : Forall setting_ok l ->
  in_turn (fun s s' => length (s_indent s') <= length (s_indent s))%nat l ->
  (op = true -> forall s t, l = s :: t -> Z.of_nat (length (s_indent s)) <= k) ->
  foldM scan_line (flat_map setting_lines l) (Scan ((h, os) :: ss) op k) =
  Ok (Scan ((h, rev (map opt_state l) ++ os) :: ss) (op || negb (match l with [] => true | _ => false end)) (last (map (fun s => Z.of_nat (length (s_indent s))) l) k)).
Proof.
  revert os op k. induction l as [|s l IH]; intros os op k H T I.
  - cbn [flat_map foldM map rev app last]. rewrite Bool.orb_false_r. reflexivity.
  - cbn [flat_map]. rewrite fold_app. inversion H as [|? ? HS HL]; subst.
    rewrite scan_one; [|exact HS|intros O; apply (I O s l eq_refl)]. cbn [bind].
    apply in_turn_cons in T as [T K]. rewrite IH; [|exact HL|exact T|intros _ s' t E; apply inj_le, (K s' t E)].
    cbn [map rev]. rewrite <- app_assoc. cbn [app orb negb]. rewrite Bool.orb_true_r. f_equal. f_equal.
    destruct l as [|s' l]; [reflexivity|]. cbn [map]. generalize (map (fun s => Z.of_nat (length (s_indent s))) l) (Z.of_nat (length (s_indent s'))).
    intros zs z. clear. change (last (Z.of_nat (length (s_indent s)) :: z :: zs) k) with (last (z :: zs) k).
    revert z. induction zs as [|y zs IH]; intros z; [reflexivity|]. change (last (z :: y :: zs) ?d) with (last (y :: zs) d). apply IH.
Qed.
(** Whether the last section of a list leaves a setting open, and at which indentation. *)
Definition leaves (x : section) (op : bool) (k : Z) : Prop :=
  op = true -> exists ss s, h_settings x = ss ++ [s] /\ k = Z.of_nat (length (s_indent s)).
Lemma scan_section x ss op k : section_ok x -> (op = true -> Z.of_nat (length (h_indent x)) <= k) ->
  exists op' k', foldM scan_line (section_lines x) (Scan ss op k) = Ok (Scan (sec_state x :: ss) op' k') /\ leaves x op' k'.
Proof.
  intros (G & _ & NN & NI & _ & F & S & T) I. unfold section_lines. cbn [foldM].
  rewrite scan_header by assumption. cbn [bind sc_sections]. rewrite fold_app, scan_fillers by (try exact F; reflexivity). cbn [bind].
  rewrite scan_settings; [|exact S|exact T|discriminate]. rewrite app_nil_r.
  eexists _, _. split; [reflexivity|]. unfold leaves. destruct (h_settings x) as [|s l] eqn:E; [discriminate|]. intros _.
  destruct (exists_last (l := s :: l) ltac:(discriminate)) as (ss' & s' & E'). rewrite E'. exists ss', s'. split; [reflexivity|].
  rewrite map_app. cbn [map]. apply last_last.
Qed.
Lemma scan_sections l ss op k : Forall section_ok l ->
  in_turn (fun x x' => forall q s, h_settings x = q ++ [s] -> (length (h_indent x') <= length (s_indent s))%nat) l ->
  (op = true -> forall x t, l = x :: t -> Z.of_nat (length (h_indent x)) <= k) ->
  exists op' k', foldM scan_line (flat_map section_lines l) (Scan ss op k) = Ok (Scan (rev (map sec_state l) ++ ss) op' k').
Proof.
  revert ss op k. induction l as [|x l IH]; intros ss op k H T I.
  - exists op, k. reflexivity.
  - cbn [flat_map]. rewrite fold_app. inversion H as [|? ? HX HL]; subst.
    destruct (scan_section x ss op k HX (fun O => I O x l eq_refl)) as (op' & k' & E & L). rewrite E. cbn [bind].
    apply in_turn_cons in T as [T K]. destruct (IH (sec_state x :: ss) op' k' HL T) as (op2 & k2 & E2).
    + intros O x' t El. destruct (L O) as (q & s & Q & ->). apply inj_le. exact (K x' t El q s Q).
    + exists op2, k2. rewrite E2. cbn [map rev]. rewrite <- app_assoc. reflexivity.
Qed.
Lemma scan_document d : document_ok d -> exists op k, foldM scan_line (document_lines d) (Scan [] false 0) = Ok (Scan (rev (map sec_state (d_sections d))) op k).
Proof.
  intros (F & S & T). unfold document_lines. rewrite fold_app, scan_fillers by (try exact F; reflexivity). cbn [bind].
  destruct (scan_sections (d_sections d) [] false 0 S T) as (op & k & E); [discriminate|]. exists op, k. rewrite E, app_nil_r. reflexivity.
Qed.
Lemma trim_unique v w v' w' : v ++ w = v' ++ w' -> spaces w -> spaces w' -> ends_bare v -> ends_bare v' -> v = v'.
Proof.
  intros E W W' B B'. rewrite <- (rstrip_bare v B), <- (rstrip_bare v' B'), <- (rstrip_spaces v w W), <- (rstrip_spaces v' w' W'), E. reflexivity.
Qed.
Lemma finish_says d : says d (finish (rev (map sec_state (d_sections d)))).
Proof.
  unfold says, finish. rewrite map_rev, rev_involutive, map_map. induction (d_sections d) as [|x l IH]; [constructor|].
  cbn [map]. constructor; [|exact IH]. unfold section_says, sec_state. cbn [fst snd]. split; [reflexivity|].
  rewrite map_rev, rev_involutive, map_map. induction (h_settings x) as [|s ss IHs]; [constructor|]. cbn [map]. constructor; [|exact IHs].
  unfold setting_says, opt_state. cbn [fst snd]. split; [reflexivity|].
  destruct (rstrip_split (joined (s_value s :: flat_map tail_text (s_tail s)))) as (w & E & SW & EB).
  exists w. rewrite rev_involutive. exact (conj E (conj SW EB)).
Qed.
Lemma says_unique d f f' : says d f -> says d f' -> f = f'.
Proof.
  unfold says. revert f f'. induction (d_sections d) as [|x l IH]; intros f f' H H'; inversion H; inversion H'; subst; [reflexivity|].
  f_equal; [|apply IH; assumption].
  match goal with A : section_says x ?p, B : section_says x ?q |- _ => destruct p as [n o], q as [n' o'], A as [A1 A2], B as [B1 B2] end.
  cbn [fst snd] in *. subst. f_equal. revert A2 B2. clear. revert o o'.
  induction (h_settings x) as [|s ss IH]; intros o o' A B; inversion A; inversion B; subst; [reflexivity|].
  f_equal; [|apply IH; assumption].
  match goal with A : setting_says s ?p, B : setting_says s ?q |- _ => destruct p as [n v], q as [n' v'], A as (A1 & w & A2 & A3 & A4), B as (B1 & w' & B2 & B3 & B4) end.
  cbn [fst snd] in *. subst. f_equal. apply (trim_unique v w v' w'); try assumption. congruence.
Qed.

(** ** Lines of a text *)

Lemma lines_from_on s : forall cur, on_line cur -> on_line s -> lines_from s cur = match rev cur ++ s with [] => [] | l => [l] end.
Proof.
  induction s as [|c s IH]; intros cur C S; cbn [lines_from].
  - rewrite app_nil_r. destruct cur as [|x cur]; [reflexivity|]. destruct (rev (x :: cur)) as [|y r] eqn:E; [|reflexivity].
    apply (f_equal (@length _)) in E. rewrite rev_length in E. discriminate.
  - apply on_line_cons in S as [[N R] S]. destruct (Ascii.eqb c nl) eqn:E; [apply Ascii.eqb_eq in E; elim (N E)|].
    rewrite IH; [|apply on_line_cons; auto|exact S]. cbn [rev]. rewrite <- app_assoc. reflexivity.
Qed.
Lemma lines_from_line l : forall cur t, on_line l -> lines_from (l ++ newline :: t) cur = (rev cur ++ l) :: lines_from t [].
Proof.
  induction l as [|c l IH]; intros cur t L; cbn [app lines_from].
  - rewrite app_nil_r. reflexivity.
  - apply on_line_cons in L as [[N R] L]. destruct (Ascii.eqb c nl) eqn:E; [apply Ascii.eqb_eq in E; elim (N E)|].
    rewrite IH by exact L. cbn [rev]. rewrite <- app_assoc. reflexivity.
Qed.
Lemma lines_concat ls t : Forall on_line ls -> lines (concat (map ended ls) ++ t) = ls ++ lines t.
Proof.
  intros H. induction H as [|l ls L H IH]; [reflexivity|]. cbn [map concat app]. unfold ended at 1. rewrite <- !app_assoc.
  cbn [app]. unfold lines. rewrite lines_from_line by exact L. cbn [rev app]. f_equal. exact IH.
Qed.
Lemma lines_written t ls : Forall on_line ls -> written t ls -> lines t = ls.
Proof.
  intros H [->|(ls' & l & -> & N & ->)].
  - rewrite <- (app_nil_r (concat _)), lines_concat by exact H. apply app_nil_r.
  - apply Forall_app in H as [H L]. inversion L; subst. rewrite lines_concat by exact H. f_equal. unfold lines.
    rewrite lines_from_on; [|intros c []|assumption]. cbn [rev app]. destruct l; [elim (N eq_refl)|reflexivity].
Qed.
Lemma no_return_lines t : ~ In return_ t -> Forall on_line (lines t) /\ written t (lines t).
Proof.
  unfold lines. assert (G : forall s cur, on_line cur -> ~ In return_ s -> Forall on_line (lines_from s cur) /\ written (rev cur ++ s) (lines_from s cur)).
  { induction s as [|c s IH]; intros cur C N; cbn [lines_from].
    - rewrite app_nil_r. destruct cur as [|x cur]; [split; [constructor|left; reflexivity]|].
      assert (O : on_line (rev (x :: cur))) by (intros y I; apply C, in_rev, I).
      split; [constructor; [exact O|constructor]|]. right. exists [], (rev (x :: cur)). split; [reflexivity|]. split; [|reflexivity].
      intros E. apply (f_equal (@length _)) in E. rewrite rev_length in E. discriminate.
    - destruct (Ascii.eqb c nl) eqn:E.
      + apply Ascii.eqb_eq in E as ->. destruct (IH [] ltac:(intros y []) ltac:(intros I; apply N; right; exact I)) as [F W].
        split; [constructor; [intros y I; apply C, in_rev, I|exact F]|].
        cbn [rev app] in W. destruct W as [W|(ls & l & W1 & W2 & W3)].
        * left. cbn [map concat]. rewrite <- W. unfold ended. rewrite <- app_assoc. reflexivity.
        * right. exists (rev cur :: ls), l. split; [cbn; f_equal; exact W1|]. split; [exact W2|].
          cbn [map concat]. rewrite W3. unfold ended at 2. rewrite <- !app_assoc. reflexivity.
      + apply Ascii.eqb_neq in E. destruct (IH (c :: cur)) as [F W].
        * apply on_line_cons. split; [split; [exact E|intros ->; apply N; left; reflexivity]|exact C].
        * intros I. apply N. right. exact I.
        * split; [exact F|]. cbn [rev] in W. rewrite <- app_assoc in W. exact W. }
  intros N. apply (G t [] ltac:(intros y []) N).
Qed.
Lemma universal_none t : ~ In return_ t -> universal t = t.
Proof.
  induction t as [|c t IH]; intros N; [reflexivity|]. cbn [universal]. destruct (Ascii.eqb c cr) eqn:E.
  - apply Ascii.eqb_eq in E as ->. elim N. left. reflexivity.
  - f_equal. apply IH. intros I. apply N. right. exact I.
Qed.
Lemma universal_newlines t u : newlines t u -> universal t = u.
Proof.
  induction 1 as [|c t u N H IH|t u H IH|t u N H IH].
  - reflexivity.
  - cbn [universal]. destruct (Ascii.eqb c cr) eqn:E; [apply Ascii.eqb_eq in E; elim (N E)|]. f_equal. exact IH.
  - change (universal (return_ :: newline :: t)) with (newline :: universal t). f_equal. exact IH.
  - destruct t as [|d t]; [inversion H; reflexivity|].
    change (universal (return_ :: d :: t)) with (newline :: if Ascii.eqb d nl then universal t else universal (d :: t)).
    destruct (Ascii.eqb d nl) eqn:E; [apply Ascii.eqb_eq in E as ->; elim (N t eq_refl)|]. f_equal. exact IH.
Qed.
Lemma newlines_clean t u : newlines t u -> ~ In return_ u.
Proof.
  induction 1 as [|c t u N H IH|t u H IH|t u N H IH]; [intros []| | |]; (intros [E|I]; [|exact (IH I)]); [exact (N E)|discriminate E|discriminate E].
Qed.

(** ** Everything that is read is a document *)

Definition represents (d : document) (st : scan) : Prop :=
  sc_sections st = rev (map sec_state (d_sections d)) /\
  (if sc_open st then exists a x b s, d_sections d = a ++ [x] /\ h_settings x = b ++ [s] /\ sc_indent st = Z.of_nat (length (s_indent s))
   else forall a x, d_sections d = a ++ [x] -> h_settings x = []).

Definition sections_turn := in_turn (fun x x' => forall ss s, h_settings x = ss ++ [s] -> (length (h_indent x') <= length (s_indent s))%nat).
Definition settings_turn := in_turn (fun s s' => length (s_indent s') <= length (s_indent s))%nat.

(** Replace the last section by one with the same header line. *)
Lemma replace_section fs a x x' : document_ok (Document fs (a ++ [x])) -> section_ok x' -> h_indent x' = h_indent x ->
  document_ok (Document fs (a ++ [x'])).
Proof.
  intros (F & S & T) OK E. split; [exact F|]. cbn [d_sections d_fill] in *. apply Forall_app in S as [S _]. split.
  - apply Forall_app. split; [exact S|]. constructor; [exact OK|constructor].
  - apply in_turn_snoc in T as [T K]. apply in_turn_snoc. split; [exact T|]. intros a' y Ey. rewrite E. exact (K a' y Ey).
Qed.
Lemma replace_setting b s s' : Forall setting_ok (b ++ [s]) -> settings_turn (b ++ [s]) -> setting_ok s' -> s_indent s' = s_indent s ->
  Forall setting_ok (b ++ [s']) /\ settings_turn (b ++ [s']).
Proof.
  intros F T OK E. apply Forall_app in F as [F _]. split.
  - apply Forall_app. split; [exact F|constructor; [exact OK|constructor]].
  - apply in_turn_snoc in T as [T K]. apply in_turn_snoc. split; [exact T|]. intros a' y Ey. rewrite E. exact (K a' y Ey).
Qed.
Definition grown (s : setting) (t : tail) : setting :=
  Setting (s_indent s) (s_name s) (s_before s) (s_sign s) (s_after s) (s_value s) (s_end s) (s_tail s ++ [t]).
Lemma grown_ok s t : setting_ok s -> tail_ok (length (s_indent s)) t -> setting_ok (grown s t).
Proof.
  destruct s as [g n b c a v e tl]. unfold setting_ok, grown. cbn [s_indent s_name s_before s_sign s_after s_value s_end s_tail].
  intros H T. repeat (match type of H with _ /\ _ => let A := fresh in destruct H as [A H] end; split; [assumption|]).
  apply Forall_app. split; [exact H|constructor; [exact T|constructor]].
Qed.
Lemma grown_lines s t : setting_lines (grown s t) = setting_lines s ++ [tail_line t].
Proof. unfold setting_lines, grown. cbn [s_tail]. rewrite map_app. reflexivity. Qed.

Definition with_settings (x : section) (ss : list setting) : section := Section_ (h_indent x) (h_name x) (h_rest x) (h_fill x) ss.
Lemma with_settings_ok x ss : section_ok x -> Forall setting_ok ss -> settings_turn ss -> section_ok (with_settings x ss).
Proof. intros (A & B & C & D & E & F & _ & _) S T. unfold section_ok, with_settings. cbn. repeat (split; [assumption|]). exact T. Qed.

(** Add one line to the value of the open setting. *)
Lemma grow_open fs a x b s t : document_ok (Document fs (a ++ [x])) -> h_settings x = b ++ [s] -> tail_ok (length (s_indent s)) t ->
  let x' := with_settings x (b ++ [grown s t]) in
  document_ok (Document fs (a ++ [x'])) /\
  document_lines (Document fs (a ++ [x'])) = document_lines (Document fs (a ++ [x])) ++ [tail_line t] /\
  map sec_state (a ++ [x']) = map sec_state a ++ [(h_name x, opt_state (grown s t) :: rev (map opt_state b))].
Proof.
  intros OK E T x'. pose proof OK as (F & S & TT). cbn [d_sections] in S. apply Forall_app in S as [_ S]. inversion S as [|? ? SX _]; subst. clear S.
  pose proof SX as (_ & _ & _ & _ & _ & _ & SS & ST). rewrite E in SS, ST.
  pose proof SS as SS0. apply Forall_app in SS0 as [_ SS0]. inversion SS0 as [|? ? Ss _]; subst. clear SS0.
  destruct (replace_setting b s (grown s t) SS ST (grown_ok s t Ss T) eq_refl) as [SS' ST'].
  split; [|split].
  - apply (replace_section fs a x x' OK); [|reflexivity]. apply with_settings_ok; assumption.
  - unfold document_lines. cbn [d_fill d_sections]. rewrite !flat_map_app. cbn [flat_map]. rewrite !app_nil_r, <- !app_assoc. f_equal. f_equal.
    unfold section_lines, x', with_settings. cbn [h_indent h_name h_rest h_fill h_settings]. rewrite E, !flat_map_app. cbn [flat_map].
    rewrite !app_nil_r, grown_lines. cbn [app]. rewrite <- !app_assoc. reflexivity.
  - rewrite map_app. f_equal. cbn [map]. unfold sec_state, x', with_settings. cbn [h_name h_settings]. rewrite map_app, rev_app_distr. reflexivity.
Qed.
Lemma opt_grown s t : snd (opt_state (grown s t)) = rev (tail_text t) ++ snd (opt_state s).
Proof. unfold opt_state, grown. cbn [s_value s_tail snd]. rewrite flat_map_app. cbn [flat_map]. rewrite app_nil_r. cbn [rev]. rewrite rev_app_distr, <- app_assoc. reflexivity. Qed.

Lemma add_filler d st f : document_ok d -> represents d st -> filler_ok f ->
  exists d', document_ok d' /\ document_lines d' = document_lines d ++ [filler_line f] /\ represents d' (contribution st f).
Proof.
  destruct d as [fs l]. intros OK R F. unfold represents in R. cbn [d_sections] in R. destruct (sc_open st) eqn:O.
  - destruct R as [RS (a & x & b & s & -> & Ex & Ei)].
    destruct (grow_open fs a x b s (Between f) OK Ex F) as (OK' & L' & M'). eexists. split; [exact OK'|]. split; [exact L'|].
    assert (RS' : sc_sections st = (h_name x, opt_state s :: rev (map opt_state b)) :: rev (map sec_state a)).
    { rewrite RS, map_app, rev_app_distr. cbn [map rev app]. unfold sec_state at 1. rewrite Ex, map_app, rev_app_distr. reflexivity. }
    unfold represents. cbn [d_sections]. rewrite M', rev_app_distr. cbn [rev app].
    split.
    + destruct f as [g|g m t]; cbn [contribution].
      * rewrite O. cbn [sc_sections]. rewrite RS'. cbn [add_line]. unfold opt_state at 1. cbn [add_line]. f_equal. f_equal. f_equal.
        rewrite (surjective_pairing (opt_state (grown s (Between (Empty g))))), opt_grown. reflexivity.
      * rewrite RS'. f_equal. f_equal. f_equal.
        rewrite (surjective_pairing (opt_state (grown s (Between (Remark g m t))))), opt_grown. reflexivity.
    + assert (O' : sc_open (contribution st f) = true) by (destruct f; cbn [contribution]; rewrite ?O; reflexivity). rewrite O'.
      assert (I' : sc_indent (contribution st f) = sc_indent st) by (destruct f; cbn [contribution]; rewrite ?O; reflexivity).
      exists a, (with_settings x (b ++ [grown s (Between f)])), b, (grown s (Between f)). rewrite I'. auto.
  - assert (C : contribution st f = st) by (destruct f; cbn [contribution]; rewrite ?O; reflexivity). rewrite C.
    destruct R as [RS RN]. destruct l as [|q l0] eqn:El.
    + exists (Document (fs ++ [f]) []). destruct OK as (A & _ & _). split; [|split].
      * split; [apply Forall_app; split; [exact A|constructor; [exact F|constructor]]|]. split; [constructor|]. intros a x y b E. destruct a; discriminate.
      * unfold document_lines. cbn [d_fill d_sections flat_map]. rewrite map_app, !app_nil_r. reflexivity.
      * split; [exact RS|]. rewrite O. intros a x E. destruct a; discriminate.
    + rewrite <- El in *. destruct (exists_last (l := l)) as (a & x & E); [rewrite El; discriminate|]. clear q l0 El. subst l.
      set (x' := Section_ (h_indent x) (h_name x) (h_rest x) (h_fill x ++ [f]) []). pose proof (RN a x eq_refl) as NS.
      exists (Document fs (a ++ [x'])). split; [|split].
      * pose proof OK as (_ & S & _). cbn [d_sections] in S. apply Forall_app in S as [_ S]. inversion S as [|? ? SX _]; subst.
        apply (replace_section fs a x x' OK); [|reflexivity]. destruct SX as (S1 & S2 & S3 & S4 & S5 & S6 & _ & _).
        unfold section_ok, x'. cbn. repeat (split; [assumption|]). split; [apply Forall_app; split; [exact S6|constructor; [exact F|constructor]]|].
        split; [constructor|]. intros a' y z b' E. destruct a'; discriminate.
      * unfold document_lines. cbn [d_fill d_sections]. rewrite !flat_map_app. cbn [flat_map]. rewrite !app_nil_r, <- !app_assoc. f_equal. f_equal.
        unfold section_lines, x'. cbn [h_indent h_name h_rest h_fill h_settings]. rewrite NS. cbn [flat_map]. rewrite !app_nil_r, map_app. reflexivity.
      * split.
        -- cbn [d_sections]. rewrite RS. cbn [d_sections]. rewrite !map_app. f_equal. f_equal. cbn [map]. unfold sec_state, x'. cbn [h_name h_settings]. rewrite NS. reflexivity.
        -- rewrite O. cbn [d_sections]. intros a' y E. apply app_inj_tail in E as [_ <-]. reflexivity.
Qed.

Lemma strip_nil_spaces s : strip s = [] -> spaces s.
Proof. intros H. destruct (strip_split s) as (g & e & E & G & SE & _). rewrite H in E. rewrite E. apply spaces_app. split; assumption. Qed.

Lemma scan_step d st line st' : document_ok d -> represents d st -> on_line line -> scan_line st line = Ok st' ->
  exists d', document_ok d' /\ document_lines d' = document_lines d ++ [line] /\ represents d' st'.
Proof.
  intros OK R L H. unfold scan_line in H. destruct (strip_split line) as (g & e & E & G & SE & T & I).
  assert (LG : on_line g /\ on_line (strip line) /\ on_line e).
  { rewrite E in L. apply on_line_app in L as [L1 L]. apply on_line_app in L as [L2 L3]. auto. }
  destruct LG as (LG & LV & LE). assert (GG : gap g) by (split; assumption). assert (GE : gap e) by (split; assumption).
  set (v := strip line) in *. clearbody v.
  destruct (is_comment v) eqn:C.
  { injection H as <-. apply comment_iff in C as (m & t & -> & M).
    destruct (add_filler d st (Remark g m (t ++ e)) OK R) as (d' & A & B & D).
    - cbn [filler_ok]. split; [exact GG|]. split; [exact M|]. apply on_line_app. split; [|exact LE]. apply on_line_cons in LV as [_ LV]. exact LV.
    - exists d'. split; [exact A|]. split; [rewrite B, E; reflexivity|exact D]. }
  apply comment_false in C. destruct v as [|v0 v'] eqn:Ev.
  { injection H as <-. destruct (add_filler d st (Empty line) OK R) as (d' & A & B & D).
    - cbn [filler_ok]. split; [exact L|]. rewrite E. intros c J. apply in_app_or in J as [J|J]; [apply G, J|apply SE, J].
    - exists d'. auto. }
  rewrite <- Ev in *. assert (NV : v <> []) by (rewrite Ev; discriminate). rewrite (I NV) in H. clear I.
  destruct (sc_open st && (sc_indent st <? Z.of_nat (length g)))%bool eqn:D.
  { (* a line of the open value *)
    injection H as <-. apply Bool.andb_true_iff in D as [O D]. apply Z.ltb_lt in D.
    destruct d as [fs l]. unfold represents in R. rewrite O in R. cbn [d_sections] in R. destruct R as [RS (a & x & b & s & -> & Ex & Ei)].
    destruct (grow_open fs a x b s (More g v e) OK Ex) as (OK' & L' & M').
    { cbn [tail_ok]. repeat (split; [assumption|]). lia. }
    eexists. split; [exact OK'|]. split; [rewrite L', E; reflexivity|].
    unfold represents. cbn [d_sections sc_sections sc_open sc_indent]. rewrite M', rev_app_distr. cbn [rev app]. split.
    - rewrite RS, map_app, rev_app_distr. cbn [map rev app]. unfold sec_state at 1. rewrite Ex, map_app, rev_app_distr. cbn [map rev app].
      unfold opt_state at 1. cbn [add_line]. f_equal. f_equal. f_equal.
      rewrite (surjective_pairing (opt_state (grown s (More g v e)))), opt_grown. reflexivity.
    - exists a, (with_settings x (b ++ [grown s (More g v e)])), b, (grown s (More g v e)). auto. }
  assert (CL : sc_open st = true -> Z.of_nat (length g) <= sc_indent st).
  { intros O. rewrite O in D. cbn [andb] in D. apply Z.ltb_ge in D. exact D. }
  clear D. destruct (header_of v) as [h|] eqn:HD.
  { (* a header *)
    injection H as <-. apply header_iff in HD as (r & Er & NH & NB).
    set (x := Section_ g h (r ++ e) [] []). destruct d as [fs l].
    assert (LR : on_line h /\ on_line r).
    { rewrite Er in LV. apply on_line_cons in LV as [_ LV]. apply on_line_app in LV as [L1 LV]. apply on_line_cons in LV as [_ LV]. auto. }
    exists (Document fs (l ++ [x])). split; [|split].
    - destruct OK as (F & S & TT). cbn [d_fill d_sections] in *. split; [exact F|]. cbn [d_sections]. split.
      + apply Forall_app. split; [exact S|]. constructor; [|constructor]. unfold section_ok, x. cbn.
        split; [exact GG|]. split; [apply LR|]. split; [exact NH|]. split; [exact NB|]. split; [apply on_line_app; split; [apply LR|exact LE]|].
        split; [constructor|]. split; [constructor|]. intros a y z b Q. destruct a; discriminate.
      + apply in_turn_snoc. split; [exact TT|]. intros a y El ss s Es. unfold represents in R. cbn [d_sections] in R.
        destruct (sc_open st) eqn:O.
        * destruct R as [_ (a' & x' & b & s' & El' & Ex & Ei)]. rewrite El in El'. apply app_inj_tail in El' as [_ <-].
          rewrite Es in Ex. apply app_inj_tail in Ex as [_ <-]. specialize (CL eq_refl). cbn [x h_indent]. lia.
        * destruct R as [_ RN]. rewrite (RN a y El) in Es. destruct ss; discriminate.
    - unfold document_lines. cbn [d_fill d_sections]. rewrite flat_map_app. cbn [flat_map]. rewrite app_nil_r, <- app_assoc. f_equal. f_equal.
      unfold section_lines, x. cbn [h_indent h_name h_rest h_fill h_settings map flat_map app]. f_equal. rewrite E, Er. cbn [app]. rewrite <- app_assoc. reflexivity.
    - unfold represents. cbn [d_sections sc_sections sc_open]. destruct R as [RS _]. cbn [d_sections] in RS. split.
      + rewrite RS, map_app, rev_app_distr. reflexivity.
      + intros a y El. apply app_inj_tail in El as [_ <-]. reflexivity. }
  destruct d as [fs l]. pose proof R as [RS _]. cbn [d_sections] in RS. destruct (sc_sections st) as [|[h os] ss] eqn:SS; [discriminate|].
  destruct (at_delimiter v) as [[o y]|] eqn:DL; [|discriminate].
  destruct (rstrip o) as [|o0 o1] eqn:RO; [discriminate|]. rewrite <- RO in H. injection H as <-.
  apply delimiter_iff in DL as (c & Ec & SC & NS).
  destruct (rstrip_split o) as (b & Eo & SB & EB).
  destruct (strip_split y) as (g1 & e1 & Ey & G1 & SE1 & TY & _).
  set (n := rstrip o) in *. set (w := strip y) in *. assert (NN : n <> []) by (rewrite RO; discriminate). clearbody n w.
  assert (El : exists a x, l = a ++ [x]).
  { destruct l as [|q l]; [discriminate RS|]. destruct (exists_last (l := q :: l) ltac:(discriminate)) as (a & x & ->). exists a, x. reflexivity. }
  destruct El as (a & x & ->).
  assert (EVL : v = n ++ b ++ c :: g1 ++ w ++ e1) by (rewrite Ec, Eo, Ey, <- app_assoc; reflexivity).
  assert (LS : on_line n /\ on_line b /\ on_line g1 /\ on_line w /\ on_line e1).
  { rewrite EVL in LV. apply on_line_app in LV as [L1 LV]. apply on_line_app in LV as [L2 LV]. apply on_line_cons in LV as [_ LV].
    apply on_line_app in LV as [L3 LV]. apply on_line_app in LV as [L4 L5]. auto. }
  destruct LS as (LN & LB & LG1 & LW & LE1).
  set (s := Setting g n b c g1 w (e1 ++ e) []).
  assert (Sok : setting_ok s).
  { unfold setting_ok, s. cbn [s_indent s_name s_before s_sign s_after s_value s_end s_tail].
    split; [exact GG|]. split; [split; assumption|]. split; [split; assumption|].
    split; [split; [apply on_line_app; auto|apply spaces_app; auto]|]. split; [exact SC|]. split; [exact LN|]. split; [exact NN|].
    split. { split; [|exact EB]. intros d t Q. destruct T as [TB _]. apply (TB d (t ++ b ++ c :: g1 ++ w ++ e1)). rewrite EVL, Q. reflexivity. }
    split. { intros (d & t & Q & M). apply C. exists d, (t ++ b ++ c :: g1 ++ w ++ e1). rewrite EVL, Q. auto. }
    split. { intros d J. apply NS. rewrite Eo. apply in_or_app. left. exact J. }
    split; [exact LW|]. split; [exact TY|]. split; [|constructor].
    apply header_none in HD. intros (hh & r & Q & K). apply HD. exists hh, (r ++ e1). split; [|exact K].
    rewrite EVL. replace (n ++ b ++ c :: g1 ++ w ++ e1) with ((n ++ b ++ c :: g1 ++ w) ++ e1) by (rewrite <- !app_assoc; cbn [app]; rewrite <- app_assoc; reflexivity).
    rewrite Q. cbn [app]. rewrite <- app_assoc. reflexivity. }
  set (x' := with_settings x (h_settings x ++ [s])).
  exists (Document fs (a ++ [x'])). split; [|split].
  - pose proof OK as (_ & S & _). cbn [d_sections] in S. apply Forall_app in S as [_ S]. inversion S as [|? ? SX _]; subst.
    apply (replace_section fs a x x' OK); [|reflexivity]. pose proof SX as (_ & _ & _ & _ & _ & _ & S7 & S8). apply with_settings_ok; [exact SX| |].
    + apply Forall_app. split; [exact S7|constructor; [exact Sok|constructor]].
    + apply in_turn_snoc. split; [exact S8|]. intros q z Ez. unfold represents in R. cbn [d_sections] in R. destruct (sc_open st) eqn:O.
      * destruct R as [_ (a' & x2 & b2 & s2 & El' & Ex & Ei)]. apply app_inj_tail in El' as [_ <-].
        rewrite Ez in Ex. apply app_inj_tail in Ex as [_ <-]. specialize (CL eq_refl). unfold s. cbn [s_indent]. lia.
      * destruct R as [_ RN]. rewrite (RN a x eq_refl) in Ez. destruct q; discriminate.
  - unfold document_lines. cbn [d_fill d_sections]. rewrite !flat_map_app. cbn [flat_map]. rewrite !app_nil_r, <- !app_assoc. f_equal. f_equal.
    unfold section_lines, x', with_settings. cbn [h_indent h_name h_rest h_fill h_settings]. rewrite flat_map_app. cbn [flat_map]. rewrite app_nil_r.
    cbn [app]. rewrite <- !app_assoc. f_equal. f_equal. f_equal. unfold setting_lines, s. cbn [s_indent s_name s_before s_sign s_after s_value s_end s_tail map].
    f_equal. rewrite E, EVL, <- !app_assoc. cbn [app]. rewrite <- !app_assoc. reflexivity.
  - unfold represents. cbn [d_sections sc_sections sc_open sc_indent]. rewrite map_app, rev_app_distr in RS. cbn [map rev app] in RS. injection RS as RH RO' RS.
    split.
    + rewrite map_app, rev_app_distr. cbn [map rev app]. rewrite <- RS. f_equal. unfold sec_state, x', with_settings. cbn [h_name h_settings].
      rewrite map_app, rev_app_distr. cbn [map rev app]. rewrite <- RO', <- RH. reflexivity.
    + exists a, x', (h_settings x), s. repeat split; reflexivity.
Qed.
Lemma scan_all ls st : Forall on_line ls -> foldM scan_line ls (Scan [] false 0) = Ok st ->
  exists d, document_ok d /\ document_lines d = ls /\ represents d st.
Proof.
  revert st. induction ls as [|l ls IH] using rev_ind; intros st F H.
  - injection H as <-. exists (Document [] []). split; [|split; [reflexivity|split; [reflexivity|]]].
    + split; [constructor|]. split; [constructor|]. intros a x y b E. destruct a; discriminate.
    + cbn. intros a x E. destruct a; discriminate.
  - apply Forall_app in F as [F Fl]. inversion Fl; subst. rewrite fold_app in H. destruct (foldM scan_line ls (Scan [] false 0)) as [st0|] eqn:E0; [|discriminate].
    cbn [bind foldM] in H. destruct (scan_line st0 l) as [st1|] eqn:E1; [|discriminate]. injection H as <-.
    destruct (IH st0 F eq_refl) as (d & OK & L & R). destruct (scan_step d st0 l st1 OK R ltac:(assumption) E1) as (d' & OK' & L' & R').
    exists d'. split; [exact OK'|]. split; [rewrite L', L; reflexivity|exact R'].
Qed.

(** ** The two together *)

Lemma filler_on f : filler_ok f -> on_line (filler_line f).
Proof.
  destruct f as [g|g m t]; cbn; [intros [H _]; exact H|]. intros ([H _] & M & T). apply on_line_app. split; [exact H|]. apply on_line_cons. split; [|exact T].
  destruct M as [->| ->]; split; discriminate.
Qed.
Lemma document_on d : document_ok d -> Forall on_line (document_lines d).
Proof.
  intros (F & S & _). unfold document_lines. apply Forall_app. split.
  - apply Forall_map. eapply Forall_impl; [|exact F]. apply filler_on.
  - apply Forall_flat_map. eapply Forall_impl; [|exact S]. intros x ((G & _) & N & _ & _ & RR & FF & SS & _). unfold section_lines. constructor.
    { apply on_line_app. split; [exact G|]. apply on_line_cons. split; [split; discriminate|]. apply on_line_app. split; [exact N|]. apply on_line_cons. split; [split; discriminate|exact RR]. }
    apply Forall_app. split.
    + apply Forall_map. eapply Forall_impl; [|exact FF]. apply filler_on.
    + apply Forall_flat_map. eapply Forall_impl; [|exact SS]. intros s ((A & _) & (B & _) & (C & _) & (D & _) & E & K & _ & _ & _ & _ & V & _ & _ & T).
      unfold setting_lines. constructor.
      * apply on_line_app. split; [exact A|]. apply on_line_app. split; [exact K|]. apply on_line_app. split; [exact B|]. apply on_line_cons.
        split; [destruct E as [->| ->]; split; discriminate|]. apply on_line_app. split; [exact C|]. apply on_line_app. auto.
      * apply Forall_map. eapply Forall_impl; [|exact T]. intros t. destruct t as [f|g t e]; cbn [tail_ok tail_line]; [apply filler_on|].
        intros ((X & _) & (Y & _) & Z & _). apply on_line_app. split; [exact X|]. apply on_line_app. auto.
Qed.
Lemma ini_iff t f : ~ In return_ t -> ini_file t = Ok f <-> exists d, document_ok d /\ written t (document_lines d) /\ says d f.
Proof.
  intros N. unfold ini_file. rewrite universal_none by exact N. split.
  - intros H. destruct (foldM scan_line (lines t) (Scan [] false 0)) as [st|] eqn:E; [|discriminate]. injection H as <-.
    destruct (no_return_lines t N) as [L W]. destruct (scan_all (lines t) st L E) as (d & OK & DL & R).
    exists d. split; [exact OK|]. split; [rewrite DL; exact W|]. destruct R as [R _]. rewrite R. apply finish_says.
  - intros (d & OK & W & S). rewrite (lines_written t _ (document_on d OK) W).
    destruct (scan_document d OK) as (op & k & E). rewrite E. cbn [bind sc_sections]. f_equal. apply (says_unique d); [apply finish_says|exact S].
Qed.
Lemma ini_newlines t u : newlines t u -> ini_file t = ini_file u.
Proof. intros H. unfold ini_file. rewrite (universal_newlines t u H), (universal_none u (newlines_clean t u H)). reflexivity. Qed.
