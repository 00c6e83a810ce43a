(** * Proofs for the terrain table: the tokenizer. *)
From Verif Require Import Base PyStr BaseLemmas TerrModel TerrSpec TerrProofs TcutProofs CsvModel CsvSpec.
From Coq Require Import Lia.
Open Scope Z_scope.

Lemma eqb_no a b : a <> b -> Ascii.eqb a b = false.
Proof. apply Ascii.eqb_neq. Qed.
Lemma eqb_yes a : Ascii.eqb a a = true.
Proof. apply Ascii.eqb_refl. Qed.

Lemma blank_iff c : is_blank c = true <-> blank c.
Proof.
  unfold is_blank, blank. rewrite Bool.orb_true_iff, !Ascii.eqb_eq. reflexivity.
Qed.

Definition bare (s : str) : Prop := ~ In sep s /\ ~ In sharp s /\ ~ In nl s /\ ~ In ret s.

Lemma bare_cons x s : bare (x :: s) -> (x <> newline /\ x <> comma /\ x <> hash /\ x <> carriage) /\ bare s.
Proof.
  intros (A & B & C & D). cbn [In] in *. unfold bare, nl, ret, sep, sharp, newline, carriage, comma, hash in *.
  repeat split; try (intro; subst; tauto); tauto.
Qed.

Lemma in_field_run s : forall f r t, bare s -> tok InField f r (s ++ t) = tok InField (rev s ++ f) r t.
Proof.
  induction s as [|x s IH]; intros f r t B; [reflexivity|].
  destruct (bare_cons _ _ B) as ((N1 & N2 & N3 & N4) & B'). cbn [app tok].
  rewrite (eqb_no _ _ N1), (eqb_no _ _ N4), (eqb_no _ _ N2), (eqb_no _ _ N3). rewrite IH by assumption.
  cbn [rev]. rewrite <- app_assoc. reflexivity.
Qed.

Lemma start_field_run s r t : (forall t', s <> quote :: t') -> tok StartField [] r (s ++ t) = tok InField [] r (s ++ t) \/ s = [].
Proof.
  intros N. destruct s as [|x s]; [right; reflexivity|]. left. cbn [app tok].
  rewrite (eqb_no x quote) by (intros ->; apply (N s); reflexivity). reflexivity.
Qed.

Lemma start_field_other t r : (forall t', t <> quote :: t') -> tok StartField [] r t = tok InField [] r t.
Proof.
  intros N. destruct t as [|x t]; [reflexivity|]. cbn [tok].
  rewrite (eqb_no x quote) by (intros ->; apply (N t); reflexivity). reflexivity.
Qed.

Lemma in_quoted_run s : forall f r t, tok InQuoted f r (doubled s ++ dq :: t) = tok QuoteInQuoted (rev s ++ f) r t.
Proof.
  induction s as [|x s IH]; intros f r t.
  - reflexivity.
  - cbn [doubled flat_map]. fold (doubled s). destruct (Ascii.eqb x dq) eqn:E.
    + apply Ascii.eqb_eq in E. subst x. cbn [app].
      change (tok InQuoted f r (dq :: dq :: doubled s ++ dq :: t)) with (tok InQuoted (dq :: f) r (doubled s ++ dq :: t)).
      rewrite IH. cbn [rev]. rewrite <- app_assoc. reflexivity.
    + cbn [app]. change (tok InQuoted f r (x :: doubled s ++ dq :: t))
        with (if Ascii.eqb x quote then tok QuoteInQuoted f r (doubled s ++ dq :: t) else tok InQuoted (x :: f) r (doubled s ++ dq :: t)).
      change quote with dq. rewrite E, IH. cbn [rev]. rewrite <- app_assoc. reflexivity.
Qed.

(** What follows the fields of a row. *)
Definition ends (quoted : Prop) (after : str) (K : list str -> res (list (list str))) : Prop :=
  (forall t', after <> quote :: t') /\
  (forall f r, tok InField f r after = K (rev r ++ [rev f])) /\
  (quoted -> forall f r, tok QuoteInQuoted f r after = K (rev r ++ [rev f])).

Definition is_quoted (c : cell) : Prop := match c with Quoted _ => True | Plain _ => False end.

(** One field and what follows it. *)
Lemma cell_run c r t (K : str -> res (list (list str))) :
  cell_ok c -> (forall t', t <> quote :: t') ->
  (forall f, tok InField f r t = K (rev f)) -> (is_quoted c -> forall f, tok QuoteInQuoted f r t = K (rev f)) ->
  tok StartField [] r (written c ++ t) = K (contents c).
Proof.
  intros C N A Q. destruct c as [s|s]; cbn [written contents] in *.
  - destruct C as (C1 & C2 & C3 & C5 & C4).
    assert (B : bare s) by (repeat split; assumption).
    rewrite start_field_other.
    + rewrite in_field_run by assumption. rewrite A, app_nil_r, rev_involutive. reflexivity.
    + intros t' E. destruct s as [|x s]; [apply (N t'); exact E|]. injection E as -> E. apply (C4 s). reflexivity.
  - cbn [app]. rewrite <- app_assoc. cbn [app].
    change (tok StartField [] r (dq :: doubled s ++ dq :: t)) with (tok InQuoted [] r (doubled s ++ dq :: t)).
    rewrite in_quoted_run, Q by exact I. rewrite app_nil_r, rev_involutive. reflexivity.
Qed.

Lemma cells_run cs : forall c r after K,
  Forall cell_ok (c :: cs) -> ends (is_quoted (last (c :: cs) c)) after K ->
  tok StartField [] r (write_cells c cs ++ after) = K (rev r ++ map contents (c :: cs)).
Proof.
  induction cs as [|d cs IH]; intros c r after K F (N & A & Q).
  - unfold write_cells. cbn [flat_map map]. rewrite app_nil_r.
    rewrite (cell_run c r after (fun v => K (rev r ++ [v]))); [reflexivity|inversion F; assumption|exact N|exact (fun f => A f r)|].
    intros I f. exact (Q I f r).
  - unfold write_cells. cbn [flat_map]. rewrite <- app_assoc. cbn [app].
    change (written d ++ flat_map (fun x => sep :: written x) cs) with (write_cells d cs).
    rewrite (cell_run c r _ (fun v => K (rev r ++ v :: map contents (d :: cs)))).
    + reflexivity.
    + inversion F; assumption.
    + intros t' E. discriminate E.
    + intros f. change (tok InField f r (sep :: write_cells d cs ++ after)) with (tok StartField [] (rev f :: r) (write_cells d cs ++ after)).
      rewrite (IH d (rev f :: r) after K).
      * cbn [rev]. rewrite <- app_assoc. reflexivity.
      * inversion F; assumption.
      * assert (L : last (d :: cs) d = last (c :: d :: cs) c).
        { cbn [last]. clear. revert d c. destruct cs as [|e cs]; [reflexivity|]. intros d c.
          revert e. induction cs as [|g cs IH]; intros e; [reflexivity|]. apply IH. }
        rewrite L. split; [exact N|]. split; assumption.
    + intros _ f. change (tok QuoteInQuoted f r (sep :: write_cells d cs ++ after)) with (tok StartField [] (rev f :: r) (write_cells d cs ++ after)).
      rewrite (IH d (rev f :: r) after K).
      * cbn [rev]. rewrite <- app_assoc. reflexivity.
      * inversion F; assumption.
      * assert (L : last (d :: cs) d = last (c :: d :: cs) c).
        { cbn [last]. clear. revert d c. destruct cs as [|e cs]; [reflexivity|]. intros d c.
          revert e. induction cs as [|g cs IH]; intros e; [reflexivity|]. apply IH. }
        rewrite L. split; [exact N|]. split; assumption.
Qed.

(** The start of a line. *)
Lemma white_run s : forall f t, bare s -> (exists x, In x s /\ ~ blank x) \/ (exists x t', t = x :: t' /\ x <> newline /\ x <> carriage /\ ~ blank x) ->
  tok WhitespaceLine f [] (s ++ t) = tok InField f [] (s ++ t).
Proof.
  induction s as [|x s IH]; intros f t B H.
  - destruct H as [(x & [] & _)|(x & t' & -> & N & NC & NB)]. cbn [app tok]. rewrite (eqb_no _ _ N), (eqb_no _ _ NC).
    destruct (is_blank x) eqn:E; [apply blank_iff in E; contradiction|]. reflexivity.
  - destruct (bare_cons _ _ B) as ((N1 & N2 & N3 & N4) & B'). cbn [app tok].
    rewrite (eqb_no _ _ N1), (eqb_no _ _ N4), (eqb_no _ _ N2), (eqb_no _ _ N3).
    destruct (is_blank x) eqn:E; [|reflexivity].
    apply IH; [assumption|]. destruct H as [(y & [->|I] & NB)|H]; [apply blank_iff in E; contradiction| |right; exact H].
    left. exists y. split; assumption.
Qed.

Lemma record_start c cs after :
  Forall cell_ok (c :: cs) -> (cs = [] -> match c with Plain s => exists x, In x s /\ ~ blank x | Quoted _ => True end) ->
  tok StartRecord [] [] (write_cells c cs ++ after) = tok StartField [] [] (write_cells c cs ++ after).
Proof.
  intros F H. apply Forall_inv in F. unfold write_cells. rewrite <- app_assoc.
  set (t := flat_map (fun x => sep :: written x) cs ++ after). destruct c as [s|s]; [|reflexivity].
  cbn [written]. destruct F as (C1 & C2 & C3 & C5 & C4).
  assert (B : bare s) by (repeat split; assumption).
  assert (W : (exists x, In x s /\ ~ blank x) \/ (exists t', t = sep :: t')).
  { destruct cs as [|d cs]; [left; apply H; reflexivity|]. right. eexists. reflexivity. }
  clearbody t. destruct s as [|x s].
  - destruct W as [(x & [] & _)|(t' & ->)]. reflexivity.
  - destruct (bare_cons _ _ B) as ((N1 & N2 & N3 & N4) & B'). cbn [app tok].
    rewrite (eqb_no _ _ N1), (eqb_no _ _ N4), (eqb_no _ _ N2), (eqb_no _ _ N3).
    destruct (is_blank x) eqn:E.
    + rewrite (eqb_no x quote) by (intros ->; discriminate E).
      apply white_run; [assumption|]. destruct W as [(y & [->|I] & NB)|(t' & ->)]; [apply blank_iff in E; contradiction| |].
      * left. exists y. split; assumption.
      * right. exists sep, t'. split; [reflexivity|]. split; [discriminate|]. split; [discriminate|]. intros [X|X]; discriminate X.
    + reflexivity.
Qed.

(** How a line ends: with a newline and the rest of the file, or with the file. *)
Definition rest (k : option (line_end * str)) : str := match k with Some (e, t) => write_end e ++ t | None => [] end.
Definition then_ (k : option (line_end * str)) : res (list (list str)) := match k with Some (_, t) => tok StartRecord [] [] t | None => Ok [] end.

Lemma rev_snoc {A} (a : A) l : rev (a :: l) = rev l ++ [a].
Proof. reflexivity. Qed.

Lemma ends_plain k : ends True (rest k) (fun l => emit l (then_ k)).
Proof.
  destruct k as [[[|] t]|]; (split; [intros t' E; discriminate E|]; split; [|intros _]); intros f r; reflexivity.
Qed.

Lemma eat_comment n : forall r k, ~ In nl n -> ~ In ret n -> tok EatComment [] r (n ++ rest k) = emit (rev r) (then_ k).
Proof.
  induction n as [|x n IH]; intros r k N R.
  - destruct k as [[[|] t]|]; reflexivity.
  - cbn [app tok]. rewrite (eqb_no x newline) by (intros ->; apply N; left; reflexivity). rewrite (eqb_no x carriage) by (intros ->; apply R; left; reflexivity).
    apply IH; intros I; [apply N|apply R]; right; exact I.
Qed.

Lemma ends_remark n k : ~ In nl n -> ~ In ret n -> ends False (sharp :: n ++ rest k) (fun l => emit l (then_ k)).
Proof.
  intros N R. split; [intros t' E; discriminate E|]. split; [|intros []]. intros f r.
  change (tok InField f r (sharp :: n ++ rest k)) with (tok EatComment [] (rev f :: r) (n ++ rest k)).
  apply eat_comment; assumption.
Qed.

Lemma eat_line n : forall k, ~ In nl n -> ~ In ret n -> tok EatLineComment [] [] (n ++ rest k) = then_ k.
Proof.
  induction n as [|x n IH]; intros k N R.
  - destruct k as [[[|] t]|]; reflexivity.
  - cbn [app tok]. rewrite (eqb_no x newline) by (intros ->; apply N; left; reflexivity). rewrite (eqb_no x carriage) by (intros ->; apply R; left; reflexivity).
    apply IH; intros I; [apply N|apply R]; right; exact I.
Qed.

Lemma white_line s : forall f k, (forall x, In x s -> blank x) -> tok WhitespaceLine f [] (s ++ rest k) = then_ k.
Proof.
  induction s as [|x s IH]; intros f k B.
  - destruct k as [[[|] t]|]; reflexivity.
  - cbn [app tok]. assert (E : is_blank x = true) by (apply blank_iff, B; left; reflexivity).
    rewrite (eqb_no x newline), (eqb_no x carriage) by (intros ->; discriminate E). rewrite E.
    apply IH. intros y I. apply B. right. exact I.
Qed.

Lemma line_run l k : line_ok l ->
  tok StartRecord [] [] (write_line l ++ rest k) = fold_right emit (then_ k) (line_row l).
Proof.
  destruct l as [c cs [n|]|s|s]; cbn [line_ok write_line line_row fold_right].
  - intros (F & H & N & R & L). rewrite <- app_assoc. cbn [app]. rewrite record_start by assumption.
    rewrite (cells_run cs c [] _ (fun l => emit l (then_ k))); [reflexivity|assumption|].
    destruct (ends_remark n k N R) as (E1 & E2 & _). split; [exact E1|]. split; [exact E2|].
    intros X. exfalso. destruct (last (c :: cs) c); [exact X|exact L].
  - intros (F & H & _). rewrite record_start by assumption.
    rewrite (cells_run cs c [] _ (fun l => emit l (then_ k))); [reflexivity|assumption|].
    destruct (ends_plain k) as (E1 & E2 & E3). split; [exact E1|]. split; [exact E2|]. intros _. exact (E3 I).
  - intros B. destruct s as [|x s].
    + destruct k as [[[|] t]|]; reflexivity.
    + cbn [app tok]. assert (E : is_blank x = true) by (apply blank_iff, B; left; reflexivity).
      rewrite (eqb_no x newline), (eqb_no x carriage), (eqb_no x hash) by (intros ->; discriminate E). rewrite E.
      apply white_line. intros y J. apply B. right. exact J.
  - intros (N & R). change (tok StartRecord [] [] ((sharp :: s) ++ rest k)) with (tok EatLineComment [] [] (s ++ rest k)).
    apply eat_line; assumption.
Qed.

Lemma file_run doc unended : (forall l, In l (all_lines doc unended) -> line_ok l) ->
  tokenize (write_file doc unended) = Ok (file_rows doc unended).
Proof.
  unfold tokenize, write_file, file_rows, all_lines. induction doc as [|[l e] doc IH]; intros H.
  - cbn [flat_map map app]. destruct unended as [l|]; [|reflexivity].
    pose proof (line_run l None (H l (or_introl eq_refl))) as E. cbn [rest] in E. rewrite app_nil_r in E. rewrite E.
    destruct l; reflexivity.
  - cbn [flat_map map app fst snd]. rewrite <- !app_assoc.
    set (t := flat_map (fun l0 => write_line (fst l0) ++ write_end (snd l0)) doc ++ match unended with Some l1 => write_line l1 | None => [] end) in *.
    change (write_end e ++ t) with (rest (Some (e, t))).
    rewrite line_run by (apply H; left; reflexivity). cbn [then_]. rewrite IH by (intros l' I; apply H; right; exact I).
    destruct l; reflexivity.
Qed.

(** ** The table. *)
Lemma read_rows text h ds : holds text h ds -> within h ds -> read_csv text = Ok (h, map (fit (length h)) ds).
Proof.
  intros (doc & un & -> & L & R) W. unfold read_csv. rewrite file_run by assumption. rewrite R. cbn [bind].
  match goal with |- (if ?b then _ else _) = _ => destruct b eqn:E; [|reflexivity] end. exfalso.
  apply existsb_exists in E. destruct E as (d & I & E). apply Nat.ltb_lt in E. destruct ds as [|d0 ds]; [destruct I|].
  cbn [within] in W. destruct (W d I); lia.
Qed.

Lemma fit_nth n d i : (i < n)%nat -> nth i (fit n d) [] = nth i d [].
Proof.
  intros H. unfold fit. etransitivity; [apply TcutProofs.nth_firstn; exact H|].
  destruct (Nat.lt_ge_cases i (length d)) as [L|L].
  - apply app_nth1. exact L.
  - rewrite app_nth2 by exact L. rewrite (nth_overflow d) by exact L. apply nth_repeat.
Qed.

Lemma str_eqb_iff a b : str_eqb a b = true <-> a = b.
Proof. unfold str_eqb. destruct (list_eq_dec ascii_dec a b); split; congruence. Qed.

Lemma col_index_some h : forall i name, headed h name i -> col_index (lit name) h = Some i.
Proof.
  induction h as [|x h IH]; intros i name (N & F).
  - destruct i; discriminate N.
  - cbn [col_index]. destruct i as [|i].
    + cbn in N. injection N as ->. rewrite (proj2 (str_eqb_iff _ _) eq_refl). reflexivity.
    + destruct (str_eqb x (lit name)) eqn:E.
      * apply str_eqb_iff in E. subst x. exfalso. apply (F O); [lia|reflexivity].
      * rewrite (IH i name); [reflexivity|]. split; [exact N|]. intros j L. apply (F (S j)). lia.
Qed.
Lemma col_index_none h : forall name, ~ In (lit name) h -> col_index (lit name) h = None.
Proof.
  induction h as [|x h IH]; intros name N; [reflexivity|]. cbn [col_index]. destruct (str_eqb x (lit name)) eqn:E.
  - apply str_eqb_iff in E. exfalso. apply N. left. exact E.
  - rewrite IH; [reflexivity|]. intros I. apply N. right. exact I.
Qed.
Lemma headed_exists h : forall name, In (lit name) h -> exists i, headed h name i.
Proof.
  induction h as [|x h IH]; intros name I; [destruct I|].
  destruct (list_eq_dec ascii_dec x (lit name)) as [->|N].
  - exists O. split; [reflexivity|]. intros j L. lia.
  - destruct I as [E|I]; [contradiction|]. destruct (IH name I) as (i & H1 & H2). exists (S i). split; [exact H1|].
    intros [|j] L; [cbn; congruence|]. apply H2. lia.
Qed.
Lemma headed_in h name i : headed h name i -> In (lit name) h.
Proof. intros (H & _). apply nth_error_In in H. exact H. Qed.

Lemma column_rows h ds name i : headed h name i -> column (lit name) h (map (fit (length h)) ds) = Ok (map (field i) ds).
Proof.
  intros H. unfold column. rewrite (col_index_some h i name H). f_equal. rewrite map_map. apply map_ext. intros d.
  apply fit_nth. apply nth_error_Some. destruct H as (-> & _). discriminate.
Qed.

Lemma table_rows num_of value f text h ds i j :
  holds text h ds -> within h ds -> headed h "CATEGORY" i -> headed h value j ->
  table_of num_of (lit value) f text =
  match num_col num_of (map (field j) ds) with
  | None => Err TypeError
  | Some vs => match num_col num_of (map (field i) ds) with None => Ok [] | Some cs => Ok (keyed cs (map f vs)) end
  end.
Proof.
  intros H W Hi Hj. unfold table_of. rewrite (read_rows text h ds H W). cbn [bind fst snd].
  destruct ds as [|d ds]; [reflexivity|].
  rewrite (column_rows h (d :: ds) "CATEGORY" i Hi), (column_rows h (d :: ds) value j Hj). reflexivity.
Qed.

Definition known (o : option num) : num := match o with Some x => x | None => NaN end.
Lemma num_col_some num_of i ds : numeric num_of i ds ->
  num_col num_of (map (field i) ds) = Some (map (fun d => known (num_of (field i d))) ds).
Proof.
  induction ds as [|d ds IH]; intros H; [reflexivity|]. cbn [map num_col].
  destruct (H d (or_introl eq_refl)) as (x & ->). rewrite IH by (intros d' I; apply H; right; exact I). reflexivity.
Qed.
Lemma num_col_none num_of i ds d : In d ds -> num_of (field i d) = None -> num_col num_of (map (field i) ds) = None.
Proof.
  induction ds as [|e ds IH]; intros I E; [destruct I|]. cbn [map num_col]. destruct I as [->|I].
  - rewrite E. reflexivity.
  - rewrite (IH I E). destruct (num_of (field i e)); reflexivity.
Qed.

Lemma cat_key_iff x z : cat_key x = Some z <-> exists q, x = Num q /\ (q == inject_Z z)%Q.
Proof.
  split.
  - destruct x as [|q]; [discriminate|]. unfold cat_key. destruct (Qeq_bool q (inject_Z (Qfloor q))) eqn:E; [|discriminate].
    intros [= <-]. exists q. split; [reflexivity|]. apply Qeq_bool_iff. exact E.
  - intros (q & -> & E). unfold cat_key. assert (F : Qfloor q = z) by (rewrite (Qfloor_comp _ _ E); apply Qfloor_Z).
    rewrite F. rewrite (proj2 (Qeq_bool_iff q (inject_Z z)) E). reflexivity.
Qed.

Definition entry (num_of : str -> option num) (f : num -> num) (i j : nat) (d : list str) : list (Z * num) :=
  match cat_key (known (num_of (field i d))) with Some z => [(z, f (known (num_of (field j d))))] | None => [] end.
Lemma keyed_rows num_of f i j ds :
  keyed (map (fun d => known (num_of (field i d))) ds) (map f (map (fun d => known (num_of (field j d))) ds)) =
  flat_map (entry num_of f i j) ds.
Proof.
  induction ds as [|d ds IH]; [reflexivity|]. cbn [map keyed flat_map]. unfold entry at 1.
  destruct (cat_key _); rewrite IH; reflexivity.
Qed.
Lemma entry_about num_of f i j d z : In z (map fst (entry num_of f i j d)) <-> about num_of i z d.
Proof.
  unfold entry, about. destruct (cat_key (known (num_of (field i d)))) as [z'|] eqn:E.
  - apply cat_key_iff in E. destruct E as (q & E & Q). unfold known in E.
    destruct (num_of (field i d)) as [x|] eqn:N; [|discriminate E]. subst x. cbn. split.
    + intros [<-|[]]. exists q. split; [reflexivity|exact Q].
    + intros (q' & [= <-] & Q'). left. apply inject_Z_injective. rewrite <- Q. exact Q'.
  - split; [intros []|]. intros (q & N & Q). rewrite N in E. cbn [known] in E.
    assert (X : cat_key (Num q) = Some z) by (apply cat_key_iff; exists q; split; [reflexivity|exact Q]). rewrite E in X. discriminate X.
Qed.
Lemma rows_about num_of f i j ds z : In z (map fst (flat_map (entry num_of f i j) ds)) <-> exists d, In d ds /\ about num_of i z d.
Proof.
  induction ds as [|d ds IH]; cbn [flat_map map].
  - split; [intros []|intros (d & [] & _)].
  - rewrite map_app, in_app_iff, entry_about, IH. split.
    + intros [A|(e & I & A)]; [exists d; split; [left; reflexivity|exact A]|exists e; split; [right; exact I|exact A]].
    + intros (e & [->|I] & A); [left; exact A|right; exists e; split; assumption].
Qed.

Lemma rows_last num_of f i j ds z d x acc :
  last_about num_of i z ds d -> num_of (field j d) = Some x ->
  fold_left (fun acc row => if z =? fst row then snd row else acc) (flat_map (entry num_of f i j) ds) acc = f x.
Proof.
  intros (l1 & l2 & -> & A & N) X. fold (reclass z (flat_map (entry num_of f i j) (l1 ++ d :: l2)) acc). apply reclass_last.
  rewrite flat_map_app. cbn [flat_map]. exists (flat_map (entry num_of f i j) l1), (flat_map (entry num_of f i j) l2). split.
  - f_equal. unfold entry at 1. rewrite X. destruct A as (q & A & Q). rewrite A. cbn [known].
    rewrite (proj2 (cat_key_iff (Num q) z)); [reflexivity|]. exists q. split; [reflexivity|exact Q].
  - intros I. apply rows_about in I. destruct I as (d' & I & A'). exact (N d' I A').
Qed.
Lemma rows_none num_of f i j ds z acc :
  (forall d, In d ds -> ~ about num_of i z d) ->
  fold_left (fun acc row => if z =? fst row then snd row else acc) (flat_map (entry num_of f i j) ds) acc = acc.
Proof.
  intros N. fold (reclass z (flat_map (entry num_of f i j) ds) acc). apply reclass_unlisted. intros I.
  apply rows_about in I. destruct I as (d & I & A). exact (N d I A).
Qed.
