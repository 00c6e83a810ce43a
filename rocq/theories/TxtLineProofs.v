From Coq Require Import Ascii String Lia.
From Verif Require Import Base BaseLemmas PyStr Rounding UtilModel TxtModel TxtSpec TerrSpec TxtProofs.
Open Scope Z_scope.

(** ** The characters of a number *)
Definition num_chars : str := lit "0123456789+-.ena".
Lemma digit_in c : is_digit c = true -> In c num_chars.
Proof. destruct c as [[] [] [] [] [] [] [] []]; cbn; intros H; try discriminate; tauto. Qed.
Lemma sci_chars p n k c : In c (show_sci p n k) -> In c num_chars.
Proof.
  unfold show_sci. rewrite !in_app_iff. intros [I|[I|[I|[I|[I|I]]]]].
  - apply digit_in. exact (digits_all _ _ _ I).
  - cbn in I. destruct I as [<-|[]]. cbn. tauto.
  - apply digit_in. exact (digits_all _ _ _ I).
  - cbn in I. destruct I as [<-|[]]. cbn. tauto.
  - destruct (k <? 0); cbn in I; destruct I as [<-|[]]; cbn; tauto.
  - apply digit_in. exact (digits_all _ _ _ I).
Qed.
Lemma show_chars p x c : In c (show p x) -> In c num_chars.
Proof.
  destruct x as [|q]; cbn [show]; [cbn; tauto|]. unfold show_e. destruct (Qeq_bool q 0); [apply sci_chars|]. destruct (Qltb q 0); [|apply sci_chars].
  intros I. apply in_app_or in I as [I|I]; [cbn in I; destruct I as [<-|[]]; cbn; tauto|exact (sci_chars _ _ _ _ I)].
Qed.
Lemma show_nonempty p x : show p x <> [].
Proof.
  assert (S : forall n k, show_sci p n k <> []). { intros n k E. unfold show_sci in E. apply app_eq_nil in E as [E _]. apply (f_equal (@length _)) in E. rewrite digits_length in E. discriminate. }
  destruct x as [|q]; cbn [show]; [discriminate|]. unfold show_e. destruct (Qeq_bool q 0); [apply S|]. destruct (Qltb q 0); [discriminate|apply S].
Qed.

(** ** Splitting *)
Lemma split_plain d s : ~ In d s -> split_at d s = [s].
Proof.
  induction s as [|c s IH]; cbn [split_at]; intros N; [reflexivity|]. destruct (Ascii.eqb_spec c d) as [->|]; [elim N; left; reflexivity|]. rewrite IH by (intros I; apply N; right; exact I). reflexivity.
Qed.
Lemma split_cons d s t : ~ In d s -> split_at d (s ++ d :: t) = s :: split_at d t.
Proof.
  induction s as [|c s IH]; cbn [app split_at]; intros N; [rewrite Ascii.eqb_refl; reflexivity|]. destruct (Ascii.eqb_spec c d) as [->|]; [elim N; left; reflexivity|]. rewrite IH by (intros I; apply N; right; exact I). reflexivity.
Qed.
Lemma split_joined d l : l <> [] -> (forall s, In s l -> ~ In d s) -> split_at d (joined d l) = l.
Proof.
  induction l as [|x l IH]; [congruence|]. intros _ H. destruct l as [|y l]; [apply split_plain, H; left; reflexivity|].
  change (joined d (x :: y :: l)) with (x ++ d :: joined d (y :: l)). rewrite split_cons by (apply H; left; reflexivity). rewrite IH; [reflexivity|discriminate|]. intros s I. apply H. right. exact I.
Qed.
Lemma joined_chars d l c : In c (joined d l) -> c = d \/ exists s, In s l /\ In c s.
Proof.
  induction l as [|x l IH]; [intros []|]. destruct l as [|y l]; [intros I; right; exists x; split; [left; reflexivity|exact I]|].
  change (joined d (x :: y :: l)) with (x ++ d :: joined d (y :: l)). intros I. apply in_app_or in I as [I|[<-|I]]; [right; exists x; split; [left; reflexivity|exact I]|auto|]. destruct (IH I) as [E|(s & A & B)]; [auto|]. right. exists s. split; [right; exact A|exact B].
Qed.
Lemma head_plain c s : ~ In c s -> split_head c s = s.
Proof. induction s as [|x s IH]; cbn [split_head]; intros N; [reflexivity|]. destruct (Ascii.eqb_spec x c) as [->|]; [elim N; left; reflexivity|]. rewrite IH by (intros I; apply N; right; exact I). reflexivity. Qed.

(** ** Blanks *)
Lemma trim_left_id c s : blank c = false -> trim_left (c :: s) = c :: s.
Proof. intros H. cbn [trim_left]. rewrite H. reflexivity. Qed.
Definition solid (s : str) : Prop := s <> [] /\ forall c, In c s -> blank c = false.
Lemma joined_first d l : l <> [] -> (forall s, In s l -> solid s) -> exists c t, joined d l = c :: t /\ blank c = false.
Proof.
  destruct l as [|x l]; [congruence|]. intros _ H. destruct (H x (or_introl eq_refl)) as [N B]. destruct x as [|c x]; [congruence|]. exists c. destruct l as [|y l]; (eexists; split; [reflexivity|apply B; left; reflexivity]).
Qed.
Lemma joined_last d l : l <> [] -> (forall s, In s l -> solid s) -> exists c t, joined d l = t ++ [c] /\ blank c = false.
Proof.
  induction l as [|x l IH]; [congruence|]. intros _ H. destruct l as [|y l].
  - destruct (H x (or_introl eq_refl)) as [N B]. destruct (exists_last N) as (t & c & E). exists c, t. split; [exact E|]. apply B. rewrite E. apply in_or_app. right. left. reflexivity.
  - destruct IH as (c & t & E & B); [discriminate|intros s I; apply H; right; exact I|]. exists c, (x ++ d :: t). split; [|exact B]. change (joined d (x :: y :: l)) with (x ++ d :: joined d (y :: l)). rewrite E. rewrite <- app_assoc. reflexivity.
Qed.
Lemma trim_joined d l : l <> [] -> (forall s, In s l -> solid s) -> trim (joined d l) = joined d l.
Proof.
  intros N H. destruct (joined_first d l N H) as (c & t & E & B). destruct (joined_last d l N H) as (c' & t' & E' & B'). unfold trim. rewrite E at 1. rewrite trim_left_id by exact B. rewrite <- E. rewrite E'. rewrite rev_app_distr. cbn [rev app]. rewrite trim_left_id by exact B'. cbn [rev]. rewrite rev_involutive. reflexivity.
Qed.

(** ** Lines *)
Lemma lines_cons s t : ~ In lf s -> ~ In cr s -> text_lines (s ++ lf :: t) = s :: text_lines t.
Proof.
  intros N C. induction s as [|c s IH]; [reflexivity|]. cbn [app text_lines].
  destruct (Ascii.eqb_spec c lf) as [->|]; [elim N; left; reflexivity|]. destruct (Ascii.eqb_spec c cr) as [->|]; [elim C; left; reflexivity|].
  rewrite IH; [reflexivity| |]; intros I; [apply N|apply C]; right; exact I.
Qed.
Lemma lines_rows {A} (f : A -> str) rows : (forall r, In r rows -> ~ In lf (f r) /\ ~ In cr (f r)) ->
  text_lines (flat_map (fun r => f r ++ [lf]) rows) = map f rows ++ [[]].
Proof.
  induction rows as [|r rows IH]; intros H; [reflexivity|]. cbn [flat_map map app]. rewrite <- app_assoc. cbn [app]. destruct (H r (or_introl eq_refl)). rewrite lines_cons by assumption. rewrite IH; [reflexivity|]. intros x I. apply H. right. exact I.
Qed.
Lemma split_count d s : length (split_at d s) = S (count_occ ascii_dec s d).
Proof.
  induction s as [|c s IH]; [reflexivity|]. cbn [split_at count_occ]. destruct (Ascii.eqb_spec c d) as [->|N]; destruct (ascii_dec _ d); try congruence; cbn [length]; [rewrite IH; reflexivity|].
  destruct (split_at d s); [discriminate|exact IH].
Qed.
Lemma comment_body h t : ~ In cr h -> exists a l, split_at lf h = a :: l /\ ~ In cr a /\
  text_lines (flat_map (fun c => if Ascii.eqb c lf then [lf; percent] else [c]) h ++ lf :: t) = a :: map (cons percent) l ++ text_lines t.
Proof.
  induction h as [|c h IH]; intros N; [exists [], []; auto|]. destruct IH as (a & l & E & Na & T); [intros I; apply N; right; exact I|].
  cbn [split_at flat_map]. rewrite E. destruct (Ascii.eqb_spec c lf) as [->|Nl].
  - exists [], (a :: l). split; [reflexivity|]. split; [intros []|]. cbn [app text_lines]. rewrite Ascii.eqb_refl. change (Ascii.eqb percent lf) with false. change (Ascii.eqb percent cr) with false. cbv iota. rewrite T. reflexivity.
  - exists (c :: a), l. split; [reflexivity|]. split; [intros [->|I]; [apply N; left; reflexivity|exact (Na I)]|]. cbn [app text_lines]. rewrite (proj2 (Ascii.eqb_neq c lf) Nl). destruct (Ascii.eqb_spec c cr) as [->|]; [elim N; left; reflexivity|]. rewrite T. reflexivity.
Qed.
Lemma comment_lines h t : ~ In cr h -> exists l, length l = header_lines h /\ text_lines (comment h ++ t) = map (cons percent) l ++ text_lines t.
Proof.
  intros N. destruct h as [|c h]; [exists []; auto|]. destruct (comment_body (c :: h) t N) as (a & l & E & _ & T). exists (a :: l). split.
  - rewrite <- E. unfold header_lines. apply split_count.
  - unfold comment. change (percent :: flat_map ?f (c :: h) ++ [lf]) with ([percent] ++ (flat_map f (c :: h) ++ [lf])). rewrite <- !app_assoc. cbn [app text_lines]. change (Ascii.eqb percent lf) with false. change (Ascii.eqb percent cr) with false. cbv iota.
    cbn [app] in T. rewrite T. reflexivity.
Qed.

(** ** Rows *)
Section Rows.
  Variable d : ascii.
  Hypothesis Hd : separates d.
  Variable p : nat.
  Lemma sep_num s x : In s (map (show p) x) -> solid s /\ ~ In d s /\ ~ In percent s /\ ~ In lf s /\ ~ In cr s.
  Proof.
    intros I. apply in_map_iff in I as (v & <- & _). assert (Ch := show_chars p v). destruct Hd as (D1 & _ & _).
    assert (Q : forall c, ~ In c num_chars -> ~ In c (show p v)) by (intros c N J; apply N, Ch, J).
    assert (NP : forall c, existsb (Ascii.eqb c) num_chars = false -> ~ In c (show p v)).
    { intros c E. apply Q. intros J. assert (X : existsb (Ascii.eqb c) num_chars = true) by (apply existsb_exists; exists c; split; [exact J|apply Ascii.eqb_refl]). congruence. }
    split; [split; [apply show_nonempty|]|].
    - intros c J. apply Ch in J. unfold num_chars in J. cbn in J. repeat (destruct J as [<-|J]; [reflexivity|]). destruct J.
    - split; [apply Q; intros J; apply D1; unfold num_chars in J; cbn in J |- *; tauto|]. split; [apply NP; reflexivity|]. split; apply NP; reflexivity.
  Qed.
  Lemma row_line row : ~ In lf (joined d (map (show p) row)) /\ ~ In cr (joined d (map (show p) row)) /\ ~ In percent (joined d (map (show p) row)).
  Proof.
    destruct Hd as (D1 & D2 & D3).
    assert (X : forall c, c <> d -> (forall s, In s (map (show p) row) -> ~ In c s) -> ~ In c (joined d (map (show p) row))).
    { intros c N A I. destruct (joined_chars _ _ _ I) as [->|(s & B & C)]; [congruence|]. exact (A s B C). }
    split; [apply X; [exact (fun E => D2 (eq_sym E))|intros s I; apply (sep_num s row I)]|]. split; [apply X; [exact (fun E => D3 (eq_sym E))|intros s I; apply (sep_num s row I)]|].
    apply X; [intros E; apply D1; rewrite <- E; cbn; tauto|intros s I; apply (sep_num s row I)].
  Qed.
  Lemma row_fields row : fields d (joined d (map (show p) row)) = map (show p) row.
  Proof.
    unfold fields. rewrite head_plain by apply row_line. destruct row as [|x row]; [reflexivity|]. assert (N : map (show p) (x :: row) <> []) by discriminate. assert (S : forall s, In s (map (show p) (x :: row)) -> solid s) by (intros s I; apply (sep_num s _ I)).
    rewrite trim_joined by assumption. destruct (joined_first d _ N S) as (c & t & E & _). rewrite E. rewrite <- E. apply split_joined; [exact N|]. intros s I. apply (sep_num s _ I).
  Qed.
  Definition nonempty {A} (r : list A) : bool := match r with [] => false | _ => true end.
  Lemma filter_none {A} (f : A -> bool) l : (forall x, In x l -> f x = false) -> filter f l = [].
  Proof. induction l as [|x l IH]; intros H; [reflexivity|]. cbn [filter]. rewrite (H x (or_introl eq_refl)). apply IH. intros y I. apply H. right. exact I. Qed.
  Lemma saved_rows header a skip : ~ In cr header -> (skip <= header_lines header)%nat ->
    filter nonempty (map (fields d) (skipn skip (text_lines (savetxt p d header a)))) = filter nonempty (map (map (show p)) (rows_of a)).
  Proof.
    intros N S. unfold savetxt. destruct (comment_lines header (flat_map (fun row => joined d (map (show p) row) ++ [lf]) (rows_of a)) N) as (l & L & E). rewrite E.
    rewrite (lines_rows (fun row => joined d (map (show p) row))) by (intros r _; split; apply row_line).
    rewrite skipn_app, map_length, L. replace (skip - header_lines header)%nat with O by lia. cbn [skipn]. rewrite map_app, filter_app.
    match goal with |- filter _ ?x ++ _ = _ => rewrite (filter_none nonempty x) end.
    2:{ intros x I. apply in_map_iff in I as (y & <- & I). assert (J : In y (map (cons percent) l)) by (rewrite <- (firstn_skipn skip (map (cons percent) l)); apply in_or_app; right; exact I). apply in_map_iff in J as (z & <- & _). reflexivity. }
    cbn [app]. rewrite map_app, filter_app. cbn [map filter fields split_head trim trim_left rev nonempty]. rewrite app_nil_r. rewrite map_map. f_equal. apply map_ext. apply row_fields.
  Qed.
End Rows.

(** ** The cells *)
Lemma read_show p x : storable x -> (16 <= p)%nat -> same_num (read_float (show p x)) x.
Proof.
  destruct x as [|q]; intros S P; [exact I|]. cbn [show]. destruct (read_show_e p q S P) as (y & E & X). rewrite E. exact X.
Qed.
Lemma read_row p row : Forall storable row -> (16 <= p)%nat -> Forall2 same_num (map read_float (map (show p) row)) row.
Proof. intros F P. induction F as [|x row S F IH]; cbn [map]; constructor; [apply read_show; assumption|exact IH]. Qed.
Lemma read_rows p c rows : matrix c rows -> (16 <= p)%nat -> Forall2 same_num (concat (map (map read_float) (map (map (show p)) rows))) (concat rows).
Proof.
  intros M P. induction rows as [|r rows IH]; cbn [map concat]; [constructor|]. apply Forall2_app; [apply read_row; [apply (M r (or_introl eq_refl))|exact P]|]. apply IH. intros x I. apply M. right. exact I.
Qed.
Lemma filter_all {A} (f : A -> bool) l : (forall x, In x l -> f x = true) -> filter f l = l.
Proof. induction l as [|x l IH]; intros H; [reflexivity|]. cbn [filter]. rewrite (H x (or_introl eq_refl)). f_equal. apply IH. intros y I. apply H. right. exact I. Qed.
Lemma load_saved p d header a skip c : separates d -> plain header -> (skip <= header_lines header)%nat -> (16 <= p)%nat ->
  rows_of a <> [] -> (0 < c)%nat -> matrix c (rows_of a) ->
  exists l, genfromtxt d skip (savetxt p d header a) = Ok (Arr (squeeze [length (rows_of a); c]) l) /\ Forall2 same_num l (concat (rows_of a)).
Proof.
  intros D N S P Ne C M. pose proof (saved_rows d D p header a skip N S) as R. rewrite (filter_all _ (map (map (show p)) (rows_of a))) in R.
  2:{ intros x I. apply in_map_iff in I as (r & <- & I). destruct (M r I) as [L _]. destruct r; [cbn in L; lia|reflexivity]. }
  unfold genfromtxt. change (fun r : list str => match r with [] => false | _ :: _ => true end) with (@nonempty str). rewrite R.
  destruct (rows_of a) as [|r rows] eqn:E; [congruence|]. destruct (M r (or_introl eq_refl)) as [L _]. cbn [map]. rewrite map_length, L.
  replace (forallb _ _) with true. 2:{ symmetry. apply forallb_forall. intros x I. change (map (show p) r :: map (map (show p)) rows) with (map (map (show p)) (r :: rows)) in I. apply in_map_iff in I as (r' & <- & I). rewrite map_length. apply Nat.eqb_eq. apply (M r' I). }
  cbn [length]. rewrite map_length. eexists. split; [reflexivity|]. exact (read_rows p c (r :: rows) M P).
Qed.

(** ** Skipped lines *)
Lemma skip_rows p d header a k : separates d -> plain header ->
  genfromtxt d (header_lines header + k) (savetxt p d header a) = genfromtxt d 0 (savetxt p d [] (Mat (skipn k (rows_of a)))).
Proof.
  intros D N. unfold genfromtxt, savetxt. cbn [comment app rows_of]. destruct (comment_lines header (flat_map (fun row => joined d (map (show p) row) ++ [lf]) (rows_of a)) N) as (l & L & E). rewrite E.
  rewrite !(lines_rows (fun row => joined d (map (show p) row))) by (intros r _; split; apply (row_line d D)).
  rewrite skipn_app, map_length, L. rewrite (skipn_all2 (map (cons percent) l)) by (rewrite map_length; lia). replace (header_lines header + k - header_lines header)%nat with k by lia. cbn [app].
  change (skipn 0 ?x) with x. rewrite skipn_app, map_length. rewrite skipn_map. set (F := fun r : list str => match r with [] => false | _ :: _ => true end).
  assert (Z0 : forall j, filter F (map (fields d) (skipn j [[]])) = []) by (intros [|[|j]]; reflexivity).
  rewrite !map_app, !filter_app, Z0. change (filter F (map (fields d) [[]])) with (@nil (list str)). rewrite !app_nil_r. reflexivity.
Qed.

(** ** Carriage returns *)
Lemma return_lines h t rest : ~ In cr h -> ~ In cr t -> ~ In lf t -> t <> [] ->
  exists l, text_lines (comment (h ++ cr :: t) ++ rest) = map (cons percent) l ++ t :: text_lines rest.
Proof.
  intros N C F Ne. assert (B : exists a l, text_lines (flat_map (fun c => if Ascii.eqb c lf then [lf; percent] else [c]) (h ++ cr :: t) ++ lf :: rest) = a :: map (cons percent) l ++ t :: text_lines rest).
  { induction h as [|c h IH]; cbn [app flat_map].
    - exists [], []. change (Ascii.eqb cr lf) with false. cbn [app text_lines map]. change (Ascii.eqb cr lf) with false. rewrite Ascii.eqb_refl.
      assert (Et : flat_map (fun c => if Ascii.eqb c lf then [lf; percent] else [c]) t = t).
      { clear - F. induction t as [|c t IH]; [reflexivity|]. cbn [flat_map]. destruct (Ascii.eqb_spec c lf) as [->|]; [elim F; left; reflexivity|]. cbn [app]. rewrite IH; [reflexivity|]. intros I. apply F. right. exact I. }
      rewrite Et. destruct t as [|c t]; [congruence|]. cbn [app]. destruct (Ascii.eqb_spec c lf) as [->|]; [elim F; left; reflexivity|]. change (c :: t ++ lf :: rest) with ((c :: t) ++ lf :: rest). rewrite lines_cons by assumption. reflexivity.
    - destruct IH as (a & l & T); [intros I; apply N; right; exact I|]. destruct (Ascii.eqb_spec c lf) as [->|Nl].
      + exists [], (a :: l). cbn [app text_lines]. rewrite Ascii.eqb_refl. change (Ascii.eqb percent lf) with false. change (Ascii.eqb percent cr) with false. cbv iota. rewrite T. reflexivity.
      + exists (c :: a), l. cbn [app text_lines]. rewrite (proj2 (Ascii.eqb_neq c lf) Nl). destruct (Ascii.eqb_spec c cr) as [->|]; [elim N; left; reflexivity|]. rewrite T. reflexivity. }
  destruct B as (a & l & T). exists (a :: l). assert (Ec : exists f s, h ++ cr :: t = f :: s) by (destruct h; eexists; eexists; reflexivity). destruct Ec as (f & s & Ec). unfold comment. rewrite Ec in *.
  change (percent :: flat_map ?g (f :: s) ++ [lf]) with ([percent] ++ (flat_map g (f :: s) ++ [lf])). rewrite <- !app_assoc. cbn [app text_lines]. change (Ascii.eqb percent lf) with false. change (Ascii.eqb percent cr) with false. cbv iota.
  cbn [app] in T. rewrite T. reflexivity.
Qed.
Lemma return_rows p d h t a : separates d -> ~ In cr h -> ~ In cr t -> ~ In lf t -> fields d t <> [] ->
  filter nonempty (map (fields d) (text_lines (savetxt p d (h ++ cr :: t) a))) = fields d t :: filter nonempty (map (map (show p)) (rows_of a)).
Proof.
  intros D N C F Ne. assert (Tn : t <> []) by (intros ->; apply Ne; reflexivity). unfold savetxt.
  destruct (return_lines h t (flat_map (fun row => joined d (map (show p) row) ++ [lf]) (rows_of a)) N C F Tn) as (l & E). rewrite E.
  rewrite (lines_rows (fun row => joined d (map (show p) row))) by (intros r _; split; apply (row_line d D)).
  rewrite map_app, filter_app. match goal with |- filter _ ?x ++ _ = _ => rewrite (filter_none nonempty x) end.
  2:{ intros x I. apply in_map_iff in I as (y & <- & I). apply in_map_iff in I as (z & <- & _). reflexivity. }
  cbn [app map filter]. destruct (fields d t) as [|f fs] eqn:Ef; [congruence|]. cbn [nonempty]. f_equal.
  rewrite map_app, filter_app. cbn [map filter fields split_head trim trim_left rev nonempty]. rewrite app_nil_r. rewrite map_map. f_equal. apply map_ext. apply (row_fields d D).
Qed.
