(** * Proofs for reading text files (C105). *)
From Coq Require Import Ascii String Lia Lqa Qabs.
From Verif Require Import Base BaseLemmas PyStr Rounding UtilModel TxtModel TxtSpec TxtReadSpec TxtProofs TxtLineProofs.
Open Scope Z_scope.

(** ** Digits *)
Lemma digit_text n : 0 <= n <= 9 -> is_digit (ascii_of_nat (Z.to_nat (48 + n))) = true /\ Z.of_nat (nat_of_ascii (ascii_of_nat (Z.to_nat (48 + n)))) - 48 = n.
Proof. intros H. apply (digit_ok n). lia. Qed.
Lemma digits_text_all l : all_digit l -> all_digits (digits_text l).
Proof. intros A c I. apply in_map_iff in I as (n & <- & I). apply digit_text. exact (A n I). Qed.
Lemma digits_text_len l : zlen (digits_text l) = zlen l.
Proof. unfold zlen, digits_text. rewrite map_length. reflexivity. Qed.
Lemma digits_text_value l : all_digit l -> value (digits_text l) = whole l.
Proof.
  intros A. unfold value, whole, digits_text. generalize 0 as a. induction l as [|n l IH]; intros a; [reflexivity|]. cbn [map fold_left]. rewrite (proj2 (digit_text n (A n (or_introl eq_refl)))). apply IH. intros k I. apply A. right. exact I.
Qed.
Lemma digits_first l : l <> [] -> all_digit l -> exists c s, digits_text l = c :: s /\ is_digit c = true.
Proof. destruct l as [|n l]; [congruence|]. intros _ A. eexists. eexists. split; [reflexivity|]. apply digit_text, A. left. reflexivity. Qed.
Lemma sign_read s c t : is_digit c = true \/ c = "."%char -> signed (sign_text s ++ c :: t) = (match s with Minus => true | _ => false end, c :: t).
Proof. intros [H| ->]; destruct s; cbn [sign_text lit list_ascii_of_string app signed]; try reflexivity. apply signed_digit. exact H. Qed.

(** ** Numbers *)
Definition tail_text (e : option (bool * sign * list Z)) : str :=
  match e with Some (capital, s, l) => (if capital : bool then "E"%char else "e"%char) :: sign_text s ++ digits_text l | None => [] end.
Definition mid_text (f : option (list Z)) : str := match f with Some l => "."%char :: digits_text l | None => [] end.
Lemma tail_read e : match e with Some (_, _, l) => l <> [] /\ all_digit l | None => True end ->
  exponent (tail_text e) = Some (match e with Some (_, Minus, l) => - whole l | Some (_, _, l) => whole l | None => 0 end).
Proof.
  destruct e as [[[b s] l]|]; [|reflexivity]. intros (N & A). destruct (digits_first l N A) as (c & t & E & C). pose proof (span_digits_end _ (digits_text_all l A)) as S. pose proof (digits_text_value l A) as V. cbn [tail_text].
  rewrite E in *. destruct b; cbn [exponent]; rewrite sign_read by auto; rewrite S, V; destruct s; reflexivity.
Qed.
Lemma tail_first e : forall c s, tail_text e = c :: s -> is_digit c = false /\ c <> "."%char.
Proof. intros c s. destruct e as [[[[] t] l]|]; [| |discriminate]; intros [= <- _]; split; try reflexivity; discriminate. Qed.
Lemma point_match {A} (c : ascii) s (f g : A) : c <> "."%char -> match c :: s with "."%char :: _ => f | _ => g end = g.
Proof. intros N. destruct c as [[] [] [] [] [] [] [] []]; try reflexivity. congruence. Qed.
Lemma decimal_read x : proper x -> exists q, read_float (decimal_text x) = Num (to_double q) /\ (q == decimal_value x)%Q.
Proof.
  intros (Aw & Af & Ne & Ae). change (decimal_text x) with (sign_text (d_sign x) ++ digits_text (d_whole x) ++ mid_text (d_frac x) ++ tail_text (d_exp x)). pose proof (tail_read _ Ae) as T. pose proof (tail_first (d_exp x)) as F. fold (power x) in T. set (tl := tail_text (d_exp x)) in *.
  set (mid := mid_text (d_frac x)) in *.
  assert (Sg : signed (sign_text (d_sign x) ++ digits_text (d_whole x) ++ mid ++ tl) = (match d_sign x with Minus => true | _ => false end, digits_text (d_whole x) ++ mid ++ tl)).
  { destruct (d_whole x) as [|n w] eqn:Ew.
    - destruct Ne as [Ne|Ne]; [congruence|]. unfold mid, mid_text, frac_digits in *. destruct (d_frac x) as [l|]; [|congruence]. cbn [digits_text map app]. apply sign_read. auto.
    - rewrite <- Ew in *. destruct (digits_first (d_whole x)) as (c & t & E & C); [rewrite Ew; discriminate|exact Aw|]. rewrite E. cbn [app]. apply sign_read. auto. }
  assert (Sp : span (digits_text (d_whole x) ++ mid ++ tl) = (digits_text (d_whole x), mid ++ tl)).
  { apply span_digits; [apply digits_text_all; exact Aw|]. unfold mid, mid_text. destruct (d_frac x) as [l|]; [intros c s [= <- _]; reflexivity|]. cbn [app]. intros c s E. apply (F c s E). }
  assert (Fr : match mid ++ tl with "."%char :: s' => span s' | _ => ([], mid ++ tl) end = (digits_text (frac_digits x), tl)).
  { unfold mid, mid_text, frac_digits in *. destruct (d_frac x) as [l|]; cbn [app].
    - apply span_digits; [apply digits_text_all; exact Af|]. intros c s E. apply (F c s E).
    - destruct tl as [|c s] eqn:Et; [reflexivity|]. destruct (F c s eq_refl) as [_ N]. clear - N. destruct c as [[] [] [] [] [] [] [] []]; try reflexivity. congruence. }
  assert (Ds : digits_text (d_whole x) ++ digits_text (frac_digits x) <> []).
  { intros E. apply app_eq_nil in E as [E1 E2]. destruct Ne as [Ne|Ne]; [destruct (d_whole x)|destruct (frac_digits x)]; congruence || discriminate. }
  assert (V : value (digits_text (d_whole x) ++ digits_text (frac_digits x)) = whole (d_whole x) * 10 ^ zlen (frac_digits x) + whole (frac_digits x)) by (rewrite value_app, digits_text_len, !digits_text_value by assumption; reflexivity).
  unfold read_float. rewrite Sg, Sp. unfold str in *. rewrite Fr, T. destruct (digits_text (d_whole x) ++ digits_text (frac_digits x)) as [|c s]; [congruence|]. rewrite V, digits_text_len. eexists. split; [reflexivity|].
  assert (Q : (inject_Z (whole (d_whole x) * 10 ^ zlen (frac_digits x) + whole (frac_digits x)) * p10 (power x - zlen (frac_digits x)) == (inject_Z (whole (d_whole x)) + inject_Z (whole (frac_digits x)) / 10 ^ zlen (frac_digits x)) * 10 ^ power x)%Q).
  { set (k := zlen (frac_digits x)). assert (K : 0 <= k) by (unfold k, zlen; lia). unfold Z.sub. rewrite p10_add. rewrite inject_Z_plus, inject_Z_mult, <- p10_Z by exact K. unfold Qdiv. fold (p10 k). fold (p10 (power x)). pose proof (p10_pos k) as P. pose proof (p10_inv k) as I.
    assert (J : (/ p10 k == p10 (- k))%Q). { rewrite <- (Qmult_1_l (/ p10 k)), <- I, (Qmult_comm (p10 k)), <- Qmult_assoc, Qmult_inv_r by lra. ring. } rewrite J.
    transitivity ((inject_Z (whole (d_whole x)) * (p10 k * p10 (- k)) + inject_Z (whole (frac_digits x)) * p10 (- k)) * p10 (power x))%Q; [ring|]. rewrite I. ring. }
  unfold decimal_value, negated. destruct (d_sign x); rewrite Q; reflexivity.
Qed.
Lemma decimal_nearest x : proper x -> moderate x -> reads_as x (read_float (decimal_text x)).
Proof.
  intros P M. destruct (decimal_read x P) as (q & E & V). rewrite E. cbn [reads_as]. assert (B : (Qabs q < inject_Z (2 ^ 54 - 1) * p2 970)%Q).
  { rewrite V. apply Qle_lt_trans with (1 := M). reflexivity. }
  destruct (to_double_spec q B) as [D N]. split; [exact D|]. intros z Z. rewrite <- V. exact (N z Z).
Qed.

(** ** Characters *)
Definition dec_chars : str := lit "0123456789+-.eE".
Lemma digits_chars l c : all_digit l -> In c (digits_text l) -> In c dec_chars.
Proof. intros A I. apply digits_text_all in I; [|exact A]. revert I. clear. destruct c as [[] [] [] [] [] [] [] []]; cbn; intros H; try discriminate; tauto. Qed.
Lemma sign_chars s c : In c (sign_text s) -> In c dec_chars.
Proof. destruct s; cbn; intuition (subst; tauto). Qed.
Lemma decimal_chars x c : proper x -> In c (decimal_text x) -> In c dec_chars.
Proof.
  intros (Aw & Af & _ & Ae). unfold decimal_text. rewrite !in_app_iff. intros [I|[I|[I|I]]].
  - exact (sign_chars _ _ I).
  - exact (digits_chars _ _ Aw I).
  - unfold frac_digits in Af. destruct (d_frac x) as [l|]; [|destruct I]. destruct I as [<-|I]; [cbn; tauto|exact (digits_chars _ _ Af I)].
  - destruct (d_exp x) as [[[b s] l]|]; [|destruct I]. destruct I as [<-|I]; [destruct b; cbn; tauto|]. apply in_app_or in I as [I|I]; [exact (sign_chars _ _ I)|exact (digits_chars _ _ (proj2 Ae) I)].
Qed.
Lemma decimal_solid x : proper x -> solid (decimal_text x) /\ ~ In percent (decimal_text x) /\ ~ In lf (decimal_text x) /\ ~ In cr (decimal_text x).
Proof.
  intros P. assert (NP : forall c, existsb (Ascii.eqb c) dec_chars = false -> ~ In c (decimal_text x)).
  { intros c E J. apply (decimal_chars x c P) in J. assert (X : existsb (Ascii.eqb c) dec_chars = true) by (apply existsb_exists; exists c; split; [exact J|apply Ascii.eqb_refl]). congruence. }
  split; [split|].
  - intros E. destruct (decimal_read x P) as (q & R & _). rewrite E in R. discriminate.
  - intros c J. apply (decimal_chars x c P) in J. unfold dec_chars in J. cbn in J. repeat (destruct J as [<-|J]; [reflexivity|]). destruct J.
  - split; [apply NP; reflexivity|]. split; apply NP; reflexivity.
Qed.
Lemma between_joined d l : between d l = joined d l.
Proof. induction l as [|x l IH]; [reflexivity|]. cbn [between joined]. destruct l; [reflexivity|]. rewrite IH. reflexivity. Qed.

(** ** Lines *)
Lemma trim_left_blanks n s : trim_left (blanks n ++ s) = trim_left s.
Proof. induction n as [|n IH]; [reflexivity|]. cbn. exact IH. Qed.
Lemma rev_blanks n : rev (blanks n) = blanks n.
Proof. unfold blanks. induction n as [|n IH]; [reflexivity|]. cbn [repeat rev]. rewrite IH. clear IH. induction n as [|n IH]; [reflexivity|]. cbn [repeat app]. rewrite IH. reflexivity. Qed.
Lemma trim_blanks a b s : s <> [] -> trim s = s -> trim (blanks a ++ s ++ blanks b) = s.
Proof.
  intros N T. unfold trim in *. rewrite trim_left_blanks. assert (L : trim_left s = s).
  { destruct s as [|c s]; [reflexivity|]. destruct (blank c) eqn:B; [|apply trim_left_id; exact B]. exfalso.
    assert (Le : forall t, (length (trim_left t) <= length t)%nat) by (clear; induction t as [|c t IH]; [auto|]; cbn [trim_left]; destruct (blank c); cbn [length]; lia).
    apply (f_equal (@length _)) in T. rewrite rev_length in T. pose proof (Le (rev (trim_left (c :: s)))) as X. rewrite rev_length in X. cbn [trim_left] in *. rewrite B in *. pose proof (Le s). cbn [length] in *. lia. }
  assert (L2 : trim_left (s ++ blanks b) = s ++ blanks b).
  { destruct s as [|c s]; [congruence|]. cbn [app]. cbn [trim_left] in L |- *. destruct (blank c); [|reflexivity]. exfalso. assert (Le : forall t, (length (trim_left t) <= length t)%nat) by (clear; induction t as [|c t IH]; [auto|]; cbn [trim_left]; destruct (blank c); cbn [length]; lia).
    pose proof (Le s). rewrite L in H. cbn in H. lia. }
  rewrite L2, rev_app_distr, rev_blanks, trim_left_blanks. rewrite L in T. exact T.
Qed.
Lemma trim_all_blanks n : trim (blanks n) = [].
Proof. unfold trim. rewrite <- (app_nil_r (blanks n)), trim_left_blanks. reflexivity. Qed.
Lemma head_cut s t : ~ In percent s -> split_head percent (s ++ percent :: t) = s.
Proof. induction s as [|x s IH]; intros N; cbn [app split_head]; [rewrite Ascii.eqb_refl; reflexivity|]. destruct (Ascii.eqb_spec x percent) as [->|]; [elim N; left; reflexivity|]. rewrite IH by (intros I; apply N; right; exact I). reflexivity. Qed.
Lemma blanks_chars n c : In c (blanks n) -> c = " "%char.
Proof. intros I. apply repeat_spec in I. exact I. Qed.

Section File.
  Variable d : ascii.
  Hypothesis Hd : divides d.
  Lemma sep_dec x : proper x -> ~ In d (decimal_text x).
  Proof. intros P I. apply (decimal_chars x d P) in I. destruct Hd as (D & _). apply D. unfold dec_chars in I. cbn in I |- *. tauto. Qed.
  Lemma body_plain l c : (forall x, In x l -> proper x) -> c <> d -> (forall x, proper x -> ~ In c (decimal_text x)) -> ~ In c (between d (map decimal_text l)).
  Proof.
    intros P N H I. rewrite between_joined in I. destruct (joined_chars _ _ _ I) as [->|(s & A & B)]; [congruence|]. apply in_map_iff in A as (x & <- & A). exact (H x (P x A) B).
  Qed.
  Lemma line_fields l : good_line l -> fields d (line_text d l) = map decimal_text (numbers l).
  Proof.
    intros (G & R). assert (P : forall x, In x (numbers l) -> proper x) by (intros x I; apply G; exact I). destruct Hd as (D1 & D2 & D3).
    assert (Np : ~ In percent (blanks (before l) ++ between d (map decimal_text (numbers l)) ++ blanks (after l))).
    { rewrite !in_app_iff. intros [I|[I|I]]; try (apply blanks_chars in I; discriminate). revert I. apply body_plain; [exact P|intros E; apply D1; rewrite <- E; cbn; tauto|intros x X; apply (decimal_solid x X)]. }
    assert (H : split_head percent (line_text d l) = blanks (before l) ++ between d (map decimal_text (numbers l)) ++ blanks (after l)).
    { unfold line_text. destruct (remark l) as [t|].
      - replace (blanks (before l) ++ between d (map decimal_text (numbers l)) ++ blanks (after l) ++ "%"%char :: t) with ((blanks (before l) ++ between d (map decimal_text (numbers l)) ++ blanks (after l)) ++ percent :: t) by (rewrite <- !app_assoc; reflexivity). apply head_cut. exact Np.
      - rewrite app_nil_r. apply head_plain. exact Np. }
    unfold fields. rewrite H. destruct (numbers l) as [|x xs] eqn:E.
    - cbn [map between app]. unfold blanks. rewrite <- repeat_app. fold (blanks (before l + after l)). rewrite trim_all_blanks. reflexivity.
    - rewrite <- E in *. assert (N : map decimal_text (numbers l) <> []) by (rewrite E; discriminate). assert (S : forall s, In s (map decimal_text (numbers l)) -> solid s) by (intros s I; apply in_map_iff in I as (y & <- & I); apply (decimal_solid y (P y I))).
      rewrite between_joined. destruct (joined_first d _ N S) as (c & t & F & _). rewrite trim_blanks; [|rewrite F; discriminate|apply trim_joined; assumption]. rewrite F. rewrite <- F. apply split_joined; [exact N|].
      intros s I. apply in_map_iff in I as (y & <- & I). apply sep_dec, P, I.
  Qed.
  Lemma line_plain l : good_line l -> ~ In lf (line_text d l) /\ ~ In cr (line_text d l).
  Proof.
    intros (G & R). assert (P : forall x, In x (numbers l) -> proper x) by (intros x I; apply G; exact I). destruct Hd as (D1 & D2 & D3).
    assert (X : forall c, c <> " "%char -> c <> percent -> c <> d -> (forall x, proper x -> ~ In c (decimal_text x)) -> match remark l with Some t => ~ In c t | None => True end -> ~ In c (line_text d l)).
    { intros c N1 N2 N3 N4 N5. unfold line_text. rewrite !in_app_iff. intros [I|[I|[I|I]]]; try (apply blanks_chars in I; congruence); [revert I; apply body_plain; assumption|].
      destruct (remark l) as [t|]; [|destruct I]. destruct I as [<-|I]; [elim N2; reflexivity|exact (N5 I)]. }
    split; apply X; try discriminate; try (intros E; symmetry in E; contradiction); try (intros x Y; apply (decimal_solid x Y)); destruct (remark l); try exact I; apply R.
  Qed.
  Lemma lines_return s t : ~ In lf s -> ~ In cr s -> text_lines (s ++ cr :: lf :: t) = s :: text_lines t.
  Proof.
    intros N C. induction s as [|c s IH]; [reflexivity|]. cbn [app text_lines].
    destruct (Ascii.eqb_spec c lf) as [->|]; [elim N; left; reflexivity|]. destruct (Ascii.eqb_spec c cr) as [->|]; [elim C; left; reflexivity|].
    rewrite IH; [reflexivity| |]; intros I; [apply N|apply C]; right; exact I.
  Qed.
  Lemma lines_end s : ~ In lf s -> ~ In cr s -> text_lines s = [s].
  Proof.
    intros N C. induction s as [|c s IH]; [reflexivity|]. cbn [text_lines]. destruct (Ascii.eqb_spec c lf) as [->|]; [elim N; left; reflexivity|]. destruct (Ascii.eqb_spec c cr) as [->|]; [elim C; left; reflexivity|].
    rewrite IH; [reflexivity| |]; intros I; [apply N|apply C]; right; exact I.
  Qed.
  Lemma file_lines ls last : (forall l, In l ls -> good_line (fst l)) -> good_line last -> text_lines (file_text d ls last) = map (line_text d) (map fst ls ++ [last]).
  Proof.
    intros G L. unfold file_text. induction ls as [|[l b] ls IH]; cbn [flat_map map app].
    - apply lines_end; apply (line_plain last L).
    - unfold ended at 1. cbn [fst snd]. destruct (line_plain l (G _ (or_introl eq_refl))) as [N C]. rewrite <- !app_assoc.
      destruct b; cbn [app]; [change "013"%char with cr; change "010"%char with lf; rewrite lines_return by assumption|change "010"%char with lf; rewrite lines_cons by assumption]; rewrite IH by (intros x I; apply G; right; exact I); reflexivity.
  Qed.
  Lemma file_rows ls last : (forall l, In l ls -> good_line (fst l)) -> good_line last ->
    filter nonempty (map (fields d) (text_lines (file_text d ls last))) = map (map decimal_text) (rows ls last).
  Proof.
    intros G L. rewrite (file_lines ls last G L), map_map. unfold rows. assert (A : forall l, In l (map fst ls ++ [last]) -> good_line l) by (intros l I; apply in_app_or in I as [I|[<-|[]]]; [apply in_map_iff in I as (x & <- & I); exact (G x I)|exact L]).
    induction (map fst ls ++ [last]) as [|l m IH]; [reflexivity|]. cbn [map filter]. rewrite line_fields by (apply A; left; reflexivity). rewrite IH by (intros x I; apply A; right; exact I). destruct (numbers l); reflexivity.
  Qed.
  Lemma rows_proper ls last : (forall l, In l ls -> good_line (fst l)) -> good_line last -> forall r x, In r (rows ls last) -> In x r -> proper x /\ moderate x.
  Proof.
    intros G L r x I J. unfold rows in I. apply filter_In in I as (I & _). apply in_map_iff in I as (l & <- & I). apply in_app_or in I as [I|[<-|[]]]; [apply in_map_iff in I as (y & <- & I); exact (proj1 (G y I) x J)|exact (proj1 L x J)].
  Qed.
End File.
