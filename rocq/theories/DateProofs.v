From Coq Require Import Qround.
From Verif Require Import Base BaseLemmas PyStr UtilModel LogModel DateSpec DateModel.
Open Scope Z_scope.

(** ** The calendar *)
Definition lp (y : Z) : Z := if is_leap y then 1 else 0.
Lemma is_leap_spec y : is_leap y = true <-> leap_year y.
Proof. unfold is_leap, leap_year. rewrite andb_true_iff, orb_true_iff, negb_true_iff, !Z.eqb_eq, Z.eqb_neq. tauto. Qed.
Definition start (y m : Z) : Z := nth (Z.to_nat (m - 1)) before_month 0 + (if 2 <? m then lp y else 0).
Definition number (c : Z * Z * Z) : Z := let '(y, m, d) := c in before_year y - before_year 1970 + start y m + d - 1.
Definition valid (c : Z * Z * Z) : Prop := let '(y, m, d) := c in 1 <= m <= 12 /\ 1 <= d <= month_length y m.
Lemma month_cases m : 1 <= m <= 12 -> m = 1 \/ m = 2 \/ m = 3 \/ m = 4 \/ m = 5 \/ m = 6 \/ m = 7 \/ m = 8 \/ m = 9 \/ m = 10 \/ m = 11 \/ m = 12.
Proof. lia. Qed.
Lemma start_step y m : 1 <= m <= 12 -> start y (m + 1) = start y m + month_length y m.
Proof.
  intros H. unfold start, month_length, lp. destruct (month_cases m H) as [->|[->|[->|[->|[->|[->|[->|[->|[->|[->|[->| ->]]]]]]]]]]]; cbn; destruct (is_leap y); reflexivity.
Qed.
Lemma year_step y : before_year (y + 1) = before_year y + 365 + lp y.
Proof.
  unfold before_year, lp. destruct (is_leap y) eqn:L.
  - apply is_leap_spec in L. destruct L as [A B]. Z.to_euclidean_division_equations. lia.
  - assert (N : ~ leap_year y) by (rewrite <- is_leap_spec, L; discriminate). unfold leap_year in N. Z.to_euclidean_division_equations. lia.
Qed.
Lemma month_positive y m : 28 <= month_length y m.
Proof. unfold month_length. repeat destruct (_ : bool); lia. Qed.
Lemma next_valid c : valid c -> valid (next_day c) /\ number (next_day c) = number c + 1.
Proof.
  destruct c as [[y m] d]. unfold valid, next_day, number. intros [M D]. destruct (Z.ltb_spec d (month_length y m)); [split; lia|]. destruct (Z.ltb_spec m 12).
  - pose proof (month_positive y (m + 1)). rewrite start_step by lia. lia.
  - assert (m = 12) by lia. subst m. pose proof (month_positive (y + 1) 1). rewrite year_step. assert (E : month_length y 12 = 31) by reflexivity. rewrite E in *.
    split; [lia|]. pose proof (eq_refl : start (y + 1) 1 = 0) as S1. pose proof (eq_refl : start y 12 = 334 + lp y) as S2. rewrite S1, S2. lia.
Qed.
Lemma previous_valid c : valid c -> valid (previous_day c) /\ number (previous_day c) = number c - 1.
Proof.
  destruct c as [[y m] d]. unfold valid, previous_day, number. intros [M D]. destruct (Z.ltb_spec 1 d); [split; lia|]. destruct (Z.ltb_spec 1 m).
  - pose proof (month_positive y (m - 1)). pose proof (start_step y (m - 1) ltac:(lia)) as S. replace (m - 1 + 1) with m in S by lia. lia.
  - assert (m = 1) by lia. subst m. pose proof (year_step (y - 1)) as Y. replace (y - 1 + 1) with y in Y by lia. assert (E : month_length (y - 1) 12 = 31) by reflexivity. rewrite E.
    split; [lia|]. pose proof (eq_refl : start y 1 = 0) as S1. pose proof (eq_refl : start (y - 1) 12 = 334 + lp (y - 1)) as S2. rewrite S1, S2. lia.
Qed.
Lemma date_spec n : valid (date_of n) /\ number (date_of n) = n.
Proof.
  assert (V0 : valid (1970, 1, 1)) by (unfold valid, month_length; cbn; lia). assert (N0 : number (1970, 1, 1) = 0) by reflexivity.
  unfold date_of. destruct (Z.ltb_spec n 0).
  - assert (X : forall k, valid (Nat.iter k previous_day (1970, 1, 1)) /\ number (Nat.iter k previous_day (1970, 1, 1)) = - Z.of_nat k).
    { induction k as [|k [A B]]; [split; assumption|]. change (Nat.iter (S k) previous_day (1970, 1, 1)) with (previous_day (Nat.iter k previous_day (1970, 1, 1))). destruct (previous_valid _ A) as [C D]. split; [exact C|]. rewrite D, B. lia. }
    destruct (X (Z.to_nat (- n))) as [A B]. split; [exact A|]. rewrite B. lia.
  - assert (X : forall k, valid (Nat.iter k next_day (1970, 1, 1)) /\ number (Nat.iter k next_day (1970, 1, 1)) = Z.of_nat k).
    { induction k as [|k [A B]]; [split; assumption|]. change (Nat.iter (S k) next_day (1970, 1, 1)) with (next_day (Nat.iter k next_day (1970, 1, 1))). destruct (next_valid _ A) as [C D]. split; [exact C|]. rewrite D, B. lia. }
    destruct (X (Z.to_nat n)) as [A B]. split; [exact A|]. rewrite B. lia.
Qed.
Lemma date_is n y m d : date_of n = (y, m, d) -> is_date n y m d.
Proof.
  intros E. destruct (date_spec n) as [V N]. rewrite E in V, N. unfold valid in V. unfold number in N. destruct V as [M D].
  apply (IsDate n y m d (lp y)); [| |exact M|lia|].
  - intros L. apply is_leap_spec in L. unfold lp. rewrite L. reflexivity.
  - intros L. rewrite <- is_leap_spec in L. unfold lp. destruct (is_leap y); [contradiction L; reflexivity|reflexivity].
  - pose proof (start_step y m M). split; [change (start y m + d <= start y (m + 1)); lia|change (n = before_year y - before_year 1970 + start y m + d - 1); lia].
Qed.
Lemma before_year_mono y y' : y < y' -> before_year y + 365 <= before_year y'.
Proof. unfold before_year. intros. Z.to_euclidean_division_equations. lia. Qed.

(** ** Times *)
Lemma time_is zone t days y m d h mi s : localtime zone t = (days, (y, m, d), (h, mi, s)) ->
  let n := Qfloor t in is_time (n + zone n) y m d h mi s /\ days = (n + zone n) / 86400 /\ is_date days y m d.
Proof.
  unfold localtime. cbv zeta. set (l := Qfloor t + zone (Qfloor t)). intros E. injection E as E1 E2 E3 E4 E5. apply date_is in E2. rewrite E1 in E2. split; [|auto].
  exists days. split; [exact E2|]. subst. clear. Z.to_euclidean_division_equations. lia.
Qed.

Lemma is_date_valid n y m d : is_date n y m d -> valid (y, m, d) /\ number (y, m, d) = n.
Proof.
  intros [l L1 L2 M D [S N]]. assert (l = lp y).
  { unfold lp. destruct (is_leap y) eqn:E; [apply L1, is_leap_spec, E|apply L2; rewrite <- is_leap_spec, E; discriminate]. }
  subst l. change (start y m + d <= start y (m + 1)) in S. change (n = before_year y - before_year 1970 + start y m + d - 1) in N.
  rewrite start_step in S by exact M. unfold valid, number. lia.
Qed.
Lemma start_mono y m m' : 1 <= m -> m < m' -> m' <= 13 -> start y m + month_length y m <= start y m'.
Proof.
  intros A B C. replace m' with (m + 1 + Z.of_nat (Z.to_nat (m' - m - 1))) by lia. assert (K : Z.of_nat (Z.to_nat (m' - m - 1)) <= 12 - m) by lia. revert K. generalize (Z.to_nat (m' - m - 1)) as k.
  induction k as [|k IH]; intros K. { replace (m + 1 + Z.of_nat 0) with (m + 1) by lia. rewrite start_step by lia. lia. }
  replace (m + 1 + Z.of_nat (S k)) with (m + 1 + Z.of_nat k + 1) by lia. rewrite start_step by lia. pose proof (month_positive y (m + 1 + Z.of_nat k)). lia.
Qed.
Lemma start_range y m d : valid (y, m, d) -> 1 <= start y m + d <= 365 + lp y.
Proof.
  intros [M D]. pose proof (start_mono y m 13 ltac:(lia) ltac:(lia) ltac:(lia)) as U. assert (E : start y 13 = 365 + lp y) by reflexivity. rewrite E in U.
  destruct (Z.eq_dec m 1) as [->|N]; [assert (start y 1 = 0) by reflexivity; lia|]. pose proof (start_mono y 1 m ltac:(lia) ltac:(lia) ltac:(lia)). pose proof (month_positive y 1). assert (start y 1 = 0) by reflexivity. lia.
Qed.
Definition lex3 (a b : Z * Z * Z) : Prop :=
  let '(x, y, z) := a in let '(x', y', z') := b in x < x' \/ x = x' /\ (y < y' \/ y = y' /\ z < z').
Lemma year_mono y y' : y < y' -> before_year y + 365 + lp y <= before_year y'.
Proof. intros H. rewrite <- Z.add_assoc. destruct (Z.eq_dec y' (y + 1)) as [->|N]; [rewrite year_step; lia|]. pose proof (year_step y). pose proof (before_year_mono (y + 1) y' ltac:(lia)). lia. Qed.
Lemma lex_less a b : valid a -> valid b -> lex3 a b -> number a < number b.
Proof.
  destruct a as [[y m] d], b as [[y' m'] d']. intros V V' L. pose proof (start_range _ _ _ V). pose proof (start_range _ _ _ V'). unfold lex3 in L. unfold number.
  destruct L as [L|[-> [L|[-> L]]]].
  - pose proof (year_mono _ _ L). lia.
  - destruct V as [M D], V' as [M' D']. pose proof (start_mono y' m m' ltac:(lia) ltac:(lia) ltac:(lia)). lia.
  - lia.
Qed.
Lemma lex_total a b : lex3 a b \/ a = b \/ lex3 b a.
Proof.
  destruct a as [[y m] d], b as [[y' m'] d']. unfold lex3. destruct (Z.lt_total y y') as [L|[->|L]]; [auto| |auto]. destruct (Z.lt_total m m') as [L|[->|L]]; [auto 6| |auto 8]. destruct (Z.lt_total d d') as [L|[->|L]]; [auto 9|auto|auto 12].
Qed.
Lemma date_order n y m d n' y' m' d' : is_date n y m d -> is_date n' y' m' d' ->
  (n < n' <-> lex3 (y, m, d) (y', m', d')) /\ (n = n' <-> y = y' /\ m = m' /\ d = d').
Proof.
  intros H H'. apply is_date_valid in H, H'. destruct H as [V N], H' as [V' N'].
  destruct (lex_total (y, m, d) (y', m', d')) as [L|[L|L]].
  - pose proof (lex_less _ _ V V' L). split; [split; [intros _; exact L|lia]|]. split; [lia|]. intros (-> & -> & ->). lia.
  - injection L as -> -> ->. split; [|lia]. split; [lia|]. unfold lex3. lia.
  - pose proof (lex_less _ _ V' V L). split; [|split; [lia|intros (-> & -> & ->); lia]]. split; [lia|]. intros X. pose proof (lex_less _ _ V V' X). lia.
Qed.
Lemma time_order t y m d h mi s t' y' m' d' h' mi' s' : is_time t y m d h mi s -> is_time t' y' m' d' h' mi' s' ->
  (t < t' <-> y < y' \/ y = y' /\ (m < m' \/ m = m' /\ (d < d' \/ d = d' /\ (h < h' \/ h = h' /\ (mi < mi' \/ mi = mi' /\ s < s'))))) /\
  (t = t' <-> y = y' /\ m = m' /\ d = d' /\ h = h' /\ mi = mi' /\ s = s') /\
  (t / 60 = t' / 60 <-> y = y' /\ m = m' /\ d = d' /\ h = h' /\ mi = mi').
Proof.
  intros (n & D & H & MI & S & ->) (n' & D' & H' & MI' & S' & ->). destruct (date_order _ _ _ _ _ _ _ _ D D') as [O E]. unfold lex3 in O.
  assert (Q1 : (n * 86400 + h * 3600 + mi * 60 + s) / 60 = n * 1440 + h * 60 + mi) by (symmetry; apply (Z.div_unique _ _ _ s); lia).
  assert (Q2 : (n' * 86400 + h' * 3600 + mi' * 60 + s') / 60 = n' * 1440 + h' * 60 + mi') by (symmetry; apply (Z.div_unique _ _ _ s'); lia).
  rewrite Q1, Q2. clear Q1 Q2 D D'. destruct (Z.lt_total n n') as [L|[->|L]].
  - pose proof (proj1 O L). split; [split; [lia|nia]|]. split; split; lia.
  - assert (X : y = y' /\ m = m' /\ d = d') by (apply E; reflexivity). lia.
  - lia.
Qed.

(** ** Text *)
Definition val (s : str) : Z := fold_left (fun a c => 10 * a + digit_of c) s 0.
Lemma val_from s : forall a, fold_left (fun a c => 10 * a + digit_of c) s a = a * 10 ^ Z.of_nat (length s) + val s.
Proof.
  unfold val. induction s as [|c s IH]; intros a; [cbn; lia|]. cbn [fold_left length]. rewrite IH, (IH (10 * 0 + digit_of c)). rewrite Nat2Z.inj_succ, Z.pow_succ_r by lia. ring.
Qed.
Lemma val_cons c s : val (c :: s) = digit_of c * 10 ^ Z.of_nat (length s) + val s.
Proof. unfold val at 1. cbn [fold_left]. rewrite val_from. ring. Qed.
Lemma val_range s : (forall c, In c s -> 0 <= digit_of c <= 9) -> 0 <= val s < 10 ^ Z.of_nat (length s).
Proof.
  induction s as [|c s IH]; intros H; [cbn; lia|]. rewrite val_cons. cbn [length]. rewrite Nat2Z.inj_succ, Z.pow_succ_r by lia.
  pose proof (IH (fun x I => H x (or_intror I))). pose proof (H c (or_introl eq_refl)). nia.
Qed.
Lemma digit_inj c c' : digit_of c = digit_of c' -> c = c'.
Proof. unfold digit_of. intros E. rewrite <- (ascii_nat_embedding c), <- (ascii_nat_embedding c'). f_equal. lia. Qed.
Lemma digits_order w : forall a b s s' r r', in_digits w a s -> in_digits w b s' ->
  (before (s ++ r) (s' ++ r') <-> a < b \/ a = b /\ before r r') /\ (s ++ r = s' ++ r' <-> a = b /\ r = r').
Proof.
  induction w as [|w IH]; intros a b s s' r r' (L & D & V) (L' & D' & V').
  - destruct s, s'; try discriminate. cbn in V, V'. subst. cbn [app]. split; [|tauto]. split; [tauto|intros [H|[_ H]]; [lia|exact H]].
  - destruct s as [|c s]; [discriminate|]. destruct s' as [|c' s']; [discriminate|]. injection L as L. injection L' as L'.
    fold (val (c :: s)) in V. fold (val (c' :: s')) in V'. rewrite val_cons in V, V'. rewrite L in V. rewrite L' in V'.
    assert (I1 : in_digits w (val s) s) by (split; [exact L|split; [intros x I; apply D; right; exact I|reflexivity]]).
    assert (I2 : in_digits w (val s') s') by (split; [exact L'|split; [intros x I; apply D'; right; exact I|reflexivity]]).
    destruct (IH _ _ _ _ r r' I1 I2) as [O E]. pose proof (val_range s (fun x I => D x (or_intror I))) as R1. pose proof (val_range s' (fun x I => D' x (or_intror I))) as R2. rewrite L in R1. rewrite L' in R2.
    pose proof (D c (or_introl eq_refl)). pose proof (D' c' (or_introl eq_refl)). set (p := 10 ^ Z.of_nat w) in *. cbn [app before].
    assert (CC : (nat_of_ascii c < nat_of_ascii c')%nat <-> digit_of c < digit_of c') by (unfold digit_of; lia).
    assert (K : digit_of c < digit_of c' -> a < b) by (intros; subst a b; nia). assert (K' : digit_of c' < digit_of c -> b < a) by (intros; subst a b; nia).
    destruct (Z.lt_total (digit_of c) (digit_of c')) as [X|[X|X]].
    + specialize (K X). split; [tauto|]. split; [|lia]. intros Y. injection Y as Y1 Y2. rewrite Y1 in X. lia.
    + pose proof X as X'. apply digit_inj in X. subst c'. rewrite CC. split.
      * split; [intros [Y|[_ Y]]; [lia|]|]. { apply O in Y. destruct Y as [Y|[Y Z]]; [left; lia|right; split; [lia|exact Z]]. }
        intros Y. right. split; [reflexivity|]. apply O. destruct Y as [Y|[Y Z]]; [left; lia|right; split; [lia|exact Z]].
      * split; [intros Y; injection Y as Y; apply E in Y; split; [lia|tauto]|]. intros [Y Z]. f_equal. apply E. split; [lia|exact Z].
    + specialize (K' X). split; [|split; [intros Y; injection Y as Y1 Y2; rewrite Y1 in X; lia|lia]]. split; [|lia]. intros [Y|[Y _]]; [apply CC in Y; lia|rewrite Y in X; lia].
Qed.
Lemma lit_order c r r' : (before (lit c ++ r) (lit c ++ r') <-> before r r') /\ (lit c ++ r = lit c ++ r' <-> r = r').
Proof.
  split; [|split; [apply app_inv_head|congruence]]. generalize (lit c) as l. induction l as [|x l IH]; [reflexivity|]. cbn [app before]. rewrite <- IH. split; [intros [H|[_ H]]; [lia|exact H]|auto].
Qed.
Lemma digit_chr_of n : 0 <= n <= 9 -> digit_of (digit_chr n) = n.
Proof. intros H. unfold digit_of, digit_chr. rewrite nat_ascii_embedding by lia. lia. Qed.
Lemma two_digits n : 0 <= n < 100 -> in_digits 2 n (two n).
Proof.
  intros H. assert (0 <= n / 10 <= 9) by (Z.to_euclidean_division_equations; lia). assert (0 <= n mod 10 <= 9) by (Z.to_euclidean_division_equations; lia).
  split; [reflexivity|]. split; [intros c [<-|[<-|[]]]; rewrite digit_chr_of; lia|]. unfold two. cbn [fold_left]. rewrite !digit_chr_of by lia. pose proof (Z.div_mod n 10). lia.
Qed.
Lemma year_digits y : 1000 <= y <= 9999 -> in_digits 4 y (year y).
Proof.
  intros H. unfold year. replace (y <? 0) with false by lia. unfold UtilModel.dec.
  assert (L : 9 <= Z.log2 y) by (change 9 with (Z.log2 1000); apply Z.log2_le_mono; lia).
  replace (S (Z.to_nat (Z.log2 y))) with (S (S (S (S (Z.to_nat (Z.log2 y) - 3))))) by lia. generalize (Z.to_nat (Z.log2 y) - 3)%nat as k. intros k. cbn [dec_digits].
  assert (A : y mod 10 + 10 * (y / 10) = y) by (Z.to_euclidean_division_equations; lia). assert (A' : 100 <= y / 10 <= 999) by (Z.to_euclidean_division_equations; lia). assert (A2 : 0 <= y mod 10 <= 9) by (Z.to_euclidean_division_equations; lia).
  set (q := y / 10) in *. assert (B : q mod 10 + 10 * (q / 10) = q) by (clear; Z.to_euclidean_division_equations; lia). assert (B' : 10 <= q / 10 <= 99) by (clear - A'; Z.to_euclidean_division_equations; lia). assert (B2 : 0 <= q mod 10 <= 9) by (clear; Z.to_euclidean_division_equations; lia).
  set (u := q / 10) in *. assert (C : u mod 10 + 10 * (u / 10) = u) by (clear; Z.to_euclidean_division_equations; lia). assert (C' : 1 <= u / 10 <= 9) by (clear - B'; Z.to_euclidean_division_equations; lia). assert (C2 : 0 <= u mod 10 <= 9) by (clear; Z.to_euclidean_division_equations; lia).
  set (v := u / 10) in *. replace (y <? 10) with false by lia. replace (q <? 10) with false by lia. replace (u <? 10) with false by lia. replace (v <? 10) with true by lia.
  cbn [app]. split; [reflexivity|]. split; [intros c [<-|[<-|[<-|[<-|[]]]]]; rewrite digit_chr_of; lia|]. cbn [fold_left]. rewrite !digit_chr_of by lia. lia.
Qed.

(** ** The functions *)
Definition date_text (Y M D H MI S : str) : str :=
  Y ++ lit "-" ++ M ++ lit "-" ++ D ++ lit " " ++ H ++ lit ":" ++ MI ++ lit ":" ++ S.
Lemma year_range t y m d h mi s : is_time t y m d h mi s -> -30610224000 <= t < 253402300800 -> 1000 <= y <= 9999.
Proof.
  intros (n & D & H & MI & S & ->) R. apply is_date_valid in D. destruct D as [V N]. pose proof (start_range _ _ _ V). unfold number in N.
  pose proof (eq_refl : before_year 1970 = 719162). pose proof (eq_refl : before_year 1000 = 364877). pose proof (eq_refl : before_year 10000 = 3652059).
  split.
  - destruct (Z.lt_ge_cases y 1000) as [L|L]; [|exact L]. pose proof (year_mono _ _ L). lia.
  - destruct (Z.le_gt_cases y 9999) as [L|L]; [exact L|]. assert (X : before_year 10000 <= before_year y) by (destruct (Z.eq_dec y 10000) as [->|Ne]; [lia|pose proof (before_year_mono 10000 y ltac:(lia)); lia]). lia.
Qed.
Lemma month_range t y m d h mi s : is_time t y m d h mi s -> 1 <= m <= 12 /\ 1 <= d <= 31 /\ 0 <= h < 24 /\ 0 <= mi < 60 /\ 0 <= s < 60.
Proof.
  intros (n & D & H & MI & S & _). apply is_date_valid in D. destruct D as [[M D] _]. assert (month_length y m <= 31) by (unfold month_length; repeat destruct (_ : bool); lia). lia.
Qed.
Lemma default_text zone t : let l := Qfloor t + zone (Qfloor t) in -30610224000 <= l < 253402300800 ->
  exists y m d h mi s Y M D H MI S, is_time l y m d h mi s /\ strftime_default (localtime zone t) = date_text Y M D H MI S /\
    in_digits 4 y Y /\ in_digits 2 m M /\ in_digits 2 d D /\ in_digits 2 h H /\ in_digits 2 mi MI /\ in_digits 2 s S.
Proof.
  intros l R. destruct (localtime zone t) as [[days [[y m] d]] [[h mi] s]] eqn:E. apply time_is in E. cbv zeta in E. destruct E as (T & _). fold l in T.
  pose proof (year_range _ _ _ _ _ _ _ T R). pose proof (month_range _ _ _ _ _ _ _ T).
  exists y, m, d, h, mi, s, (year y), (two m), (two d), (two h), (two mi), (two s). split; [exact T|]. split; [reflexivity|]. split; [apply year_digits; lia|]. split; [apply two_digits; lia|]. split; [apply two_digits; lia|]. split; [apply two_digits; lia|]. split; apply two_digits; lia.
Qed.
Lemma text_order l y m d h mi s Y M D H MI S l' y' m' d' h' mi' s' Y' M' D' H' MI' S' :
  is_time l y m d h mi s -> in_digits 4 y Y -> in_digits 2 m M -> in_digits 2 d D -> in_digits 2 h H -> in_digits 2 mi MI -> in_digits 2 s S ->
  is_time l' y' m' d' h' mi' s' -> in_digits 4 y' Y' -> in_digits 2 m' M' -> in_digits 2 d' D' -> in_digits 2 h' H' -> in_digits 2 mi' MI' -> in_digits 2 s' S' ->
  (before (date_text Y M D H MI S) (date_text Y' M' D' H' MI' S') <-> l < l') /\ (date_text Y M D H MI S = date_text Y' M' D' H' MI' S' <-> l = l').
Proof.
  intros T A1 A2 A3 A4 A5 A6 T' B1 B2 B3 B4 B5 B6. destruct (time_order _ _ _ _ _ _ _ _ _ _ _ _ _ _ T T') as (O & E & _). rewrite O, E. clear O E T T' l l'.
  unfold date_text. split.
  - rewrite (proj1 (digits_order _ _ _ _ _ _ _ A1 B1)), (proj1 (lit_order _ _ _)), (proj1 (digits_order _ _ _ _ _ _ _ A2 B2)), (proj1 (lit_order _ _ _)), (proj1 (digits_order _ _ _ _ _ _ _ A3 B3)), (proj1 (lit_order _ _ _)),
      (proj1 (digits_order _ _ _ _ _ _ _ A4 B4)), (proj1 (lit_order _ _ _)), (proj1 (digits_order _ _ _ _ _ _ _ A5 B5)), (proj1 (lit_order _ _ _)).
    rewrite <- (app_nil_r S), <- (app_nil_r S'), (proj1 (digits_order _ _ _ _ _ [] [] A6 B6)). cbn [before]. tauto.
  - rewrite (proj2 (digits_order _ _ _ _ _ _ _ A1 B1)), (proj2 (lit_order _ _ _)), (proj2 (digits_order _ _ _ _ _ _ _ A2 B2)), (proj2 (lit_order _ _ _)), (proj2 (digits_order _ _ _ _ _ _ _ A3 B3)), (proj2 (lit_order _ _ _)),
      (proj2 (digits_order _ _ _ _ _ _ _ A4 B4)), (proj2 (lit_order _ _ _)), (proj2 (digits_order _ _ _ _ _ _ _ A5 B5)), (proj2 (lit_order _ _ _)).
    rewrite <- (app_nil_r S), <- (app_nil_r S'), (proj2 (digits_order _ _ _ _ _ [] [] A6 B6)). tauto.
Qed.
Lemma default_order zone zone' t t' : let l := Qfloor t + zone (Qfloor t) in let l' := Qfloor t' + zone' (Qfloor t') in
  -30610224000 <= l < 253402300800 -> -30610224000 <= l' < 253402300800 ->
  let a := strftime_default (localtime zone t) in let b := strftime_default (localtime zone' t') in
  (before a b <-> l < l') /\ (a = b <-> l = l').
Proof.
  intros l l' R R' a b. destruct (default_text zone t R) as (y & m & d & h & mi & s & Y & M & D & H & MI & S & T & E & A1 & A2 & A3 & A4 & A5 & A6).
  destruct (default_text zone' t' R') as (y' & m' & d' & h' & mi' & s' & Y' & M' & D' & H' & MI' & S' & T' & E' & B1 & B2 & B3 & B4 & B5 & B6).
  unfold a, b. rewrite E, E'. eapply text_order; eassumption.
Qed.
Lemma log_order zone zone' t t' : let l := Qfloor t + zone (Qfloor t) in let l' := Qfloor t' + zone' (Qfloor t') in
  -30610224000 <= l < 253402300800 -> -30610224000 <= l' < 253402300800 ->
  (strftime_log (localtime zone t) = strftime_log (localtime zone' t') <-> l / 60 = l' / 60).
Proof.
  intros l l' R R'. destruct (localtime zone t) as [[days [[y m] d]] [[h mi] s]] eqn:E. destruct (localtime zone' t') as [[days' [[y' m'] d']] [[h' mi'] s']] eqn:E'.
  apply time_is in E, E'. cbv zeta in E, E'. destruct E as (T & _), E' as (T' & _). fold l in T. fold l' in T'.
  pose proof (year_range _ _ _ _ _ _ _ T R). pose proof (month_range _ _ _ _ _ _ _ T). pose proof (year_range _ _ _ _ _ _ _ T' R'). pose proof (month_range _ _ _ _ _ _ _ T').
  destruct (time_order _ _ _ _ _ _ _ _ _ _ _ _ _ _ T T') as (_ & _ & O). rewrite O. cbn [strftime_log].
  rewrite (proj2 (digits_order 4 y y' _ _ _ _ (year_digits y ltac:(lia)) (year_digits y' ltac:(lia)))).
  rewrite (proj2 (digits_order 2 m m' _ _ _ _ (two_digits m ltac:(lia)) (two_digits m' ltac:(lia)))).
  rewrite (proj2 (digits_order 2 d d' _ _ _ _ (two_digits d ltac:(lia)) (two_digits d' ltac:(lia)))).
  rewrite (proj2 (digits_order 2 h h' _ _ _ _ (two_digits h ltac:(lia)) (two_digits h' ltac:(lia)))).
  rewrite <- (app_nil_r (two mi)), <- (app_nil_r (two mi')).
  rewrite (proj2 (digits_order 2 mi mi' _ _ _ _ (two_digits mi ltac:(lia)) (two_digits mi' ltac:(lia)))). tauto.
Qed.
Lemma stamped_inj f a b : stamped f a = stamped f b <-> a = b.
Proof.
  unfold stamped. cbv zeta. split; [|congruence]. intros E. apply app_inv_head in E. apply (app_inv_head (lit ".")) in E. apply app_inv_tail in E. exact E.
Qed.

(** ** ctime *)
Lemma app_parts {A} (a a' r r' : list A) : length a = length a' -> a ++ r = a' ++ r' -> a = a' /\ r = r'.
Proof. revert a'. induction a as [|x a IH]; intros [|x' a'] L E; try discriminate; [auto|]. injection E as -> E. injection L as L. destruct (IH _ L E) as [-> ->]. auto. Qed.
Lemma space2_digits d : 1 <= d <= 31 -> (d < 10 -> exists s, in_digits 1 d s /\ space2 d = lit " " ++ s) /\ (10 <= d -> in_digits 2 d (space2 d)).
Proof.
  intros H. unfold space2. split; intros K.
  - replace (d <? 10) with true by lia. exists [digit_chr d]. split; [|reflexivity]. split; [reflexivity|]. split; [intros c [<-|[]]; rewrite digit_chr_of; lia|]. cbn [fold_left]. rewrite digit_chr_of; lia.
  - replace (d <? 10) with false by lia. apply two_digits. lia.
Qed.
Lemma space2_inj d d' : 1 <= d <= 31 -> 1 <= d' <= 31 -> space2 d = space2 d' -> d = d'.
Proof.
  intros H H' E. unfold space2, two in E. assert (F : forall a b, 0 <= a <= 9 -> 0 <= b <= 9 -> digit_chr a = digit_chr b -> a = b) by (intros a b A B X; rewrite <- (digit_chr_of a A), <- (digit_chr_of b B), X; reflexivity).
  assert (G : forall a, 0 <= a <= 9 -> " "%char <> digit_chr a) by (intros a A X; apply (f_equal digit_of) in X; rewrite digit_chr_of in X by exact A; revert X; change (digit_of " ") with (-16); lia).
  assert (0 <= d / 10 <= 9 /\ 0 <= d mod 10 <= 9 /\ 0 <= d' / 10 <= 9 /\ 0 <= d' mod 10 <= 9) as (P1 & P2 & P3 & P4) by (clear - H H'; Z.to_euclidean_division_equations; lia).
  destruct (Z.ltb_spec d 10), (Z.ltb_spec d' 10).
  - injection E as E2. apply F in E2; lia.
  - injection E as E1 E2. exfalso. exact (G _ P3 E1).
  - injection E as E1 E2. exfalso. symmetry in E1. exact (G _ P1 E1).
  - injection E as E1 E2. apply F in E1; [|assumption|assumption]. apply F in E2; [|assumption|assumption]. clear - E1 E2. pose proof (Z.div_mod d 10). pose proof (Z.div_mod d' 10). lia.
Qed.
Lemma day_names_turn n : nth_error [lit "Thu"; lit "Fri"; lit "Sat"; lit "Sun"; lit "Mon"; lit "Tue"; lit "Wed"] (Z.to_nat (n mod 7)) = Some (nth (Z.to_nat ((n + 4) mod 7)) day_names []).
Proof.
  assert (0 <= n mod 7 < 7) by (apply Z.mod_pos_bound; lia). rewrite Z.add_mod by lia. assert (C : n mod 7 = 0 \/ n mod 7 = 1 \/ n mod 7 = 2 \/ n mod 7 = 3 \/ n mod 7 = 4 \/ n mod 7 = 5 \/ n mod 7 = 6) by lia.
  destruct C as [->|[->|[->|[->|[->|[->| ->]]]]]]; reflexivity.
Qed.
Lemma month_name m : 1 <= m <= 12 -> nth_error month_names (Z.to_nat (m - 1)) = Some (nth (Z.to_nat (m - 1)) month_names []).
Proof. intros H. apply nth_error_nth'. cbn [length month_names]. lia. Qed.
Lemma ctime_text zone t : let l := Qfloor t + zone (Qfloor t) in -30610224000 <= l < 253402300800 ->
  exists y m d h mi s W Mo D H MI S Y, is_time l y m d h mi s /\
    ctime zone t = W ++ lit " " ++ Mo ++ lit " " ++ D ++ lit " " ++ H ++ lit ":" ++ MI ++ lit ":" ++ S ++ lit " " ++ Y /\
    nth_error [lit "Thu"; lit "Fri"; lit "Sat"; lit "Sun"; lit "Mon"; lit "Tue"; lit "Wed"] (Z.to_nat (l / 86400 mod 7)) = Some W /\
    nth_error month_names (Z.to_nat (m - 1)) = Some Mo /\ D = space2 d /\
    in_digits 2 h H /\ in_digits 2 mi MI /\ in_digits 2 s S /\ in_digits 4 y Y.
Proof.
  intros l R. unfold ctime. destruct (localtime zone t) as [[days [[y m] d]] [[h mi] s]] eqn:E. apply time_is in E. cbv zeta in E. destruct E as (T & Dy & _). fold l in T, Dy.
  pose proof (year_range _ _ _ _ _ _ _ T R). pose proof (month_range _ _ _ _ _ _ _ T) as K.
  exists y, m, d, h, mi, s, (nth (Z.to_nat ((days + 4) mod 7)) day_names []), (nth (Z.to_nat (m - 1)) month_names []), (space2 d), (two h), (two mi), (two s), (year y).
  split; [exact T|]. split; [reflexivity|]. split; [rewrite <- Dy; apply day_names_turn|]. split; [apply month_name; lia|]. split; [reflexivity|]. split; [apply two_digits; lia|]. split; [apply two_digits; lia|]. split; [apply two_digits; lia|]. apply year_digits. lia.
Qed.
Lemma months_inj m m' x : nth_error month_names m = Some x -> nth_error month_names m' = Some x -> m = m'.
Proof.
  intros A B. apply (NoDup_nth_error month_names).
  - repeat constructor; cbn [In]; intros X; repeat (destruct X as [X|X]; [discriminate X|]); exact X.
  - apply nth_error_Some. rewrite A. discriminate.
  - congruence.
Qed.
Lemma names_three (l : list str) n x : (forall y, In y l -> length y = 3%nat) -> nth_error l n = Some x -> length x = 3%nat.
Proof. intros H E. apply H. eapply nth_error_In. exact E. Qed.
Lemma ctime_equal zone zone' t t' : let l := Qfloor t + zone (Qfloor t) in let l' := Qfloor t' + zone' (Qfloor t') in
  -30610224000 <= l < 253402300800 -> -30610224000 <= l' < 253402300800 -> (ctime zone t = ctime zone' t' <-> l = l').
Proof.
  intros l l' R R'. split.
  2: { intros E. unfold ctime, localtime. cbv zeta. fold l. fold l'. rewrite E. reflexivity. }
  destruct (ctime_text zone t R) as (y & m & d & h & mi & s & W & Mo & D & H & MI & S & Y & T & E & EW & EM & ED & A1 & A2 & A3 & A4).
  destruct (ctime_text zone' t' R') as (y' & m' & d' & h' & mi' & s' & W' & Mo' & D' & H' & MI' & S' & Y' & T' & E' & EW' & EM' & ED' & B1 & B2 & B3 & B4).
  rewrite E, E'. clear E E'. assert (DL : forall n, length (space2 n) = 2%nat) by (intros n; unfold space2; destruct (_ <? _); reflexivity). intros X.
  assert (LW : length W = 3%nat) by (eapply names_three; [|exact EW]; intros v I; repeat destruct I as [<-|I]; try reflexivity; destruct I).
  assert (LW' : length W' = 3%nat) by (eapply names_three; [|exact EW']; intros v I; repeat destruct I as [<-|I]; try reflexivity; destruct I).
  assert (LM : length Mo = 3%nat) by (eapply names_three; [|exact EM]; intros v I; repeat destruct I as [<-|I]; try reflexivity; destruct I).
  assert (LM' : length Mo' = 3%nat) by (eapply names_three; [|exact EM']; intros v I; repeat destruct I as [<-|I]; try reflexivity; destruct I).
  apply app_parts in X; [|congruence]. destruct X as [_ X]. apply (app_inv_head (lit " ")) in X. apply app_parts in X; [|congruence]. destruct X as [XM X]. apply (app_inv_head (lit " ")) in X.
  apply app_parts in X; [|subst; rewrite !DL; reflexivity]. destruct X as [XD X]. apply (app_inv_head (lit " ")) in X.
  apply (digits_order _ _ _ _ _ _ _ A1 B1) in X. destruct X as [Xh X]. apply (app_inv_head (lit ":")) in X. apply (digits_order _ _ _ _ _ _ _ A2 B2) in X. destruct X as [Xm X]. apply (app_inv_head (lit ":")) in X.
  apply (digits_order _ _ _ _ _ _ _ A3 B3) in X. destruct X as [Xs X]. apply (app_inv_head (lit " ")) in X. rewrite <- (app_nil_r Y), <- (app_nil_r Y') in X. apply (digits_order _ _ _ _ _ [] [] A4 B4) in X. destruct X as [Xy _].
  pose proof (month_range _ _ _ _ _ _ _ T) as K. pose proof (month_range _ _ _ _ _ _ _ T') as K'. subst Mo'. pose proof (months_inj _ _ _ EM EM') as Em. subst D D'. apply space2_inj in XD; [|lia|lia].
  destruct (time_order _ _ _ _ _ _ _ _ _ _ _ _ _ _ T T') as (_ & O & _). apply O. lia.
Qed.
