(** * Proofs for formats of dates (C107). *)
From Coq Require Import Qround.
From Verif Require Import Base BaseLemmas PyStr UtilModel LogModel DateSpec DateModel DateProofs FmtSpec FmtModel.
Open Scope Z_scope.

Lemma three_digits n : 0 <= n < 1000 -> in_digits 3 n (three n).
Proof.
  intros H. assert (0 <= n / 100 <= 9) by (Z.to_euclidean_division_equations; lia). assert (0 <= n mod 100 < 100) by (apply Z.mod_pos_bound; lia). destruct (two_digits (n mod 100) ltac:(lia)) as (L & D & V).
  split; [unfold three; cbn [length]; rewrite L; reflexivity|]. split; [intros c [<-|I]; [rewrite digit_chr_of; lia|exact (D c I)]|].
  change (n = val (three n)). unfold three. rewrite val_cons, L, digit_chr_of by lia. fold (val (two (n mod 100))) in V. rewrite <- V. change (10 ^ Z.of_nat 2) with 100. pose proof (Z.div_mod n 100). lia.
Qed.
Lemma yday_start y m d : 1 <= m <= 12 -> day_of_year y m d = start y m + d.
Proof.
  intros H. unfold day_of_year. assert (X : forall k, (k <= 11)%nat -> fold_right Z.add 0 (map (fun k => month_length y (Z.of_nat k)) (seq 1 k)) = start y (Z.of_nat k + 1)).
  { assert (A : forall a (l : list Z), fold_right Z.add a l = a + fold_right Z.add 0 l) by (intros a l; induction l as [|x l IH]; cbn; lia).
    induction k as [|k IH]; intros K; [reflexivity|]. rewrite seq_S, map_app, fold_right_app. cbn [map fold_right]. rewrite A, IH by lia. replace (1 + k)%nat with (S k) by lia. replace (Z.of_nat (S k)) with (Z.of_nat k + 1) by lia. rewrite (start_step y (Z.of_nat k + 1)) by lia. lia. }
  rewrite X by lia. rewrite Z2Nat.id by lia. replace (m - 1 + 1) with m by lia. lia.
Qed.
Lemma first_is y m d n : is_date n y m d -> is_date (n - (start y m + d) + 1) y 1 1.
Proof.
  intros H. destruct (is_date_valid _ _ _ _ H) as [[M D] N]. unfold number in N. apply (IsDate _ y 1 1 (lp y)); [| |lia|lia|].
  - intros L. apply is_leap_spec in L. unfold lp. rewrite L. reflexivity.
  - intros L. rewrite <- is_leap_spec in L. unfold lp. destruct (is_leap y); [contradiction L; reflexivity|reflexivity].
  - change (start y 1 + 1 <= start y 2 /\ n - (start y m + d) + 1 = before_year y - before_year 1970 + start y 1 + 1 - 1). pose proof (eq_refl : start y 1 = 0) as S1. pose proof (eq_refl : start y 2 = 31) as S2. rewrite S1, S2. lia.
Qed.
Lemma mod12 h : 0 <= h < 24 -> let k := if h mod 12 =? 0 then 12 else h mod 12 in 1 <= k <= 12 /\ (h = k \/ h = k + 12 \/ h = k - 12).
Proof. intros H. cbv zeta. destruct (Z.eqb_spec (h mod 12) 0); Z.to_euclidean_division_equations; lia. Qed.
Lemma field_shown other zone t f : let l := Qfloor t + zone (Qfloor t) in -30610224000 <= l < 253402300800 ->
  shows l f (directive other (letter f) (localtime zone t)).
Proof.
  intros l R. destruct (localtime zone t) as [[days [[y m] d]] [[h mi] s]] eqn:E. apply time_is in E. cbv zeta in E. destruct E as (T & Dy & Dt). fold l in T, Dy.
  pose proof (year_range _ _ _ _ _ _ _ T R). pose proof (month_range _ _ _ _ _ _ _ T) as K. exists y, m, d, h, mi, s. split; [exact T|].
  destruct f; cbn [letter directive]; cbn -[two year three day_of_year month_names day_names Z.modulo Z.add nth Z.to_nat nth_error Z.div].
  - apply year_digits. lia.
  - apply two_digits. lia.
  - apply two_digits. lia.
  - apply two_digits. lia.
  - apply two_digits. lia.
  - apply two_digits. lia.
  - apply two_digits. apply Z.mod_pos_bound. lia.
  - exists days, (days - (start y m + d) + 1). split; [exact Dt|]. split; [apply first_is; exact Dt|]. rewrite yday_start by lia. destruct (is_date_valid _ _ _ _ Dt) as [V _]. pose proof (start_range _ _ _ V). assert (lp y <= 1) by (unfold lp; destruct (is_leap y); lia).
    replace (days - (days - (start y m + d) + 1) + 1) with (start y m + d) by lia. apply three_digits. lia.
  - apply month_name. lia.
  - rewrite <- Dy. apply day_names_turn.
  - destruct (Z.ltb_spec h 12); [left|right]; auto.
  - destruct (mod12 h ltac:(lia)) as [A B]. eexists. split; [apply two_digits|split; [exact A|exact B]]. lia.
  - reflexivity.
Qed.
Lemma strftime_app other s fmt t : ~ In "%"%char s -> strftime other (s ++ fmt) t = s ++ strftime other fmt t.
Proof.
  induction s as [|c s IH]; intros N; [reflexivity|]. cbn [app strftime]. destruct (Ascii.eqb_spec c "%") as [->|_]; [elim N; left; reflexivity|]. rewrite IH by (intros I; apply N; right; exact I). reflexivity.
Qed.
Definition texts (other : ascii -> tm -> str) (t : tm) (l : list item) : list str := map (fun i => match i with Word s => s | Field f => directive other (letter f) t end) l.
Lemma strftime_items other l t : good l -> strftime other (format l) t = concat (texts other t l).
Proof.
  unfold format, texts. induction l as [|i l IH]; intros G; [reflexivity|]. assert (G' : good l) by (intros s I; apply G; right; exact I). cbn [flat_map map concat]. destruct i as [s|f].
  - rewrite strftime_app by (apply (G s); left; reflexivity). rewrite IH by exact G'. reflexivity.
  - cbn [app strftime]. rewrite Ascii.eqb_refl. rewrite IH by exact G'. reflexivity.
Qed.
Lemma format_null l : good l -> has_char "000"%char (format l) = false.
Proof.
  intros G. unfold has_char. apply not_true_iff_false. rewrite existsb_exists. intros (c & I & E). apply Ascii.eqb_eq in E. subst c. unfold format in I. apply in_flat_map in I as (i & Ii & I). destruct i as [s|f]; [exact (proj2 (G s Ii) I)|].
  destruct I as [I|[I|[]]]; [discriminate|]. destruct f; discriminate.
Qed.
Lemma texts_shown other zone t l : let n := Qfloor t + zone (Qfloor t) in -30610224000 <= n < 253402300800 -> Forall2 (shown n) l (texts other (localtime zone t) l).
Proof.
  intros n R. unfold texts. induction l as [|i l IH]; cbn [map]; constructor; [|exact IH]. destruct i as [s|f]; cbn [shown]; [reflexivity|]. apply field_shown. exact R.
Qed.
(** Times of the day. *)
Lemma time_unique t y m d h mi s y' m' d' h' mi' s' : is_time t y m d h mi s -> is_time t y' m' d' h' mi' s' -> y = y' /\ m = m' /\ d = d' /\ h = h' /\ mi = mi' /\ s = s'.
Proof. intros A B. apply (proj1 (proj2 (time_order _ _ _ _ _ _ _ _ _ _ _ _ _ _ A B))). reflexivity. Qed.
