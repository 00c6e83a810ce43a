(** * C107: dates of files in any format. *)
From Coq Require Import Qround.
From Verif Require Import Base BaseLemmas PyStr UtilModel LogModel DateSpec DateModel DateProofs DateProps FmtSpec FmtModel FmtProofs.
Open Scope Z_scope.

(** The text is that of the format with each field replaced by what it shows of the time of the
    last change. *)
Theorem C107_text : forall other path fd zone a st l, names path fd a st -> good l ->
  let n := Qfloor (st_mtime st) in let t := n + zone n in four_digit_years t ->
  exists parts, Forall2 (shown t) l parts /\ mod_date_as other path fd zone a (format l) = Ok (concat parts).
Proof.
  intros other path fd zone a st l N G n t R. exists (texts other (localtime zone (st_mtime st)) l). split; [apply texts_shown; exact R|].
  unfold mod_date_as. rewrite (names_stat _ _ _ _ N). cbn [bind]. rewrite (format_null l G), (strftime_items other l _ G). reflexivity.
Qed.
Print Assumptions C107_text.
Lemma as_text other path fd zone a st l : names path fd a st -> good l -> mod_date_as other path fd zone a (format l) = Ok (concat (texts other (localtime zone (st_mtime st)) l)).
Proof. intros N G. unfold mod_date_as. rewrite (names_stat _ _ _ _ N). cbn [bind]. rewrite (format_null l G), (strftime_items other l _ G). reflexivity. Qed.

(** A percent sign at the end of the format stays. *)
Theorem C107_last_percent : forall other path fd zone a l s, good l -> mod_date_as other path fd zone a (format l) = Ok s ->
  mod_date_as other path fd zone a (format l ++ ["%"%char]) = Ok (s ++ ["%"%char]).
Proof.
  intros other path fd zone a l s G. unfold mod_date_as. destruct (match os_stat path fd a with Err OSError => Err OSError | r => r end) as [si|e]; [|discriminate]. cbn [bind].
  unfold has_char. rewrite existsb_app. fold (has_char "000"%char (format l)). rewrite (format_null l G). cbn [existsb orb]. change (Ascii.eqb "000" "%" || false) with false. cbv iota. intros E. injection E as <-. f_equal.
  generalize (localtime zone (st_mtime si)). intros t. clear - G. unfold format. induction l as [|i l IH]; [reflexivity|]. assert (G' : good l) by (intros s I; apply G; right; exact I). cbn [flat_map]. rewrite <- app_assoc. destruct i as [s|f].
  - assert (W : ~ In "%"%char s) by (apply (G s); left; reflexivity). refine (eq_trans (strftime_app other s _ t W) _). refine (eq_trans _ (f_equal (fun x => x ++ ["%"%char]) (eq_sym (strftime_app other s _ t W)))). rewrite (IH G'). apply (app_assoc s).
  - cbn [app strftime]. rewrite Ascii.eqb_refl, (IH G'). apply app_assoc.
Qed.
Print Assumptions C107_last_percent.

(** The default format is one of them. *)
Theorem C107_default : forall other path fd zone a, mod_date_as other path fd zone a (lit "%Y-%m-%d %H:%M:%S") = mod_date path fd zone a.
Proof.
  intros other path fd zone a. unfold mod_date_as, mod_date. destruct (match os_stat path fd a with Err OSError => Err OSError | r => r end) as [si|e]; [|reflexivity]. cbn [bind]. change (has_char "000"%char (lit "%Y-%m-%d %H:%M:%S")) with false. cbv iota. f_equal.
  destruct (localtime zone (st_mtime si)) as [[days [[y m] d]] [[h mi] s]]. unfold strftime_default. cbn -[year two]. rewrite app_nil_r. reflexivity.
Qed.
Print Assumptions C107_default.

(** With the fields from the year to the second in this order and any words around them, texts
    sort as the times do. *)
Lemma word_order (w r r' : str) : (before (w ++ r) (w ++ r') <-> before r r') /\ (w ++ r = w ++ r' <-> r = r').
Proof.
  split; [|split; [apply app_inv_head|congruence]]. induction w as [|x l IH]; [reflexivity|]. cbn [app before]. rewrite <- IH. split; [intros [H|[_ H]]; [lia|exact H]|auto].
Qed.
Theorem C107_sorted : forall other path fd zone a b sa sb w0 w1 w2 w3 w4 w5 w6,
  names path fd a sa -> names path fd b sb -> (forall w, In w [w0; w1; w2; w3; w4; w5; w6] -> word w) ->
  let t := Qfloor (st_mtime sa) + zone (Qfloor (st_mtime sa)) in let t' := Qfloor (st_mtime sb) + zone (Qfloor (st_mtime sb)) in
  four_digit_years t -> four_digit_years t' ->
  let fmt := format [Word w0; Field Year; Word w1; Field Month; Word w2; Field Day; Word w3; Field Hour; Word w4; Field Minute; Word w5; Field Second; Word w6] in
  exists x y, mod_date_as other path fd zone a fmt = Ok x /\ mod_date_as other path fd zone b fmt = Ok y /\ (before x y <-> t < t') /\ (x = y <-> t = t').
Proof.
  intros other path fd zone a b sa sb w0 w1 w2 w3 w4 w5 w6 Na Nb W t t' R R' fmt.
  assert (G : good [Word w0; Field Year; Word w1; Field Month; Word w2; Field Day; Word w3; Field Hour; Word w4; Field Minute; Word w5; Field Second; Word w6]).
  { intros s I. apply W. cbn [In] in *. repeat (destruct I as [I|I]; [first [discriminate I|injection I as <-; tauto]|]). destruct I. }
  unfold fmt. rewrite (as_text other path fd zone a sa _ Na G), (as_text other path fd zone b sb _ Nb G). eexists. eexists. split; [reflexivity|]. split; [reflexivity|].
  destruct (localtime zone (st_mtime sa)) as [[days [[y m] d]] [[h mi] s]] eqn:E. destruct (localtime zone (st_mtime sb)) as [[days' [[y' m'] d']] [[h' mi'] s']] eqn:E'.
  apply time_is in E, E'. cbv zeta in E, E'. destruct E as (T & _), E' as (T' & _). fold t in T. fold t' in T'.
  pose proof (year_range _ _ _ _ _ _ _ T R). pose proof (month_range _ _ _ _ _ _ _ T). pose proof (year_range _ _ _ _ _ _ _ T' R'). pose proof (month_range _ _ _ _ _ _ _ T').
  destruct (time_order _ _ _ _ _ _ _ _ _ _ _ _ _ _ T T') as (O & Q & _). rewrite O, Q. clear O Q.
  cbn [texts map concat]. rewrite !app_nil_r. cbn -[year two before app].
  pose proof (year_digits y ltac:(lia)) as A1. pose proof (year_digits y' ltac:(lia)) as B1. pose proof (two_digits m ltac:(lia)) as A2. pose proof (two_digits m' ltac:(lia)) as B2. pose proof (two_digits d ltac:(lia)) as A3. pose proof (two_digits d' ltac:(lia)) as B3.
  pose proof (two_digits h ltac:(lia)) as A4. pose proof (two_digits h' ltac:(lia)) as B4. pose proof (two_digits mi ltac:(lia)) as A5. pose proof (two_digits mi' ltac:(lia)) as B5. pose proof (two_digits s ltac:(lia)) as A6. pose proof (two_digits s' ltac:(lia)) as B6.
  split.
  - rewrite (proj1 (word_order w0 _ _)), (proj1 (digits_order _ _ _ _ _ _ _ A1 B1)), (proj1 (word_order w1 _ _)), (proj1 (digits_order _ _ _ _ _ _ _ A2 B2)), (proj1 (word_order w2 _ _)), (proj1 (digits_order _ _ _ _ _ _ _ A3 B3)), (proj1 (word_order w3 _ _)),
      (proj1 (digits_order _ _ _ _ _ _ _ A4 B4)), (proj1 (word_order w4 _ _)), (proj1 (digits_order _ _ _ _ _ _ _ A5 B5)), (proj1 (word_order w5 _ _)), (proj1 (digits_order _ _ _ _ _ _ _ A6 B6)).
    assert (Z0 : ~ before w6 w6) by (clear; induction w6 as [|c w IH]; [intros []|]; intros [X|[_ X]]; [lia|exact (IH X)]). tauto.
  - rewrite (proj2 (word_order w0 _ _)), (proj2 (digits_order _ _ _ _ _ _ _ A1 B1)), (proj2 (word_order w1 _ _)), (proj2 (digits_order _ _ _ _ _ _ _ A2 B2)), (proj2 (word_order w2 _ _)), (proj2 (digits_order _ _ _ _ _ _ _ A3 B3)), (proj2 (word_order w3 _ _)),
      (proj2 (digits_order _ _ _ _ _ _ _ A4 B4)), (proj2 (word_order w4 _ _)), (proj2 (digits_order _ _ _ _ _ _ _ A5 B5)), (proj2 (word_order w5 _ _)), (proj2 (digits_order _ _ _ _ _ _ _ A6 B6)). tauto.
Qed.
Print Assumptions C107_sorted.

(** With the day first they do not: the text of a file with a smaller day of the month sorts
    before, whatever follows. *)
Theorem C107_day_first_refuted : forall other path fd zone a b sa sb w0 rest n y m d h mi s n' y' m' d' h' mi' s',
  names path fd a sa -> names path fd b sb -> good (Word w0 :: Field Day :: rest) ->
  n = Qfloor (st_mtime sa) -> n' = Qfloor (st_mtime sb) -> is_time (n + zone n) y m d h mi s -> is_time (n' + zone n') y' m' d' h' mi' s' -> d' < d ->
  exists x x', mod_date_as other path fd zone a (format (Word w0 :: Field Day :: rest)) = Ok x /\ mod_date_as other path fd zone b (format (Word w0 :: Field Day :: rest)) = Ok x' /\ before x' x.
Proof.
  intros other path fd zone a b sa sb w0 rest n y m d h mi s n' y' m' d' h' mi' s' Na Nb G -> -> T T' L. rewrite (as_text other path fd zone a sa _ Na G), (as_text other path fd zone b sb _ Nb G). eexists. eexists. split; [reflexivity|]. split; [reflexivity|].
  cbn [texts map concat]. apply word_order. destruct (localtime zone (st_mtime sa)) as [[days [[y1 m1] d1]] [[h1 mi1] s1]] eqn:E. destruct (localtime zone (st_mtime sb)) as [[days' [[y2 m2] d2]] [[h2 mi2] s2]] eqn:E'.
  apply time_is in E, E'. cbv zeta in E, E'. destruct E as (T1 & _), E' as (T2 & _). destruct (time_unique _ _ _ _ _ _ _ _ _ _ _ _ _ T T1) as (_ & _ & <- & _). destruct (time_unique _ _ _ _ _ _ _ _ _ _ _ _ _ T' T2) as (_ & _ & <- & _).
  pose proof (month_range _ _ _ _ _ _ _ T). pose proof (month_range _ _ _ _ _ _ _ T'). cbn -[two before app texts]. apply (digits_order 2 d' d); [apply two_digits; lia|apply two_digits; lia|]. left. exact L.
Qed.
Print Assumptions C107_day_first_refuted.

(** Without the hour of the day and the half of the day, a time in the morning and the one twelve
    hours later have the same text. *)
Theorem C107_twelve_refuted : forall other path fd zone a b sa sb l,
  names path fd a sa -> names path fd b sb -> good l -> ~ In (Field Hour) l -> ~ In (Field HalfDay) l ->
  let t := Qfloor (st_mtime sa) + zone (Qfloor (st_mtime sa)) in t mod 86400 < 43200 ->
  Qfloor (st_mtime sb) + zone (Qfloor (st_mtime sb)) = t + 43200 ->
  mod_date_as other path fd zone a (format l) = mod_date_as other path fd zone b (format l).
Proof.
  intros other path fd zone a b sa sb l Na Nb G NH NP t M E. rewrite (as_text other path fd zone a sa _ Na G), (as_text other path fd zone b sb _ Nb G). f_equal. f_equal.
  unfold localtime. cbv zeta. rewrite E. fold t. unfold texts. apply map_ext_in. intros i I. destruct i as [s|f]; [reflexivity|].
  assert (D : (t + 43200) / 86400 = t / 86400 /\ (t + 43200) mod 86400 = t mod 86400 + 43200) by (clear - M; Z.to_euclidean_division_equations; lia). destruct D as [-> ->].
  set (r := t mod 86400) in *. assert (Rr : 0 <= r) by (apply Z.mod_pos_bound; lia). assert (H : (r + 43200) / 3600 = r / 3600 + 12 /\ (r + 43200) mod 3600 = r mod 3600 /\ (r + 43200) mod 60 = r mod 60) by (clear; Z.to_euclidean_division_equations; lia). destruct H as (-> & -> & ->).
  destruct (date_of (t / 86400)) as [[y m] d]. destruct f; try reflexivity; [contradiction|contradiction|]. cbn -[two Z.modulo Z.div Z.add]. replace ((r / 3600 + 12) mod 12) with (r / 3600 mod 12); [reflexivity|]. rewrite <- (Z_mod_plus_full (r / 3600) 1 12). f_equal. 
Qed.
Print Assumptions C107_twelve_refuted.

(** What is raised: as for the default format, and ValueError for a null character in the format
    of an existing file. *)
Theorem C107_raises : forall other path fd zone a fmt,
  (forall e, file_size path fd a = Err e -> mod_date_as other path fd zone a fmt = Err e) /\
  (forall z, file_size path fd a = Ok z -> (mod_date_as other path fd zone a fmt = Err ValueError <-> In "000"%char fmt) /\ (~ In "000"%char fmt <-> exists s, mod_date_as other path fd zone a fmt = Ok s)).
Proof.
  intros other path fd zone a fmt. assert (Hc : has_char "000"%char fmt = true <-> In "000"%char fmt).
  { unfold has_char. rewrite existsb_exists. split; [intros (c & Ic & Ec); apply Ascii.eqb_eq in Ec; subst c; exact Ic|intros I; exists "000"%char; split; [exact I|apply Ascii.eqb_refl]]. }
  unfold file_size, mod_date_as. destruct (os_stat path fd a) as [si|e0]; cbn [bind].
  - split; [discriminate|]. intros z _. rewrite <- Hc. destruct (has_char "000"%char fmt); split; split; try congruence; eauto. intros (s & X). discriminate.
  - split; [|intros z; destruct e0; discriminate]. intros e X. assert (e0 = e) by (destruct e0; congruence). subst e0. destruct e; reflexivity.
Qed.
Print Assumptions C107_raises.

(** The format of the documentation, and others, for a file changed on 29 February 2024 at 13:05:09 (UTC). *)
Example C107_ex : let st := Status 0 1709211909 in let path := fun s : str => Some st in let fd := fun _ : Z => @None status in let zone := fun _ : Z => 0 in let a := Path (lit "f") in
  let l := [Field DayName; Word (lit " "); Field Day; Word (lit " "); Field MonthName; Word (lit " "); Field ShortYear; Word (lit ", day "); Field DayOfYear; Word (lit ", "); Field Hour12; Word (lit " "); Field HalfDay; Word (lit " 100"); Field PercentSign] in
  names path fd a st /\ good l /\ four_digit_years (Qfloor (st_mtime st) + zone (Qfloor (st_mtime st))) /\
  format l = lit "%a %d %b %y, day %j, %I %p 100%%" /\
  mod_date_as (fun _ _ => []) path fd zone a (lit "%Y-%m-%dT%H:%M:%S") = Ok (lit "2024-02-29T13:05:09") /\
  mod_date_as (fun _ _ => []) path fd zone a (format l) = Ok (lit "Thu 29 Feb 24, day 060, 01 PM 100%").
Proof.
  cbv zeta. split; [left; exists (lit "f"); split; [reflexivity|]; split; [intros [X|[]]; discriminate|reflexivity]|]. split.
  - intros s I. cbn [In] in I. repeat (destruct I as [I|I]; [first [discriminate I|injection I as <-; split; cbn; intuition discriminate]|]). destruct I.
  - split; [split; vm_compute; congruence|]. split; [reflexivity|]. split; vm_compute; reflexivity.
Qed.
