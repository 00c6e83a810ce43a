(** * C103: dates and sizes of files. *)
From Coq Require Import Qround.
From Verif Require Import Base BaseLemmas PyStr UtilModel LogModel DateSpec DateModel DateProofs.
Open Scope Z_scope.

(** The years 1000 to 9999. *)
Definition four_digit_years (l : Z) : Prop := -30610224000 <= l < 253402300800.

(** [a] names the file or directory with the status [st], by a path or an open descriptor. *)
Definition names (path : str -> option status) (fd : Z -> option status) (a : fname) (st : status) : Prop :=
  (exists s, a = Path s /\ ~ In "000"%char s /\ path s = Some st) \/ (exists n, a = Descriptor n /\ fd n = Some st).
Lemma names_stat path fd a st : names path fd a st -> os_stat path fd a = Ok st.
Proof.
  intros [(s & -> & N & P)|(n & -> & P)]; cbn [os_stat]; [|rewrite P; reflexivity].
  replace (has_char "000"%char s) with false; [rewrite P; reflexivity|].
  symmetry. unfold has_char. apply not_true_iff_false. rewrite existsb_exists. intros (c & Ic & Ec). apply Ascii.eqb_eq in Ec. subst c. contradiction.
Qed.

(** fl_mod_date: the date and time of day at which the file was changed, in the zone's time. *)
Theorem C103_mod_date path fd zone a st :
  names path fd a st -> let n := Qfloor (st_mtime st) in let l := n + zone n in four_digit_years l ->
  exists y m d h mi s Y M D H MI S, is_time l y m d h mi s /\
    mod_date path fd zone a = Ok (Y ++ lit "-" ++ M ++ lit "-" ++ D ++ lit " " ++ H ++ lit ":" ++ MI ++ lit ":" ++ S) /\
    in_digits 4 y Y /\ in_digits 2 m M /\ in_digits 2 d D /\ in_digits 2 h H /\ in_digits 2 mi MI /\ in_digits 2 s S.
Proof.
  intros N n l R. destruct (default_text zone (st_mtime st) R) as (y & m & d & h & mi & s & Y & M & D & H & MI & S & T & E & I).
  exists y, m, d, h, mi, s, Y, M, D, H, MI, S. split; [exact T|]. split; [|exact I].
  unfold mod_date. rewrite (names_stat _ _ _ _ N). cbn [bind]. rewrite E. reflexivity.
Qed.
Print Assumptions C103_mod_date.

(** What both functions raise, and what the size is; a descriptor will do for a name. *)
Theorem C103_raises path fd zone a :
  (forall e, mod_date path fd zone a = Err e <-> file_size path fd a = Err e) /\
  (forall z, file_size path fd a = Ok z <-> exists st, z = st_size st /\ names path fd a st) /\
  (file_size path fd a = Err OSError <-> (exists s, a = Path s /\ ~ In "000"%char s /\ path s = None) \/ (exists n, a = Descriptor n /\ fd n = None)) /\
  (file_size path fd a = Err TypeError <-> a = Object) /\
  (file_size path fd a = Err ValueError <-> exists s, a = Path s /\ In "000"%char s).
Proof.
  assert (Hc : forall s, has_char "000"%char s = true <-> In "000"%char s).
  { intros s. unfold has_char. rewrite existsb_exists. split; [intros (c & Ic & Ec); apply Ascii.eqb_eq in Ec; subst c; exact Ic|intros I; exists "000"%char; split; [exact I|apply Ascii.eqb_refl]]. }
  unfold mod_date, file_size, os_stat, names. destruct a as [s|n|].
  - destruct (has_char "000"%char s) eqn:E; [apply Hc in E|assert (E' : ~ In "000"%char s) by (rewrite <- Hc, E; discriminate)].
    + split; [intros e; cbn; split; intros X; injection X as <-; reflexivity|]. split; [intros z; split; [discriminate|intros (st & _ & [(s' & X & Y & _)|(n & X & _)]); [injection X as ->; contradiction|discriminate]]|].
      split; [split; [discriminate|intros [(s' & X & Y & _)|(n & X & _)]; [injection X as ->; contradiction|discriminate]]|]. split; [split; discriminate|]. split; [eauto|reflexivity].
    + destruct (path s) as [st|] eqn:P; cbn [bind].
      * split; [intros e; split; discriminate|]. split; [intros z; split; [intros X; injection X as <-; exists st; split; [reflexivity|]; left; eauto|]|].
        { intros (st' & -> & [(s' & X & _ & Y)|(n & X & _)]); [injection X as <-; congruence|discriminate]. }
        split; [split; [discriminate|intros [(s' & X & _ & Y)|(n & X & _)]; [injection X as <-; congruence|discriminate]]|]. split; [split; discriminate|]. split; [discriminate|intros (s' & X & Y); injection X as <-; contradiction].
      * split; [intros e; split; intros X; injection X as <-; reflexivity|]. split; [intros z; split; [discriminate|intros (st' & -> & [(s' & X & _ & Y)|(n & X & _)]); [injection X as <-; congruence|discriminate]]|].
        split; [split; [intros _; left; eauto|reflexivity]|]. split; [split; discriminate|]. split; [discriminate|intros (s' & X & Y); injection X as <-; contradiction].
  - destruct (fd n) as [st|] eqn:P; cbn [bind].
    + split; [intros e; split; discriminate|]. split; [intros z; split; [intros X; injection X as <-; exists st; split; [reflexivity|]; right; eauto|]|].
      { intros (st' & -> & [(s' & X & _)|(m & X & Y)]); [discriminate|injection X as <-; congruence]. }
      split; [split; [discriminate|intros [(s' & X & _)|(m & X & Y)]; [discriminate|injection X as <-; congruence]]|]. split; [split; discriminate|]. split; [discriminate|intros (s' & X & _); discriminate].
    + split; [intros e; split; intros X; injection X as <-; reflexivity|]. split; [intros z; split; [discriminate|intros (st' & -> & [(s' & X & _)|(m & X & Y)]); [discriminate|injection X as <-; congruence]]|].
      split; [split; [intros _; right; eauto|reflexivity]|]. split; [split; discriminate|]. split; [discriminate|intros (s' & X & _); discriminate].
  - split; [intros e; cbn; split; intros X; injection X as <-; reflexivity|]. split; [intros z; split; [discriminate|intros (st' & _ & [(s' & X & _)|(m & X & _)]); discriminate]|].
    split; [split; [discriminate|intros [(s' & X & _)|(m & X & _)]; discriminate]|]. split; [tauto|]. split; [discriminate|intros (s' & X & _); discriminate].
Qed.
Print Assumptions C103_raises.

(** Two dates compare as text like the local times of the two changes; so, while the clocks are
    not changed, like the changes themselves, to the second. *)
Theorem C103_order path fd zone a b sa sb :
  names path fd a sa -> names path fd b sb ->
  let n := Qfloor (st_mtime sa) in let n' := Qfloor (st_mtime sb) in
  four_digit_years (n + zone n) -> four_digit_years (n' + zone n') ->
  exists x y, mod_date path fd zone a = Ok x /\ mod_date path fd zone b = Ok y /\
    (before x y <-> n + zone n < n' + zone n') /\ (x = y <-> n + zone n = n' + zone n') /\
    (zone n = zone n' -> (before x y <-> n < n') /\ (x = y <-> n = n')).
Proof.
  intros Ea Eb n n' R R'. apply names_stat in Ea, Eb. unfold mod_date. rewrite Ea, Eb. cbn [bind]. do 2 eexists. split; [reflexivity|]. split; [reflexivity|].
  destruct (default_order zone zone (st_mtime sa) (st_mtime sb) R R') as [O E]. split; [exact O|]. split; [exact E|].
  intros Z. fold n n' in O, E. rewrite O, E, Z. lia.
Qed.
Print Assumptions C103_order.

(** When the clocks have been set back, a later change has an earlier date, or the same. *)
Theorem C103_clocks_refuted zone t t' :
  four_digit_years (Qfloor t + zone (Qfloor t)) -> four_digit_years (Qfloor t' + zone (Qfloor t')) ->
  Qfloor t < Qfloor t' -> let back := zone (Qfloor t) - zone (Qfloor t') in
  (Qfloor t' - Qfloor t < back <-> before (strftime_default (localtime zone t')) (strftime_default (localtime zone t))) /\
  (Qfloor t' - Qfloor t = back <-> strftime_default (localtime zone t') = strftime_default (localtime zone t)).
Proof.
  intros R R' L back. destruct (default_order zone zone t' t R' R) as [O E]. rewrite O, E. unfold back. lia.
Qed.
Print Assumptions C103_clocks_refuted.

(** fl_get_stat's date, time.ctime: the day of the week, month, day, time and year. *)
Theorem C103_ctime zone t : let l := Qfloor t + zone (Qfloor t) in four_digit_years l ->
  exists y m d h mi s W Mo D H MI S Y, is_time l y m d h mi s /\
    ctime zone t = W ++ lit " " ++ Mo ++ lit " " ++ D ++ lit " " ++ H ++ lit ":" ++ MI ++ lit ":" ++ S ++ lit " " ++ Y /\
    nth_error [lit "Thu"; lit "Fri"; lit "Sat"; lit "Sun"; lit "Mon"; lit "Tue"; lit "Wed"] (Z.to_nat (l / 86400 mod 7)) = Some W /\
    nth_error [lit "Jan"; lit "Feb"; lit "Mar"; lit "Apr"; lit "May"; lit "Jun"; lit "Jul"; lit "Aug"; lit "Sep"; lit "Oct"; lit "Nov"; lit "Dec"] (Z.to_nat (m - 1)) = Some Mo /\
    (d < 10 -> exists x, in_digits 1 d x /\ D = lit " " ++ x) /\ (10 <= d -> in_digits 2 d D) /\
    in_digits 2 h H /\ in_digits 2 mi MI /\ in_digits 2 s S /\ in_digits 4 y Y.
Proof.
  intros l R. destruct (ctime_text zone t R) as (y & m & d & h & mi & s & W & Mo & D & H & MI & S & Y & T & E & EW & EM & ED & I).
  exists y, m, d, h, mi, s, W, Mo, D, H, MI, S, Y. split; [exact T|]. split; [exact E|]. split; [exact EW|]. split; [exact EM|].
  subst D. destruct (space2_digits d) as [A B]; [pose proof (month_range _ _ _ _ _ _ _ T); lia|]. split; [exact A|]. split; [exact B|]. exact I.
Qed.
Print Assumptions C103_ctime.
(** It tells changes apart to the second, but it does not order them: a file of a Friday comes
    before one of the Thursday before. *)
Theorem C103_ctime_equal zone t t' : four_digit_years (Qfloor t + zone (Qfloor t)) -> four_digit_years (Qfloor t' + zone (Qfloor t')) ->
  (ctime zone t = ctime zone t' <-> Qfloor t + zone (Qfloor t) = Qfloor t' + zone (Qfloor t')).
Proof. exact (ctime_equal zone zone t t'). Qed.
Print Assumptions C103_ctime_equal.
Theorem C103_ctime_order_refuted zone t t' : let l := Qfloor t + zone (Qfloor t) in let l' := Qfloor t' + zone (Qfloor t') in
  four_digit_years l -> four_digit_years l' -> l / 86400 mod 7 = 0 -> l' / 86400 = l / 86400 + 1 -> l < l' /\ before (ctime zone t') (ctime zone t).
Proof.
  intros l l' R R' Th Fr. split; [clear - Fr; Z.to_euclidean_division_equations; lia|].
  destruct (C103_ctime zone t R) as (y & m & d & h & mi & s & W & Mo & D & H & MI & S & Y & _ & E & EW & _). destruct (C103_ctime zone t' R') as (y' & m' & d' & h' & mi' & s' & W' & Mo' & D' & H' & MI' & S' & Y' & _ & E' & EW' & _).
  rewrite E, E'. fold l in EW. fold l' in EW'. rewrite Th in EW. rewrite Fr in EW'. replace ((l / 86400 + 1) mod 7) with 1 in EW' by (clear - Th; Z.to_euclidean_division_equations; lia).
  injection EW as <-. injection EW' as <-. left. apply Nat.ltb_lt. reflexivity.
Qed.
Print Assumptions C103_ctime_order_refuted.

(** Dated logs: two of the same minute have the same file. *)
Theorem C103_dated_log zone log_file t t' : four_digit_years (Qfloor t + zone (Qfloor t)) -> four_digit_years (Qfloor t' + zone (Qfloor t')) ->
  (dated_log zone log_file t = dated_log zone log_file t' <-> (Qfloor t + zone (Qfloor t)) / 60 = (Qfloor t' + zone (Qfloor t')) / 60).
Proof. intros R R'. unfold dated_log. rewrite stamped_inj. exact (log_order zone zone t t' R R'). Qed.
Print Assumptions C103_dated_log.

(** The night the clocks were set back in Tasmania, 7 April 2024: half past two in summer time
    and, three quarters of an hour later, a quarter past two. *)
Definition hobart (n : Z) : Z := if n <? 1712419200 then 39600 else 36000.
Example clocks_case : let t := (inject_Z 1712417400 + (3 # 4))%Q in let t' := inject_Z 1712420100 in
  Qfloor t < Qfloor t' /\ Qfloor t' - Qfloor t < hobart (Qfloor t) - hobart (Qfloor t') /\
  strftime_default (localtime hobart t) = lit "2024-04-07 02:30:00" /\ strftime_default (localtime hobart t') = lit "2024-04-07 02:15:00".
Proof. vm_compute. repeat split; reflexivity. Qed.
Example ctime_case : ctime hobart (inject_Z 1712417400) = lit "Sun Apr  7 02:30:00 2024" /\ ctime (fun _ => 0) (inject_Z 951782400) = lit "Tue Feb 29 00:00:00 2000" /\
  ctime (fun _ => -1) 0 = lit "Wed Dec 31 23:59:59 1969" /\ four_digit_years (1712417400 + 39600).
Proof. vm_compute. repeat split; try reflexivity; discriminate. Qed.
Example log_case : dated_log hobart (lit "log/wind.log") (inject_Z 1712417400) = lit "log/wind.202404070230.log" /\ dated_log hobart (lit "log/wind.log") (inject_Z 1712417459) = lit "log/wind.202404070230.log".
Proof. vm_compute. split; reflexivity. Qed.
Example size_case : file_size (fun _ => Some (Status 12 0)) (fun _ => None) (Path (lit "a")) = Ok 12 /\ file_size (fun _ => None) (fun _ => None) (Descriptor 0) = Err OSError.
Proof. split; reflexivity. Qed.
