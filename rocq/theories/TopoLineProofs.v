(** * Ridges, valleys and their pairing (C35-C37). *)
From Coq Require Import Sorted.
From Verif Require Import Base BaseLemmas TopoModel TopoSpec.
Open Scope Z_scope.

(** ** Sorted lists *)
Notation sorted := (StronglySorted Z.lt).

Lemma filter_sorted f l : sorted l -> sorted (filter f l).
Proof.
  induction 1 as [|a l S IH F]; cbn; [constructor|]. destruct (f a); [|exact IH]. constructor; [exact IH|].
  rewrite Forall_forall in *. intros x Hx. apply filter_In in Hx. apply F. tauto.
Qed.
Lemma seq_sorted n k : sorted (map Z.of_nat (seq k n)).
Proof.
  revert k. induction n as [|n IH]; intros k; cbn; constructor; [apply IH|]. rewrite Forall_forall. intros x Hx.
  apply in_map_iff in Hx. destruct Hx as (m & <- & Hm). apply in_seq in Hm. lia.
Qed.
Lemma zrange_sorted n : sorted (zrange n).
Proof. apply seq_sorted. Qed.
Lemma sorted_app_inv a b : sorted (a ++ b) -> sorted a /\ sorted b /\ forall x y, In x a -> In y b -> x < y.
Proof.
  induction a as [|z a IH]; cbn; intros H; [repeat split; [constructor|exact H|intros x y []]|].
  inversion H as [|? ? S F]; subst. destruct (IH S) as (A & B & C). rewrite Forall_forall in F. split; [constructor; [exact A|]|split; [exact B|]].
  - rewrite Forall_forall. intros x Hx. apply F. apply in_or_app. auto.
  - intros x y [<-|Hx] Hy; [apply F; apply in_or_app; auto|auto].
Qed.
Lemma sorted_app a b : sorted a -> sorted b -> (forall x y, In x a -> In y b -> x < y) -> sorted (a ++ b).
Proof.
  intros Sa Sb H. induction Sa as [|z a Sa IH F]; cbn; [exact Sb|]. constructor.
  - apply IH. intros x y Hx Hy. apply H; [right|]; assumption.
  - rewrite Forall_forall in *. intros x Hx. apply in_app_or in Hx. destruct Hx as [Hx|Hx]; [auto|]. apply H; [left; reflexivity|exact Hx].
Qed.
Lemma sorted_ext a b : sorted a -> sorted b -> (forall x, In x a <-> In x b) -> a = b.
Proof.
  intros Sa. revert b. induction Sa as [|x a Sa IH F]; intros b Sb H.
  - destruct b as [|y b]; [reflexivity|]. destruct (proj2 (H y) (or_introl eq_refl)).
  - destruct b as [|y b]; [destruct (proj1 (H x) (or_introl eq_refl))|]. inversion Sb as [|? ? Sb' Fb]; subst. rewrite Forall_forall in *.
    assert (x = y).
    { destruct (proj1 (H x) (or_introl eq_refl)) as [E|E]; [congruence|]. destruct (proj2 (H y) (or_introl eq_refl)) as [E'|E']; [congruence|].
      apply F in E'. apply Fb in E. lia. }
    subst y. f_equal. apply IH; [exact Sb'|]. intros z. split; intros Hz.
    + destruct (proj1 (H z) (or_intror Hz)) as [E|E]; [|exact E]. subst z. apply F in Hz. lia.
    + destruct (proj2 (H z) (or_intror Hz)) as [E|E]; [|exact E]. subst z. apply Fb in Hz. lia.
Qed.
Lemma sorted_ascending l : sorted l -> ascending l.
Proof.
  intros S. induction S as [|x l S IH F]; intros i j a b Hij Hi Hj.
  - destruct i; discriminate.
  - rewrite Forall_forall in F. destruct j as [|j]; [lia|]. cbn in Hj. destruct i as [|i]; cbn in Hi.
    + injection Hi as <-. apply F. eapply nth_error_In; eauto.
    + apply (IH i j); [lia|assumption|assumption].
Qed.
Lemma map_rev_sorted n l : sorted l -> sorted (rev (map (fun i => n - i - 1) l)).
Proof.
  induction 1 as [|x l S IH F]; cbn; [constructor|]. apply sorted_app; [exact IH|repeat constructor|].
  intros a b Ha [<-|[]]. apply in_rev in Ha. apply in_map_iff in Ha. destruct Ha as (y & <- & Hy). rewrite Forall_forall in F. apply F in Hy. lia.
Qed.

(** ** np_where, np_diff *)
Lemma np_diff_length y : y <> [] -> zlen (np_diff y) = zlen y - 1.
Proof.
  destruct y as [|a y]; [congruence|intros _]. revert a. induction y as [|b y IH]; intros a; [reflexivity|].
  specialize (IH b). change (np_diff (a :: b :: y)) with ((b - a)%Q :: np_diff (b :: y)). unfold zlen in *. cbn [length] in *. lia.
Qed.
Lemma elev_cons a y i : 0 < i -> elev_at (a :: y) i = elev_at y (i - 1).
Proof. intros H. unfold elev_at. replace (Z.to_nat i) with (S (Z.to_nat (i - 1))) by lia. reflexivity. Qed.
Lemma np_diff_at y i : 0 <= i < last_pt y -> nth_error (np_diff y) (Z.to_nat i) = Some (elev_at y (i + 1) - elev_at y i)%Q.
Proof.
  revert i. induction y as [|a y IH]; intros i Hi; [unfold last_pt, zlen in Hi; cbn in Hi; lia|].
  destruct y as [|b y]; [unfold last_pt, zlen in Hi; cbn in Hi; lia|].
  change (np_diff (a :: b :: y)) with ((b - a)%Q :: np_diff (b :: y)).
  destruct (Z.eq_dec i 0) as [->|N]; [reflexivity|]. replace (Z.to_nat i) with (S (Z.to_nat (i - 1))) by lia. cbn [nth_error].
  rewrite IH by (unfold last_pt, zlen in *; cbn [length] in *; lia).
  rewrite (elev_cons a) by lia. rewrite (elev_cons a (b :: y) i) by lia. do 3 f_equal. lia.
Qed.
Lemma in_np_where p l i : In i (np_where p l) <-> 0 <= i < zlen l /\ exists q, nth_error l (Z.to_nat i) = Some q /\ p q = true.
Proof.
  unfold np_where. rewrite filter_In, in_zrange. destruct (nth_error l (Z.to_nat i)) as [q|]; split.
  - intros [H E]. split; [exact H|]. exists q. auto.
  - intros [H (q' & E & P)]. injection E as <-. auto.
  - intros [_ E]. discriminate.
  - intros [_ (q & E & _)]. discriminate.
Qed.
Lemma np_where_sorted p l : sorted (np_where p l).
Proof. apply filter_sorted, zrange_sorted. Qed.
Lemma np_where_all p l : zlen l = zlen (np_where p l) -> forall i, 0 <= i < zlen l -> In i (np_where p l).
Proof.
  intros H i Hi. unfold np_where in *.
  assert (L : forall (f : Z -> bool) m, (length (filter f m) <= length m)%nat).
  { intros f. induction m as [|x m IH]; cbn; [lia|]. destruct (f x); cbn; lia. }
  assert (G : forall (f : Z -> bool) m, length (filter f m) = length m -> filter f m = m).
  { intros f. induction m as [|x m IH]; cbn; [reflexivity|]. destruct (f x); cbn; intros E; [f_equal; apply IH; lia|].
    pose proof (L f m). lia. }
  rewrite G; [apply in_zrange; exact Hi|]. unfold zlen in H. rewrite zrange_length. unfold zlen. lia.
Qed.

(** Comparisons in terms of the profile. *)
Lemma diff_in y p i : 2 <= zlen y -> In i (np_where p (np_diff y)) <-> 0 <= i < last_pt y /\ p (elev_at y (i + 1) - elev_at y i)%Q = true.
Proof.
  intros H. rewrite in_np_where. rewrite np_diff_length by (intros ->; cbn in H; lia). unfold last_pt. split.
  - intros [Hi (q & E & P)]. split; [exact Hi|]. rewrite np_diff_at in E by exact Hi. injection E as <-. exact P.
  - intros [Hi P]. split; [exact Hi|]. eexists. split; [apply np_diff_at; exact Hi|exact P].
Qed.
Lemma a1_in y i : 2 <= zlen y ->
  In i (np_where (fun d => Qleb d 0) (np_diff y ++ [0%Q])) <-> 0 <= i <= last_pt y /\ (i = last_pt y \/ (elev_at y (i + 1) <= elev_at y i)%Q).
Proof.
  intros H. assert (L : zlen (np_diff y) = last_pt y) by (apply np_diff_length; intros ->; cbn in H; lia).
  rewrite in_np_where. assert (L2 : zlen (np_diff y ++ [0%Q]) = last_pt y + 1) by (unfold zlen in *; rewrite app_length; cbn; lia).
  rewrite L2. destruct (Z.eq_dec i (last_pt y)) as [->|N].
  - split; [intros [Hi _]; split; [lia|auto]|]. intros [Hi _]. split; [lia|]. exists 0%Q. split; [|reflexivity].
    rewrite nth_error_app2 by (unfold zlen in L; lia). replace (Z.to_nat (last_pt y) - length (np_diff y))%nat with 0%nat by (unfold zlen in L; lia). reflexivity.
  - split.
    + intros [Hi (q & E & P)]. split; [lia|]. right. rewrite nth_error_app1 in E by (unfold zlen in L; lia).
      rewrite np_diff_at in E by lia. injection E as <-. apply Qleb_le in P. lra.
    + intros [Hi [E|P]]; [lia|]. split; [lia|]. eexists. rewrite nth_error_app1 by (unfold zlen in L; lia). split; [apply np_diff_at; lia|].
      apply Qleb_le. lra.
Qed.
Lemma a2_in y i : 2 <= zlen y ->
  In i (np_where (fun d => Qltb 0 d) (1%Q :: np_diff y)) <-> 0 <= i <= last_pt y /\ (i = 0 \/ (elev_at y (i - 1) < elev_at y i)%Q).
Proof.
  intros H. assert (L : zlen (np_diff y) = last_pt y) by (apply np_diff_length; intros ->; cbn in H; lia).
  rewrite in_np_where. assert (L2 : zlen (1%Q :: np_diff y) = last_pt y + 1) by (unfold zlen in *; cbn [length]; lia).
  rewrite L2. destruct (Z.eq_dec i 0) as [->|N].
  - split; [intros [Hi _]; split; [lia|auto]|]. intros [Hi _]. split; [lia|]. exists 1%Q. split; reflexivity.
  - split.
    + intros [Hi (q & E & P)]. split; [lia|]. right. replace (Z.to_nat i) with (S (Z.to_nat (i - 1))) in E by lia. cbn [nth_error] in E.
      rewrite np_diff_at in E by lia. injection E as <-. apply Qltb_lt in P. replace (i - 1 + 1) with i in P by lia. lra.
    + intros [Hi [E|P]]; [lia|]. split; [lia|]. eexists. replace (Z.to_nat i) with (S (Z.to_nat (i - 1))) by lia. cbn [nth_error].
      split; [apply np_diff_at; lia|]. apply Qltb_lt. replace (i - 1 + 1) with i by lia. lra.
Qed.
Lemma in_intersect a b i : In i (np_intersect a b) <-> In i a /\ In i b.
Proof.
  unfold np_intersect. rewrite filter_In, existsb_exists. split; intros [H1 H2]; split; auto.
  - destruct H2 as (x & Hx & E). apply Z.eqb_eq in E. subst. exact Hx.
  - exists i. split; [exact H2|apply Z.eqb_refl].
Qed.

Definition raw_peaks (y : list Q) : list Z :=
  np_intersect (np_where (fun d => Qleb d 0) (np_diff y ++ [0%Q])) (np_where (fun d => Qltb 0 d) (1%Q :: np_diff y)).
Lemma raw_in y i : 2 <= zlen y -> In i (raw_peaks y) <->
  0 <= i <= last_pt y /\ (i = last_pt y \/ (elev_at y (i + 1) <= elev_at y i)%Q) /\ (i = 0 \/ (elev_at y (i - 1) < elev_at y i)%Q).
Proof. intros H. unfold raw_peaks. rewrite in_intersect, a1_in, a2_in by exact H. tauto. Qed.
Lemma raw_sorted y : sorted (raw_peaks y).
Proof. unfold raw_peaks, np_intersect. apply filter_sorted, np_where_sorted. Qed.

Lemma compress_id l : sorted l -> (forall i, In i l -> ~ In (i + 1) l) ->
  np_compress (map (fun v => negb (v =? 1)) (0 :: z_diff l)) l = l.
Proof.
  intros S H. destruct l as [|a l]; [reflexivity|]. cbn [map np_compress negb Z.eqb]. f_equal.
  revert a S H. induction l as [|b l IH]; intros a S H; [reflexivity|]. cbn [z_diff map np_compress].
  destruct (Z.eqb_spec (b - a) 1) as [E|N].
  - exfalso. apply (H a (or_introl eq_refl)). right. left. lia.
  - cbn [negb]. f_equal. apply IH; [inversion S; assumption|]. intros i Hi Hi'. apply (H i); right; assumption.
Qed.

(** ** Runs *)
Lemma rise_up y j : 0 <= j < last_pt y -> (elev_at y j < elev_at y (j + 1))%Q ->
  exists r, j < r <= last_pt y /\ (forall k, j <= k < r -> (elev_at y k < elev_at y (k + 1))%Q) /\
            (r = last_pt y \/ (elev_at y (r + 1) <= elev_at y r)%Q).
Proof.
  intros Hj. remember (Z.to_nat (last_pt y - j)) as n eqn:En. revert j Hj En. induction n as [|n IH]; intros j Hj En H; [lia|].
  destruct (Z.eq_dec (j + 1) (last_pt y)) as [E|N].
  - exists (j + 1). split; [lia|]. split; [|left; exact E]. intros k Hk. replace k with j by lia. exact H.
  - destruct (Qlt_le_dec (elev_at y (j + 1)) (elev_at y (j + 1 + 1))) as [U|D].
    + destruct (IH (j + 1) ltac:(lia) ltac:(lia) U) as (r & Hr & R & T). exists r. split; [lia|]. split; [|exact T].
      intros k Hk. destruct (Z.eq_dec k j) as [->|Nk]; [exact H|]. apply R. lia.
    + exists (j + 1). split; [lia|]. split; [|right; exact D]. intros k Hk. replace k with j by lia. exact H.
Qed.
Lemma rise_down y r : 0 < r <= last_pt y -> (elev_at y (r - 1) < elev_at y r)%Q ->
  exists v, 0 <= v < r /\ (forall k, v <= k < r -> (elev_at y k < elev_at y (k + 1))%Q) /\
            (v = 0 \/ (elev_at y v <= elev_at y (v - 1))%Q).
Proof.
  intros Hr. remember (Z.to_nat r) as n eqn:En. revert r Hr En. induction n as [|n IH]; intros r Hr En H; [lia|].
  destruct (Z.eq_dec r 1) as [->|N].
  - exists 0. split; [lia|]. split; [|left; reflexivity]. intros k Hk. replace k with 0 by lia. exact H.
  - destruct (Qlt_le_dec (elev_at y (r - 1 - 1)) (elev_at y (r - 1))) as [U|D].
    + destruct (IH (r - 1) ltac:(lia) ltac:(lia) U) as (v & Hv & R & T). exists v. split; [lia|]. split; [|exact T].
      intros k Hk. destruct (Z.eq_dec k (r - 1)) as [->|Nk]; [replace (r - 1 + 1) with r by lia; exact H|]. apply R. lia.
    + exists (r - 1). split; [lia|]. split; [|right; exact D]. intros k Hk. replace k with (r - 1) by lia. replace (r - 1 + 1) with r by lia. exact H.
Qed.

(** The first change of a profile that changes at all. *)
Lemma first_change y : (exists j, 0 <= j < last_pt y /\ ~ (elev_at y (j + 1) == elev_at y j)%Q) ->
  exists j, 0 <= j < last_pt y /\ (forall k, 0 <= k <= j -> (elev_at y k == elev_at y 0)%Q) /\ ~ (elev_at y (j + 1) == elev_at y j)%Q.
Proof.
  intros (j & Hj & H).
  assert (G : forall n, (exists j, 0 <= j <= Z.of_nat n /\ 0 <= j < last_pt y /\ (forall k, 0 <= k <= j -> (elev_at y k == elev_at y 0)%Q) /\ ~ (elev_at y (j + 1) == elev_at y j)%Q)
    \/ (forall k, 0 <= k <= Z.of_nat n -> k < last_pt y -> (elev_at y (k + 1) == elev_at y k)%Q)).
  { induction n as [|n [IH|IH]].
    - destruct (Qeq_dec (elev_at y (0 + 1)) (elev_at y 0)) as [E|N].
      + right. intros k Hk _. replace k with 0 by lia. exact E.
      + left. exists 0. split; [lia|]. split; [lia|]. split; [|exact N]. intros k Hk. replace k with 0 by lia. reflexivity.
    - left. destruct IH as (i & A & B). exists i. split; [lia|exact B].
    - destruct (Z_lt_ge_dec (Z.of_nat (S n)) (last_pt y)) as [L|G]; [|right; intros k Hk Hk'; apply IH; lia].
      destruct (Qeq_dec (elev_at y (Z.of_nat (S n) + 1)) (elev_at y (Z.of_nat (S n)))) as [E|N].
      + right. intros k Hk Hk'. destruct (Z.eq_dec k (Z.of_nat (S n))) as [->|Nk]; [exact E|]. apply IH; lia.
      + left. exists (Z.of_nat (S n)). split; [lia|]. split; [lia|]. split; [|exact N].
        assert (F : forall m, (m <= S n)%nat -> (elev_at y (Z.of_nat m) == elev_at y 0)%Q).
        { induction m as [|m IHm]; intros Hm; [reflexivity|]. rewrite <- IHm by lia. replace (Z.of_nat (S m)) with (Z.of_nat m + 1) by lia. apply IH; lia. }
        intros k Hk. rewrite <- (Z2Nat.id k) by lia. apply F. lia. }
  destruct (G (Z.to_nat (last_pt y))) as [(i & _ & B)|F]; [exists i; exact B|]. destruct H. apply F; lia.
Qed.
Lemma first_change_unique y j k : (forall i, 0 <= i <= j -> (elev_at y i == elev_at y 0)%Q) -> ~ (elev_at y (j + 1) == elev_at y j)%Q ->
  (forall i, 0 <= i <= k -> (elev_at y i == elev_at y 0)%Q) -> ~ (elev_at y (k + 1) == elev_at y k)%Q -> 0 <= j -> 0 <= k -> j = k.
Proof.
  intros Aj Nj Ak Nk Hj Hk. destruct (Z.lt_trichotomy j k) as [L|[E|L]]; [|exact E|].
  - destruct Nj. rewrite (Ak (j + 1)) by lia. rewrite (Ak j) by lia. reflexivity.
  - destruct Nk. rewrite (Aj (k + 1)) by lia. rewrite (Aj k) by lia. reflexivity.
Qed.

Lemma nz_first y : 2 <= zlen y -> forall j t, np_where (fun d => negb (Qeq_bool d 0)) (np_diff y) = j :: t ->
  0 <= j < last_pt y /\ (forall k, 0 <= k <= j -> (elev_at y k == elev_at y 0)%Q) /\ ~ (elev_at y (j + 1) == elev_at y j)%Q.
Proof.
  intros H j t E. pose proof (np_where_sorted (fun d => negb (Qeq_bool d 0)) (np_diff y)) as Srt. rewrite E in Srt. inversion Srt as [|? ? _ F]; subst. rewrite Forall_forall in F.
  assert (I : In j (np_where (fun d => negb (Qeq_bool d 0)) (np_diff y))) by (rewrite E; left; reflexivity).
  apply diff_in in I; [|exact H]. destruct I as [Hj P]. apply negb_true_iff in P.
  assert (N : ~ (elev_at y (j + 1) == elev_at y j)%Q) by (intros C; apply Qeq_bool_neq in P; apply P; rewrite C; ring).
  split; [exact Hj|]. split; [|exact N].
  assert (Z0 : forall k, 0 <= k < j -> (elev_at y (k + 1) == elev_at y k)%Q).
  { intros k Hk. destruct (Qeq_dec (elev_at y (k + 1)) (elev_at y k)) as [C|C]; [exact C|]. exfalso.
    assert (I : In k (np_where (fun d => negb (Qeq_bool d 0)) (np_diff y))).
    { apply diff_in; [exact H|]. split; [lia|]. apply negb_true_iff. destruct (Qeq_bool (elev_at y (k + 1) - elev_at y k) 0) eqn:B; [|reflexivity].
      apply Qeq_bool_eq in B. destruct C. lra. }
    rewrite E in I. destruct I as [<-|I]; [lia|]. apply F in I. lia. }
  assert (G : forall m, (m <= Z.to_nat j)%nat -> (elev_at y (Z.of_nat m) == elev_at y 0)%Q).
  { induction m as [|m IHm]; intros Hm; [reflexivity|]. rewrite <- IHm by lia. replace (Z.of_nat (S m)) with (Z.of_nat m + 1) by lia. apply Z0; lia. }
  intros k Hk. rewrite <- (Z2Nat.id k) by lia. apply G. lia.
Qed.

Lemma pyget_cons0 {A} (x : A) l : pyget (x :: l) 0 = Ok x.
Proof. apply pyget_nth; [unfold zlen; cbn [length]; lia|reflexivity]. Qed.

(** ** findpeaks *)
Lemma trim_start_spec y : 2 <= zlen y -> (exists j, 0 <= j < last_pt y /\ ~ (elev_at y (j + 1) == elev_at y j)%Q) ->
  raw_peaks y <> [] ->
  exists l, trim_start (np_diff y) (raw_peaks y) = Ok l /\ sorted l /\ forall i, In i l <-> is_ridge y i.
Proof.
  intros H C NE. pose proof (raw_sorted y) as Srt. pose proof (fun i => raw_in y i H) as RI.
  destruct (first_change y C) as (f & Hf & Ff & Nf).
  assert (NR : forall i, 0 < i -> (In i (raw_peaks y) <-> is_ridge y i)).
  { intros i Hi. rewrite RI. unfold is_ridge. split.
    - intros (A & B & [D|D]); [lia|]. right. split; [lia|]. split; assumption.
    - intros [[E _]|(A & B & D)]; [lia|]. split; [lia|]. split; [exact D|right; exact B]. }
  assert (NG : forall i, i < 0 -> ~ is_ridge y i) by (intros i Hi [[E _]|[E _]]; lia).
  assert (NG' : forall i, i < 0 -> ~ In i (raw_peaks y)) by (intros i Hi E; apply RI in E; lia).
  assert (FF : first_falls y <-> (elev_at y (f + 1) < elev_at y f)%Q).
  { split.
    - intros (j & Hj & Fj & Lj). assert (j = f) by (apply (first_change_unique y); try assumption; try lia; lra). subst. exact Lj.
    - intros L. exists f. split; [exact Hf|]. split; assumption. }
  assert (D0 : pyget (np_diff y) 0 = Ok (elev_at y (0 + 1) - elev_at y 0)%Q).
  { apply pyget_nth; [rewrite np_diff_length by (intros ->; cbn in H; lia); lia|]. apply np_diff_at. unfold last_pt. lia. }
  unfold trim_start. destruct (raw_peaks y) as [|i0 t] eqn:ER; [congruence|]. rewrite pyget_cons0. cbn [bind].
  destruct (Z.eqb_spec i0 0) as [->|N0].
  - rewrite D0. cbn [bind].
    assert (K0 : In 0 (0 :: t)) by (left; reflexivity). apply RI in K0. destruct K0 as (_ & [K0|K0] & _); [unfold last_pt in K0; lia|].
    destruct (Qeq_bool (elev_at y (0 + 1) - elev_at y 0) 0) eqn:E0.
    + apply Qeq_bool_eq in E0.
      destruct (np_where (fun d => negb (Qeq_bool d 0)) (np_diff y)) as [|j nz] eqn:EN.
      { exfalso. destruct C as (j & Hj & Nj). assert (I : In j (np_where (fun d => negb (Qeq_bool d 0)) (np_diff y))).
        { apply diff_in; [exact H|]. split; [exact Hj|]. apply negb_true_iff. destruct (Qeq_bool (elev_at y (j + 1) - elev_at y j) 0) eqn:B; [|reflexivity].
          apply Qeq_bool_eq in B. destruct Nj. lra. }
        rewrite EN in I. destruct I. }
      destruct (nz_first y H j nz EN) as (Hj & Fj & Nj). rewrite pyget_cons0. cbn [bind].
      assert (j = f) by (apply (first_change_unique y); try assumption; lia). subst j.
      rewrite (pyget_nth (np_diff y) f (elev_at y (f + 1) - elev_at y f)%Q) by
        (try (rewrite np_diff_length by (intros ->; cbn in H; lia); unfold last_pt in Hf; lia); apply np_diff_at; exact Hf).
      cbn [bind]. inversion Srt as [|? ? St Ft]; subst. rewrite Forall_forall in Ft.
      destruct (Qltb 0 (elev_at y (f + 1) - elev_at y f)) eqn:EF.
      * apply Qltb_lt in EF. exists t. split; [reflexivity|]. split; [exact St|]. intros i. destruct (Z.lt_trichotomy i 0) as [L|[->|G]].
        -- split; intros X; exfalso; [apply Ft in X; lia|exact (NG i L X)].
        -- split; intros X; [apply Ft in X; lia|]. destruct X as [[_ X]|[X _]]; [|lia]. apply FF in X. lra.
        -- rewrite <- (NR i G). cbn. split; [auto|]. intros [X|X]; [lia|exact X].
      * apply Qltb_ge in EF. exists (0 :: t). split; [reflexivity|]. split; [exact Srt|]. intros i. destruct (Z.lt_trichotomy i 0) as [L|[->|G]].
        -- split; intros X; exfalso; [exact (NG' i L X)|exact (NG i L X)].
        -- split; intros _; [|left; reflexivity]. left. split; [reflexivity|]. apply FF. 
           apply Qle_lteq in EF. destruct EF as [EF|EF]; [lra|]. destruct Nf. lra.
        -- apply NR. exact G.
    + apply Qeq_bool_neq in E0. exists (0 :: t). split; [reflexivity|]. split; [exact Srt|].
      assert (F0 : f = 0).
      { apply (first_change_unique y); try assumption; try lia.
        - intros i Hi. replace i with 0 by lia. reflexivity.
        - intros X. apply E0. rewrite X. ring. }
      intros i. destruct (Z.lt_trichotomy i 0) as [L|[->|G]].
      * split; intros X; exfalso; [exact (NG' i L X)|exact (NG i L X)].
      * split; intros _; [|left; reflexivity]. left. split; [reflexivity|]. apply FF. rewrite F0 in *.
        apply Qle_lteq in K0. destruct K0 as [K0|K0]; [exact K0|]. destruct Nf. exact K0.
      * apply NR. exact G.
  - exists (i0 :: t). split; [reflexivity|]. split; [exact Srt|]. intros i. destruct (Z.lt_trichotomy i 0) as [L|[->|G]].
    + split; intros X; exfalso; [exact (NG' i L X)|exact (NG i L X)].
    + split; intros X; exfalso.
      * destruct X as [X|X]; [congruence|]. inversion Srt as [|? ? _ Ft]; subst. rewrite Forall_forall in Ft. apply Ft in X.
        assert (I : In i0 (i0 :: t)) by (left; reflexivity). apply RI in I. lia.
      * destruct X as [[_ X]|[X _]]; [|lia].
        assert (I : In 0 (i0 :: t)).
        { apply RI. split; [unfold last_pt; lia|]. split; [|left; reflexivity]. right. apply FF in X.
          destruct (Z.eq_dec f 0) as [->|Nf0]; [lra|]. rewrite (Ff (0 + 1)) by lia. lra. }
        destruct I as [I|I]; [congruence|]. inversion Srt as [|? ? _ Ft]; subst. rewrite Forall_forall in Ft. apply Ft in I.
        assert (I' : In i0 (i0 :: t)) by (left; reflexivity). apply RI in I'. lia.
    + apply NR. exact G.
Qed.

(** A profile that changes has a ridge. *)
Lemma has_ridge y : (exists j, 0 <= j < last_pt y /\ ~ (elev_at y (j + 1) == elev_at y j)%Q) -> exists i, is_ridge y i.
Proof.
  intros C. destruct (first_change y C) as (f & Hf & Ff & Nf). destruct (Q_dec (elev_at y (f + 1)) (elev_at y f)) as [[L|G]|E]; [| |contradiction].
  - exists 0. left. split; [reflexivity|]. exists f. auto.
  - destruct (rise_up y f Hf G) as (r & Hr & R & T). exists r. right. split; [lia|]. split; [|exact T].
    specialize (R (r - 1) ltac:(lia)). replace (r - 1 + 1) with r in R by lia. exact R.
Qed.

Lemma is_ridge_range y i : 2 <= zlen y -> is_ridge y i -> 0 <= i <= last_pt y.
Proof. intros H [[-> _]|[A _]]; unfold last_pt in *; lia. Qed.
Lemma is_ridge_gap y i : 2 <= zlen y -> is_ridge y i -> ~ is_ridge y (i + 1).
Proof.
  intros H A B. destruct B as [[B _]|(B & B1 & _)].
  - apply is_ridge_range in A; [lia|exact H].
  - replace (i + 1 - 1) with i in B1 by lia. destruct A as [[-> (j & Hj & Fj & Lj)]|(A & A1 & [A2|A2])].
    + destruct (Z.eq_dec j 0) as [->|N]; [lra|]. rewrite (Fj (0 + 1)) in B1 by lia. lra.
    + lia.
    + lra.
Qed.

Lemma findpeaks_spec y : 2 <= zlen y -> exists l, findpeaks y = Ok l /\ sorted l /\ forall i, In i l <-> is_ridge y i.
Proof.
  intros H. unfold findpeaks. rewrite (proj2 (Z.eqb_neq (zlen y) 0)) by lia. rewrite (proj2 (Z.eqb_neq (zlen y) 1)) by lia.
  assert (Ln : zlen (np_diff y) = last_pt y) by (apply np_diff_length; intros ->; cbn in H; lia).
  destruct (Z.eqb_spec (zlen (np_diff y)) (zlen (np_where (fun d => Qeq_bool d 0) (np_diff y)))) as [E|N].
  - exists []. split; [reflexivity|]. split; [constructor|]. intros i. split; [intros []|]. intros R.
    assert (F : forall j, 0 <= j < last_pt y -> (elev_at y (j + 1) == elev_at y j)%Q).
    { intros j Hj. pose proof (np_where_all _ _ E j ltac:(lia)) as I. apply diff_in in I; [|exact H]. destruct I as [_ I]. apply Qeq_bool_eq in I. lra. }
    destruct R as [[_ (j & Hj & _ & Lj)]|(A & B & _)].
    + rewrite F in Lj by exact Hj. lra.
    + specialize (F (i - 1) ltac:(lia)). replace (i - 1 + 1) with i in F by lia. lra.
  - assert (C : exists j, 0 <= j < last_pt y /\ ~ (elev_at y (j + 1) == elev_at y j)%Q).
    { destruct (np_where (fun d => negb (Qeq_bool d 0)) (np_diff y)) as [|j t] eqn:EN.
      - exfalso. apply N.
        assert (G : forall l, np_where (fun d => negb (Qeq_bool d 0)) l = [] -> length (np_where (fun d => Qeq_bool d 0) l) = length l).
        { intros l. unfold np_where. intros E0. transitivity (length (zrange (zlen l))); [|rewrite zrange_length; unfold zlen; lia]. revert E0.
          assert (A : forall i, In i (zrange (zlen l)) -> nth_error l (Z.to_nat i) <> None).
          { intros i Hi. apply in_zrange in Hi. apply nth_error_Some. unfold zlen in Hi. lia. }
          revert A. generalize (zrange (zlen l)). induction l0 as [|x l0 IH]; intros A; [reflexivity|]. cbn.
          destruct (nth_error l (Z.to_nat x)) as [q|] eqn:EX; [|destruct (A x (or_introl eq_refl) EX)].
          destruct (Qeq_bool q 0); cbn; [|discriminate]. intros E. f_equal. apply IH; [|exact E]. intros i Hi. apply A. right. exact Hi. }
        symmetry. unfold zlen. f_equal. apply G. exact EN.
      - destruct (nz_first y H j t EN) as (Hj & _ & Nj). exists j. auto. }
    change (np_intersect _ _) with (raw_peaks y).
    assert (NEr : raw_peaks y <> []).
    { destruct (has_ridge y C) as (i & Hi). intros E. pose proof (raw_in y i H) as RI. rewrite E in RI.
      destruct Hi as [[-> (j & Hj & Fj & Lj)]|(A & B & D)]; apply RI.
      - split; [unfold last_pt; lia|]. split; [right|left; reflexivity]. destruct (Z.eq_dec j 0) as [->|Nj]; [lra|]. rewrite (Fj (0 + 1)) by lia. lra.
      - split; [lia|]. split; [exact D|right; exact B]. }
    destruct (Z.eqb_spec (zlen (raw_peaks y)) 0) as [E|_]; [destruct (raw_peaks y); [congruence|unfold zlen in E; cbn [length] in E; lia]|].
    destruct (trim_start_spec y H C NEr) as (l & -> & Sl & Il). cbn [bind].
    assert (NEl : l <> []) by (destruct (has_ridge y C) as (i & Hi); apply Il in Hi; intros ->; destruct Hi).
    unfold trim_end. assert (EL : exists z, pyget l (-1) = Ok z /\ In z l).
    { assert (K : 0 < zlen l) by (destruct l; [congruence|unfold zlen; cbn [length]; lia]). unfold pyget, norm_index.
      cbn [Z.ltb Z.compare]. replace ((0 <=? -1 + zlen l) && (-1 + zlen l <? zlen l)) with true by (symmetry; apply andb_true_iff; split; [apply Z.leb_le|apply Z.ltb_lt]; lia).
      destruct (nth_error l (Z.to_nat (-1 + zlen l))) as [z|] eqn:EZ; [|apply nth_error_None in EZ; unfold zlen in *; lia].
      exists z. split; [reflexivity|]. eapply nth_error_In; eauto. }
    destruct EL as (z & -> & Iz). cbn [bind]. apply Il in Iz. apply is_ridge_range in Iz; [|exact H].
    destruct (Z.eqb_spec z (zlen y)) as [Ez|_]; [unfold last_pt in Iz; lia|]. cbn [bind].
    exists l. rewrite compress_id; [auto|exact Sl|]. intros i Hi Hi'. apply Il in Hi, Hi'. exact (is_ridge_gap y i H Hi Hi').
Qed.

(** ** findvalleys *)
Lemma yud_at y i : 0 <= i <= last_pt y -> (elev_at (rev (map Qopp y)) i == - elev_at y (last_pt y - i))%Q.
Proof.
  intros H. unfold elev_at. rewrite rev_nth by (rewrite map_length; unfold last_pt, zlen in H; lia). rewrite map_length.
  replace (length y - S (Z.to_nat i))%nat with (Z.to_nat (last_pt y - i)) by (unfold last_pt, zlen in *; lia).
  rewrite (nth_indep _ 0%Q (Qopp 0%Q)) by (rewrite map_length; unfold last_pt, zlen in *; lia). rewrite map_nth. reflexivity.
Qed.
Lemma yud_len y : zlen (rev (map Qopp y)) = zlen y.
Proof. unfold zlen. rewrite rev_length, map_length. reflexivity. Qed.
Lemma ridge_mirror y i : 2 <= zlen y -> (is_ridge (rev (map Qopp y)) (last_pt y - i) <-> is_valley y i).
Proof.
  intros H. unfold is_ridge, is_valley. assert (L : last_pt (rev (map Qopp y)) = last_pt y) by (unfold last_pt; rewrite yud_len; reflexivity). rewrite L.
  assert (P : 1 <= last_pt y) by (unfold last_pt; lia).
  assert (FL : first_falls (rev (map Qopp y)) <-> last_falls y).
  { unfold first_falls, last_falls. rewrite L. split; intros (j & Hj & Fj & Lj).
    - exists (last_pt y - 1 - j). split; [lia|]. split.
      + intros k Hk. specialize (Fj (last_pt y - k) ltac:(lia)). rewrite !yud_at in Fj by lia. replace (last_pt y - (last_pt y - k)) with k in Fj by lia.
        rewrite Z.sub_0_r in Fj. lra.
      + rewrite !yud_at in Lj by lia. replace (last_pt y - (j + 1)) with (last_pt y - 1 - j) in Lj by lia.
        replace (last_pt y - j) with (last_pt y - 1 - j + 1) in Lj by lia. lra.
    - exists (last_pt y - 1 - j). split; [lia|]. split.
      + intros k Hk. rewrite !yud_at by lia. rewrite Z.sub_0_r. rewrite (Fj (last_pt y - k)) by lia. reflexivity.
      + rewrite !yud_at by lia. replace (last_pt y - (last_pt y - 1 - j + 1)) with j by lia. replace (last_pt y - (last_pt y - 1 - j)) with (j + 1) by lia. lra. }
  split.
  - intros [[E F]|(A & B & D)]; [left; split; [lia|apply FL; exact F]|right]. split; [lia|].
    rewrite !yud_at in B by lia. replace (last_pt y - (last_pt y - i - 1)) with (i + 1) in B by lia. replace (last_pt y - (last_pt y - i)) with i in B by lia.
    split; [lra|]. destruct D as [D|D]; [left; lia|]. destruct (Z.eq_dec i 0) as [->|N]; [left; reflexivity|right].
    rewrite !yud_at in D by lia. replace (last_pt y - (last_pt y - i + 1)) with (i - 1) in D by lia. replace (last_pt y - (last_pt y - i)) with i in D by lia. lra.
  - intros [[E F]|(A & B & D)]; [left; split; [lia|apply FL; exact F]|right]. split; [lia|].
    rewrite !yud_at by lia. replace (last_pt y - (last_pt y - i - 1)) with (i + 1) by lia. replace (last_pt y - (last_pt y - i)) with i by lia.
    split; [lra|]. destruct (Z.eq_dec i 0) as [->|N]; [left; lia|right]. destruct D as [D|D]; [lia|].
    rewrite !yud_at by lia. replace (last_pt y - (last_pt y - i + 1)) with (i - 1) by lia. replace (last_pt y - (last_pt y - i)) with i by lia. lra.
Qed.
Lemma findvalleys_spec y : 2 <= zlen y -> exists l, findvalleys y = Ok l /\ sorted l /\ forall i, In i l <-> is_valley y i.
Proof.
  intros H. unfold findvalleys. destruct (findpeaks_spec (rev (map Qopp y))) as (l & -> & Sl & Il); [rewrite yud_len; exact H|].
  cbn [bind]. eexists. split; [reflexivity|]. split; [apply map_rev_sorted; exact Sl|]. intros i.
  assert (Z : zlen (map Qopp y) = last_pt y + 1) by (unfold last_pt, zlen; rewrite map_length; lia). rewrite Z.
  rewrite <- ridge_mirror by exact H. rewrite <- Il. rewrite <- in_rev, in_map_iff. split.
  - intros (x & <- & Hx). replace (last_pt y - (last_pt y + 1 - x - 1)) with x by lia. exact Hx.
  - intros Hx. exists (last_pt y - i). split; [lia|exact Hx].
Qed.

(** ** Pairing *)
Lemma run_ridge y v r : rising_run y v r -> is_ridge y r.
Proof.
  intros (A & B & C & _ & E). right. split; [lia|]. split; [|exact E]. specialize (C (r - 1) ltac:(lia)). replace (r - 1 + 1) with r in C by lia. exact C.
Qed.
Lemma run_valley y v r : rising_run y v r -> is_valley y v.
Proof. intros (A & B & C & D & _). right. split; [lia|]. split; [apply C; lia|exact D]. Qed.
Lemma ridge_run y r : is_ridge y r -> 0 < r -> exists v, rising_run y v r.
Proof.
  intros [[E _]|(A & B & D)] H; [lia|]. destruct (rise_down y r A B) as (v & Hv & R & T). exists v. repeat split; try lia; assumption.
Qed.
Lemma valley_run y v : is_valley y v -> v < last_pt y -> exists r, rising_run y v r.
Proof.
  intros [[E _]|(A & B & D)] H; [lia|]. destruct (rise_up y v A B) as (r & Hr & R & T). exists r. repeat split; try lia; assumption.
Qed.
Lemma runs_ordered y v r v' r' : rising_run y v r -> rising_run y v' r' -> v < v' -> r < v'.
Proof.
  intros (A & B & C & _ & E) (A' & B' & C' & D' & _) L. destruct (Z_lt_ge_dec r v') as [G|G]; [exact G|]. exfalso.
  destruct (Z.eq_dec r v') as [->|N].
  - destruct E as [E|E]; [lia|]. specialize (C' v' ltac:(lia)). lra.
  - destruct D' as [D'|D']; [lia|]. specialize (C (v' - 1) ltac:(lia)). replace (v' - 1 + 1) with v' in C by lia. lra.
Qed.
Lemma run_fun y v r r' : rising_run y v r -> rising_run y v r' -> r = r'.
Proof.
  intros (A & B & C & _ & E) (A' & B' & C' & _ & E'). destruct (Z.lt_trichotomy r r') as [L|[X|L]]; [|exact X|]; exfalso.
  - destruct E as [E|E]; [lia|]. specialize (C' r ltac:(lia)). lra.
  - destruct E' as [E'|E']; [lia|]. specialize (C r' ltac:(lia)). lra.
Qed.
Lemma pair_runs y V R : sorted V -> sorted R ->
  (forall v, In v V -> exists r, In r R /\ rising_run y v r) -> (forall r, In r R -> exists v, In v V /\ rising_run y v r) ->
  Forall2 (rising_run y) V R.
Proof.
  intros SV. revert R. induction SV as [|v V SV IH FV]; intros R SR HV HR.
  - destruct R as [|r R]; [constructor|]. destruct (HR r (or_introl eq_refl)) as (v & [] & _).
  - destruct R as [|r0 R]; [destruct (HV v (or_introl eq_refl)) as (r & [] & _)|]. inversion SR as [|? ? SR' FR]; subst. rewrite Forall_forall in FV, FR.
    destruct (HV v (or_introl eq_refl)) as (r & Ir & Rr). destruct (HR r0 (or_introl eq_refl)) as (v0 & Iv & Rv).
    assert (v0 = v).
    { destruct Iv as [E|Iv]; [congruence|]. apply FV in Iv. pose proof (runs_ordered y v r v0 r0 Rr Rv Iv) as O.
      destruct Rv as (? & _). destruct Ir as [->|Ir]; [lia|]. apply FR in Ir. lia. }
    subst v0. constructor; [exact Rv|]. apply IH; [exact SR'| |].
    + intros v' Hv'. destruct (HV v' (or_intror Hv')) as (r' & Ir' & Rr'). exists r'. split; [|exact Rr']. destruct Ir' as [E|E]; [|exact E].
      subst r'. apply FV in Hv'. pose proof (runs_ordered y v r0 v' r0 Rv Rr' Hv'). destruct Rr' as (? & _). lia.
    + intros r' Hr'. destruct (HR r' (or_intror Hr')) as (v' & Iv' & Rv'). exists v'. split; [|exact Rv']. destruct Iv' as [E|E]; [|exact E].
      subst v'. pose proof (run_fun y v r0 r' Rv Rv'). apply FR in Hr'. lia.
Qed.

Lemma sorted_head_filter (l : list Z) a : sorted l -> (forall i, In i l -> a <= i) ->
  (In a l -> l = a :: filter (fun i => a <? i) l) /\ (~ In a l -> l = filter (fun i => a <? i) l).
Proof.
  intros S H. split; intros I; apply sorted_ext; try assumption.
  - constructor; [apply filter_sorted; exact S|]. rewrite Forall_forall. intros x Hx. apply filter_In in Hx. destruct Hx as [_ Hx]. apply Z.ltb_lt in Hx. exact Hx.
  - intros x. cbn. rewrite filter_In, Z.ltb_lt. split.
    + intros Hx. pose proof (H x Hx). destruct (Z.eq_dec a x); [auto|right; split; [exact Hx|lia]].
    + intros [<-|[Hx _]]; assumption.
  - apply filter_sorted. exact S.
  - intros x. rewrite filter_In, Z.ltb_lt. split; [|tauto]. intros Hx. split; [exact Hx|]. pose proof (H x Hx). destruct (Z.eq_dec a x); [congruence|lia].
Qed.
Lemma sorted_last_filter (l : list Z) a : sorted l -> (forall i, In i l -> i <= a) ->
  (In a l -> l = filter (fun i => i <? a) l ++ [a]) /\ (~ In a l -> l = filter (fun i => i <? a) l).
Proof.
  intros S H. split; intros I; apply sorted_ext; try assumption.
  - apply sorted_app; [apply filter_sorted; exact S|repeat constructor|]. intros x z Hx [<-|[]]. apply filter_In in Hx. destruct Hx as [_ Hx]. apply Z.ltb_lt in Hx. exact Hx.
  - intros x. rewrite in_app_iff, filter_In, Z.ltb_lt. cbn. split.
    + intros Hx. pose proof (H x Hx). destruct (Z.eq_dec a x); [auto|left; split; [exact Hx|lia]].
    + intros [[Hx _]|[<-|[]]]; assumption.
  - apply filter_sorted. exact S.
  - intros x. rewrite filter_In, Z.ltb_lt. split; [|tauto]. intros Hx. split; [exact Hx|]. pose proof (H x Hx). destruct (Z.eq_dec a x); [congruence|lia].
Qed.

(** The ridges after the first point and the valleys before the last one pair
    up as the maximal rising runs. *)
Lemma pairing y : 2 <= zlen y -> exists V R va ra,
  findpeaks y = Ok (ra ++ R) /\ findvalleys y = Ok (V ++ va) /\ Forall2 (rising_run y) V R /\
  ((ra = [0] /\ first_falls y) \/ (ra = [] /\ ~ first_falls y)) /\
  ((va = [last_pt y] /\ last_falls y) \/ (va = [] /\ ~ last_falls y)).
Proof.
  intros H. destruct (findpeaks_spec y H) as (l & El & Sl & Il). destruct (findvalleys_spec y H) as (w & Ew & Sw & Iw).
  assert (P : 1 <= last_pt y) by (unfold last_pt; lia).
  assert (F0 : In 0 l <-> first_falls y).
  { rewrite Il. unfold is_ridge. split; [intros [[_ X]|[X _]]; [exact X|lia]|auto]. }
  assert (FL : In (last_pt y) w <-> last_falls y).
  { rewrite Iw. unfold is_valley. split; [intros [[_ X]|[X _]]; [exact X|lia]|auto]. }
  assert (L0 : forall i, In i l -> 0 <= i) by (intros i Hi; apply Il in Hi; apply is_ridge_range in Hi; [lia|exact H]).
  assert (LL : forall i, In i w -> i <= last_pt y) by (intros i Hi; apply Iw in Hi; destruct Hi as [[-> _]|[Hi _]]; lia).
  destruct (sorted_head_filter l 0 Sl L0) as [A1 A2]. destruct (sorted_last_filter w (last_pt y) Sw LL) as [B1 B2].
  exists (filter (fun i => i <? last_pt y) w), (filter (fun i => 0 <? i) l),
    (if in_dec Z.eq_dec (last_pt y) w then [last_pt y] else []), (if in_dec Z.eq_dec 0 l then [0] else []).
  split; [|split; [|split; [|split]]].
  - rewrite El. f_equal. destruct (in_dec Z.eq_dec 0 l); [apply A1|apply A2]; assumption.
  - rewrite Ew. f_equal. destruct (in_dec Z.eq_dec (last_pt y) w); [apply B1|rewrite app_nil_r; apply B2]; assumption.
  - apply pair_runs; [apply filter_sorted; exact Sw|apply filter_sorted; exact Sl| |].
    + intros v Hv. apply filter_In in Hv. destruct Hv as [Hv Lv]. apply Iw in Hv. apply Z.ltb_lt in Lv. destruct (valley_run y v Hv Lv) as (r & Hr).
      exists r. split; [|exact Hr]. apply filter_In. split; [apply Il; exact (run_ridge y v r Hr)|]. apply Z.ltb_lt. destruct Hr as (? & _). lia.
    + intros r Hr. apply filter_In in Hr. destruct Hr as [Hr Lr]. apply Il in Hr. apply Z.ltb_lt in Lr. destruct (ridge_run y r Hr Lr) as (v & Hv).
      exists v. split; [|exact Hv]. apply filter_In. split; [apply Iw; exact (run_valley y v r Hv)|]. apply Z.ltb_lt. destruct Hv as (? & ? & _). lia.
  - destruct (in_dec Z.eq_dec 0 l) as [I|N]; [left; split; [reflexivity|apply F0; exact I]|right; split; [reflexivity|intros X; apply N, F0, X]].
  - destruct (in_dec Z.eq_dec (last_pt y) w) as [I|N]; [left; split; [reflexivity|apply FL; exact I]|right; split; [reflexivity|intros X; apply N, FL, X]].
Qed.

(** A rising run climbs. *)
Lemma run_climbs y v r : rising_run y v r -> (elev_at y v < elev_at y r)%Q.
Proof.
  intros (A & _ & C & _). assert (G : forall n, (0 < n)%nat -> v + Z.of_nat n <= r -> (elev_at y v < elev_at y (v + Z.of_nat n))%Q).
  { induction n as [|n IH]; intros Hn Hr; [lia|]. replace (v + Z.of_nat (S n)) with (v + Z.of_nat n + 1) by lia. pose proof (C (v + Z.of_nat n) ltac:(lia)) as S.
    destruct (Nat.eq_dec n 0) as [->|N]; [rewrite Z.add_0_r in *; exact S|]. specialize (IH ltac:(lia) ltac:(lia)). lra. }
  specialize (G (Z.to_nat (r - v)) ltac:(lia) ltac:(lia)). replace (v + Z.of_nat (Z.to_nat (r - v))) with r in G by lia. exact G.
Qed.
