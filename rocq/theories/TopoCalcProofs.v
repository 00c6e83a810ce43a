(** * The multiplier of a whole line (C37, C38, C40). *)
From Verif Require Import Base BaseLemmas TopoModel TopoSpec TopoLineProofs TopoMhProofs.
Open Scope Z_scope.

Lemma floors_len line : zlen (floors line) = zlen line.
Proof. unfold zlen, floors. rewrite map_length. reflexivity. Qed.

(** Line multiplier as a fold over (valley, ridge) pairs. *)
Definition run_step (fl : Q -> Q) (y : list Q) (ds : Q) (m : list Q) (vr : Z * Z) : res (list Q) :=
  let* x := mh_calc fl y (snd vr) (fst vr) ds in Ok (maximum m x).

Lemma foldM_map {A B S} (f : S -> B -> res S) (g : A -> B) l s : foldM f (map g l) s = foldM (fun s a => f s (g a)) l s.
Proof. revert s. induction l as [|x l IH]; intros s; [reflexivity|]. cbn. destruct (f s (g x)); cbn; [apply IH|reflexivity]. Qed.

Lemma pyget_app_r {A} (a b : list A) i x : 0 <= i -> nth_error b (Z.to_nat i) = Some x -> pyget (a ++ b) (zlen a + i) = Ok x.
Proof.
  intros Hi E. assert (L : (Z.to_nat i < length b)%nat) by (apply nth_error_Some; congruence).
  apply pyget_nth; [unfold zlen; rewrite app_length; lia|]. rewrite nth_error_app2 by (unfold zlen; lia).
  replace (Z.to_nat (zlen a + i) - length a)%nat with (Z.to_nat i) by (unfold zlen; lia). exact E.
Qed.
Lemma pyget_app_l {A} (a b : list A) i x : 0 <= i -> nth_error a (Z.to_nat i) = Some x -> pyget (a ++ b) i = Ok x.
Proof.
  intros Hi E. assert (L : (Z.to_nat i < length a)%nat) by (apply nth_error_Some; congruence).
  apply pyget_nth; [unfold zlen; rewrite app_length; lia|]. rewrite nth_error_app1 by exact L. exact E.
Qed.

Lemma combine_as_map (V R : list Z) : length V = length R ->
  combine V R = map (fun i => (nth (Z.to_nat i) V 0, nth (Z.to_nat i) R 0)) (zrange (zlen R)).
Proof.
  revert R. induction V as [|v V IH]; intros [|r R] H; try discriminate; [reflexivity|]. cbn [combine].
  rewrite zrange_cons by (unfold zlen; cbn [length]; lia). cbn [map]. f_equal.
  replace (zlen (r :: R) - 1) with (zlen R) by (unfold zlen; cbn [length]; lia). rewrite map_map, IH by (cbn in H; lia).
  apply map_ext_in. intros i Hi. apply in_zrange in Hi. replace (Z.to_nat (i + 1)) with (S (Z.to_nat i)) by lia. reflexivity.
Qed.

Lemma steps_eq fl y ds ra R V va m off : length V = length R -> zlen ra = off ->
  foldM (mh_step fl y (ra ++ R) (V ++ va) ds off) (range2 off (off + zlen R)) m = foldM (run_step fl y ds) (combine V R) m.
Proof.
  intros HL <-. rewrite combine_as_map by exact HL. unfold range2. rewrite !foldM_map. replace (zlen ra + zlen R - zlen ra) with (zlen R) by lia.
  apply foldM_ext. intros s i Hi. apply in_zrange in Hi. unfold mh_step, run_step. cbn [fst snd].
  rewrite (pyget_app_r ra R i (nth (Z.to_nat i) R 0)) by (try lia; apply nth_error_nth'; unfold zlen in Hi; lia). cbn [bind].
  rewrite (pyget_app_l V va (zlen ra + i - zlen ra) (nth (Z.to_nat i) V 0)) by (try lia; replace (zlen ra + i - zlen ra) with i by lia; apply nth_error_nth'; unfold zlen in Hi; lia).
  reflexivity.
Qed.

Lemma Forall2_length' {A B} (P : A -> B -> Prop) l l' : Forall2 P l l' -> length l = length l'.
Proof. induction 1; cbn; congruence. Qed.

Lemma multiplier_calc_eq fl line ds V R va ra : 2 <= zlen line ->
  findpeaks (floors line) = Ok (ra ++ R) -> findvalleys (floors line) = Ok (V ++ va) -> Forall2 (rising_run (floors line)) V R ->
  (ra = [0] \/ ra = []) -> multiplier_calc fl line ds = foldM (run_step fl (floors line) ds) (combine V R) (ones (zlen line)).
Proof.
  intros H EP EV F HR. unfold multiplier_calc. fold (floors line). rewrite EP, EV. cbn [bind]. pose proof (Forall2_length' _ _ _ F) as HL.
  destruct HR as [-> | ->].
  - cbn [app]. destruct (Z.eqb_spec (zlen (0 :: R)) 0) as [E|_]; [unfold zlen in E; cbn [length] in E; lia|]. rewrite pyget_cons0. cbn [bind].
    destruct R as [|r R].
    + destruct V; [reflexivity|discriminate].
    + destruct (Z.eqb_spec (zlen (0 :: r :: R)) 1) as [E|_]; [unfold zlen in E; cbn [length] in E; lia|]. cbn [andb Z.eqb].
      replace (zlen (0 :: r :: R)) with (1 + zlen (r :: R)) by (unfold zlen; cbn [length]; lia).
      change (0 :: r :: R) with ([0] ++ (r :: R)). apply steps_eq; [exact HL|reflexivity].
  - cbn [app]. destruct R as [|r R].
    + destruct V; [reflexivity|discriminate].
    + destruct (Z.eqb_spec (zlen (r :: R)) 0) as [E|_]; [unfold zlen in E; cbn [length] in E; lia|]. rewrite pyget_cons0. cbn [bind].
      assert (r0 : 0 < r) by (inversion F as [|? ? ? ? X]; subst; destruct X as (? & _); lia).
      rewrite (proj2 (Z.eqb_neq r 0)) by lia. rewrite andb_false_r.
      change (r :: R) with ([] ++ (r :: R)) at 1. replace (zlen (r :: R)) with (0 + zlen (r :: R)) by lia. apply steps_eq; [exact HL|reflexivity].
Qed.

Lemma maximum_at a b i : zlen a = zlen b -> 0 <= i < zlen a -> q_at (maximum a b) i = Qmax (q_at a i) (q_at b i).
Proof.
  unfold q_at, zlen. intros L H. assert (G : forall n (a b : list Q), length a = length b -> (n < length a)%nat -> nth n (maximum a b) 0%Q = Qmax (nth n a 0%Q) (nth n b 0%Q)).
  { induction n as [|n IH]; intros [|x a'] [|y b'] E K; cbn in *; try lia; try reflexivity. apply IH; lia. }
  apply G; lia.
Qed.
Lemma maximum_len a b : zlen a = zlen b -> zlen (maximum a b) = zlen a.
Proof.
  unfold zlen. intros L. f_equal. assert (E : length a = length b) by lia. clear L. revert b E. induction a as [|x a IH]; intros [|y b] E; cbn in *; try lia. rewrite IH; lia.
Qed.

(** Result of the fold: the largest of 1 and all hills. *)
Lemma fold_runs fl y ds (l : list (Z * Z)) : forall m0,
  zlen m0 = zlen y ->
  (forall vr, In vr l -> exists m, mh_calc fl y (snd vr) (fst vr) ds = Ok m /\ zlen m = zlen y) ->
  exists m, foldM (run_step fl y ds) l m0 = Ok m /\ zlen m = zlen y /\
    forall i, 0 <= i < zlen y ->
      (q_at m0 i <= q_at m i)%Q /\
      (forall vr x, In vr l -> mh_calc fl y (snd vr) (fst vr) ds = Ok x -> (q_at x i <= q_at m i)%Q) /\
      ((q_at m i == q_at m0 i)%Q \/ exists vr x, In vr l /\ mh_calc fl y (snd vr) (fst vr) ds = Ok x /\ (q_at m i == q_at x i)%Q).
Proof.
  induction l as [|vr l IH]; intros m0 L H.
  - exists m0. split; [reflexivity|]. split; [exact L|]. intros i Hi. split; [lra|]. split; [intros ? ? []|left; reflexivity].
  - destruct (H vr (or_introl eq_refl)) as (x & Ex & Lx). cbn [foldM]. unfold run_step at 1. rewrite Ex. cbn [bind].
    destruct (IH (maximum m0 x)) as (m & Em & Lm & P).
    + rewrite maximum_len by congruence. exact L.
    + intros vr' Hvr'. apply H. right. exact Hvr'.
    + exists m. split; [exact Em|]. split; [exact Lm|]. intros i Hi. destruct (P i Hi) as (P1 & P2 & P3).
      rewrite maximum_at in P1, P3 by (rewrite L; try exact Hi; congruence).
      pose proof (Q.le_max_l (q_at m0 i) (q_at x i)) as M1. pose proof (Q.le_max_r (q_at m0 i) (q_at x i)) as M2.
      split; [lra|]. split.
      * intros vr' x' [<-|I'] E'; [|exact (P2 vr' x' I' E')]. assert (x' = x) by congruence. subst. lra.
      * destruct P3 as [P3|(vr' & x' & I' & E' & K')]; [|right; exists vr', x'; split; [right; exact I'|auto]].
        destruct (Q.max_spec (q_at m0 i) (q_at x i)) as [[_ S]|[_ S]]; rewrite S in P3.
        -- right. exists vr, x. split; [left; reflexivity|]. auto.
        -- left. exact P3.
Qed.

Lemma combine_run y V R vr : Forall2 (rising_run y) V R -> In vr (combine V R) -> rising_run y (fst vr) (snd vr).
Proof. induction 1 as [|v r V R H F IH]; cbn; [intros []|]. intros [<-|I]; [exact H|apply IH; exact I]. Qed.
Lemma run_in_combine y V R : (forall v r, rising_run y v r -> In v V) -> Forall2 (rising_run y) V R -> forall v r, rising_run y v r -> In (v, r) (combine V R).
Proof.
  intros H F v r Hr. specialize (H v r Hr). induction F as [|v0 r0 V R H0 F IH]; [destruct H|]. cbn. destruct H as [->|I]; [|right; apply IH; exact I].
  left. f_equal. exact (run_fun y v r0 r H0 Hr).
Qed.
Lemma run_len y v r : rising_run y v r -> 2 <= zlen y.
Proof. intros (A & B & _). unfold last_pt in B. lia. Qed.

Lemma short_line fl line ds : zlen line < 2 -> multiplier_calc fl line ds = Ok (ones (zlen line)).
Proof.
  intros H. destruct line as [|a [|b t]]; [reflexivity|reflexivity|unfold zlen in H; cbn [length] in H; lia].
Qed.

Section Calc.
Variables (fl : Q -> Q) (M : Z).
Hypothesis Hfl : fl_line fl M.
Hypothesis HM : 1 <= M.

(** The whole line: the largest of 1 and the contributions of all rising runs. *)
Lemma multiplier_calc_spec line ds : (0 < ds)%Q -> zlen line <= M ->
  exists m, multiplier_calc fl line ds = Ok m /\ zlen m = zlen line /\
    (forall v r, rising_run (floors line) v r -> exists x, mh_calc fl (floors line) r v ds = Ok x) /\
    forall i, 0 <= i < zlen line ->
      (1 <= q_at m i <= fl (171#100))%Q /\
      (forall v r x, rising_run (floors line) v r -> mh_calc fl (floors line) r v ds = Ok x -> (q_at x i <= q_at m i)%Q) /\
      ((q_at m i == 1)%Q \/ exists v r x, rising_run (floors line) v r /\ mh_calc fl (floors line) r v ds = Ok x /\ (q_at m i == q_at x i)%Q).
Proof.
  intros Hd HL. assert (C1 : (1 <= fl (171#100))%Q) by (apply (f_ge1 fl M Hfl HM); lra).
  assert (RO : forall v r, rising_run (floors line) v r -> exists m, mh_calc fl (floors line) r v ds = Ok m /\ zlen m = zlen (floors line) /\
             forall i, 0 <= i < zlen (floors line) -> (1 <= q_at m i <= fl (171#100))%Q).
  { intros v r Hr. pose proof (run_climbs _ _ _ Hr) as Cl. destruct Hr as (A & B & _).
    apply (mh_calc_ok fl M Hfl HM); try assumption. rewrite floors_len. exact HL. }
  destruct (Z_lt_ge_dec (zlen line) 2) as [S|G].
  - exists (ones (zlen line)). split; [apply short_line; exact S|]. split; [apply ones_len; unfold zlen; lia|]. split.
    + intros v r Hr. apply run_len in Hr. rewrite floors_len in Hr. lia.
    + intros i Hi. rewrite ones_at by exact Hi. split; [lra|]. split; [|left; reflexivity]. intros v r x Hr. apply run_len in Hr. rewrite floors_len in Hr. lia.
  - destruct (pairing (floors line)) as (V & R & va & ra & EP & EV & F & Ha & Hv); [rewrite floors_len; lia|].
    rewrite (multiplier_calc_eq fl line ds V R va ra ltac:(lia) EP EV F ltac:(tauto)).
    assert (AllIn : forall v r, rising_run (floors line) v r -> In (v, r) (combine V R)).
    { apply run_in_combine; [|exact F]. intros v r Hr. destruct (findvalleys_spec (floors line)) as (w & Ew & _ & Iw); [rewrite floors_len; lia|].
      assert (w = V ++ va) by congruence. subst w. pose proof (proj2 (Iw v) (run_valley _ _ _ Hr)) as I. apply in_app_or in I. destruct I as [I|I]; [exact I|].
      exfalso. destruct Hr as (? & ? & _). destruct Hv as [[-> _]|[-> _]]; [destruct I as [I|[]]; lia|destruct I]. }
    destruct (fold_runs fl (floors line) ds (combine V R) (ones (zlen line))) as (m & Em & Lm & P).
    + rewrite ones_len by lia. rewrite floors_len. reflexivity.
    + intros vr I. destruct (RO _ _ (combine_run _ _ _ _ F I)) as (x & Ex & Lx & _). exists x. auto.
    + rewrite floors_len in *. exists m. split; [exact Em|]. split; [exact Lm|]. split; [intros v r Hr; destruct (RO v r Hr) as (x & Ex & _); exists x; exact Ex|].
      intros i Hi. destruct (P i Hi) as (P1 & P2 & P3). rewrite ones_at in P1, P3 by exact Hi. split; [|split].
      * split; [exact P1|]. destruct P3 as [P3|(vr & x & I & Ex & Kx)]; [rewrite P3; exact C1|].
        destruct (RO _ _ (combine_run _ _ _ _ F I)) as (x' & Ex' & _ & Bx). assert (x' = x) by congruence. subst. specialize (Bx i Hi). rewrite Kx. lra.
      * intros v r x Hr Ex. apply (P2 (v, r) x); [apply AllIn; exact Hr|exact Ex].
      * destruct P3 as [P3|(vr & x & I & Ex & Kx)]; [left; exact P3|]. right. exists (fst vr), (snd vr), x. split; [exact (combine_run _ _ _ _ F I)|]. auto.
Qed.

(** No rise, no effect. *)
Lemma no_rise line ds : (0 < ds)%Q -> zlen line <= M ->
  (forall k, 0 <= k < zlen line - 1 -> (elev_at (floors line) (k + 1) <= elev_at (floors line) k)%Q) ->
  exists m, multiplier_calc fl line ds = Ok m /\ zlen m = zlen line /\ forall i, 0 <= i < zlen line -> (q_at m i == 1)%Q.
Proof.
  intros Hd HL H. destruct (multiplier_calc_spec line ds Hd HL) as (m & Em & Lm & _ & P). exists m. split; [exact Em|]. split; [exact Lm|].
  intros i Hi. destruct (P i Hi) as (_ & _ & [K|(v & r & x & Hr & _)]); [exact K|]. exfalso. destruct Hr as (A & B & C & _).
  unfold last_pt in B. rewrite floors_len in B. specialize (C v ltac:(lia)). specialize (H v ltac:(lia)). lra.
Qed.
End Calc.
