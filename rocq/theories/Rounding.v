(** * A computable 53-bit round-to-nearest-even on rationals.

    It is binary64 rounding with unbounded exponent range and shows that the
    hypotheses [fl_ok] used by the index theorems are met by IEEE double
    arithmetic away from overflow and underflow. *)
From Verif Require Import Base BaseLemmas.
From Coq Require Import Qpower Qfield ZifyBool.
Open Scope Q_scope.

(** [2^e] as a rational. *)
Definition p2 (e : Z) : Q := Qpower 2 e.

(** Exponent of a positive rational: [2^e <= x < 2^(e+1)]. *)
Definition qexp (x : Q) : Z :=
  let e0 := (Z.log2 (Qnum x) - Z.log2 (Zpos (Qden x)))%Z in
  if Qle_bool (p2 e0) x then e0 else (e0 - 1)%Z.

(** 53-bit rounding of a positive rational. *)
Definition rnd53_pos (x : Q) : Q :=
  let s := p2 (qexp x - 52) in inject_Z (np_around (x / s)) * s.

Definition rnd53 (x : Q) : Q :=
  match Qnum x with
  | Z0 => 0
  | Zpos _ => rnd53_pos x
  | Zneg _ => - rnd53_pos (- x)
  end.

Lemma p2_pos e : 0 < p2 e.
Proof. apply Qpower_0_lt. reflexivity. Qed.

Lemma p2_add a b : p2 (a + b) == p2 a * p2 b.
Proof. apply Qpower_plus. discriminate. Qed.

Lemma p2_Z n : (0 <= n)%Z -> p2 n == inject_Z (2 ^ n).
Proof. intros. unfold p2. symmetry. apply Zpower_Qpower. assumption. Qed.

Lemma p2_mono a b : (a <= b)%Z -> p2 a <= p2 b.
Proof.
  intros. replace b with (a + (b - a))%Z by lia. rewrite p2_add.
  rewrite <- (Qmult_1_r (p2 a)) at 1. apply Qmult_le_l; [apply p2_pos|].
  rewrite p2_Z by lia. change 1 with (inject_Z 1). apply inject_Z_le.
  assert (0 < 2 ^ (b - a))%Z by (apply Z.pow_pos_nonneg; lia). lia.
Qed.

Lemma p2_lt_inv a b : p2 a < p2 b -> (a < b)%Z.
Proof.
  intros H. destruct (Z_lt_ge_dec a b); [assumption|].
  assert (p2 b <= p2 a) by (apply p2_mono; lia). lra.
Qed.

Lemma qexp_spec x : 0 < x -> p2 (qexp x) <= x /\ x < p2 (qexp x + 1).
Proof.
  intros Hx. unfold qexp.
  set (e0 := (Z.log2 (Qnum x) - Z.log2 (Zpos (Qden x)))%Z).
  assert (Hn : (0 < Qnum x)%Z) by (unfold Qlt in Hx; simpl in Hx; lia).
  destruct (Z.log2_spec (Qnum x) Hn) as [N1 N2].
  destruct (Z.log2_spec (Zpos (Qden x)) eq_refl) as [D1 D2].
  pose proof (Z.log2_nonneg (Qnum x)). pose proof (Z.log2_nonneg (Zpos (Qden x))).
  assert (Hxq : x * inject_Z (Zpos (Qden x)) == inject_Z (Qnum x)).
  { destruct x as [n d]. simpl. unfold Qeq, Qmult, inject_Z. simpl. lia. }
  assert (Dp : 0 < inject_Z (Zpos (Qden x))) by reflexivity.
  assert (N1' := inject_Z_le _ _ N1). assert (N2' := inject_Z_lt _ _ N2).
  assert (D1' := inject_Z_le _ _ D1). assert (D2' := inject_Z_lt _ _ D2).
  rewrite <- p2_Z in N1', N2', D1', D2' by lia.
  assert (Up : x < p2 (e0 + 1)).
  { apply Qnot_le_lt. intros C.
    assert (p2 (e0 + 1) * p2 (Z.log2 (Zpos (Qden x))) <= x * inject_Z (Zpos (Qden x))).
    { pose proof (p2_pos (e0 + 1)). pose proof (p2_pos (Z.log2 (Zpos (Qden x)))).
      apply Qmult_le_compat_nonneg; split; lra. }
    rewrite <- p2_add in H1.
    replace (e0 + 1 + Z.log2 (Z.pos (Qden x)))%Z with (Z.succ (Z.log2 (Qnum x))) in H1 by (unfold e0; lia).
    lra. }
  assert (Lo : p2 (e0 - 1) < x).
  { apply Qnot_le_lt. intros C.
    assert (H1 : x * inject_Z (Zpos (Qden x)) < p2 (e0 - 1) * p2 (Z.succ (Z.log2 (Zpos (Qden x))))).
    { apply Qlt_le_trans with (x * p2 (Z.succ (Z.log2 (Zpos (Qden x))))).
      - apply Qmult_lt_l; assumption.
      - apply Qmult_le_r; [apply p2_pos | assumption]. }
    rewrite <- p2_add in H1.
    replace (e0 - 1 + Z.succ (Z.log2 (Z.pos (Qden x))))%Z with (Z.log2 (Qnum x)) in H1 by (unfold e0; lia).
    lra. }
  destruct (Qle_bool (p2 e0) x) eqn:E.
  - apply Qle_bool_iff in E. split; [exact E | exact Up].
  - apply Qle_bool_gt in E. split; [lra|].
    replace (e0 - 1 + 1)%Z with e0 by lia. exact E.
Qed.

Lemma qexp_unique x e : 0 < x -> p2 e <= x -> x < p2 (e + 1) -> qexp x = e.
Proof.
  intros Hx H1 H2. destruct (qexp_spec x Hx) as [A B].
  assert (p2 (qexp x) < p2 (e + 1)) by lra.
  assert (p2 e < p2 (qexp x + 1)) by lra.
  apply p2_lt_inv in H, H0. lia.
Qed.

Lemma np_around_proper x y : x == y -> np_around x = np_around y.
Proof.
  intros H. unfold np_around. rewrite (Qfloor_comp _ _ H).
  rewrite (Qltb_comp (x - inject_Z (Qfloor y)) (y - inject_Z (Qfloor y)) (1#2) (1#2)) by (try rewrite H; reflexivity).
  rewrite (Qltb_comp (1#2) (1#2) (x - inject_Z (Qfloor y)) (y - inject_Z (Qfloor y))) by (try rewrite H; reflexivity).
  reflexivity.
Qed.

Lemma np_around_mono x y : x <= y -> (np_around x <= np_around y)%Z.
Proof.
  intros H. unfold np_around.
  assert (F : (Qfloor x <= Qfloor y)%Z) by (apply Qfloor_resp_le; exact H).
  destruct (Qfloor_spec x), (Qfloor_spec y).
  destruct (Z.eq_dec (Qfloor x) (Qfloor y)) as [E|E].
  - rewrite E in *.
    repeat match goal with |- context [Qltb ?a ?b] => destruct (Qltb a b) eqn:? end;
    destruct (Z.even (Qfloor y)); try lia;
    repeat match goal with
    | H : Qltb _ _ = true |- _ => apply Qltb_lt in H
    | H : Qltb _ _ = false |- _ => apply Qltb_ge in H end; lra.
  - repeat match goal with |- context [Qltb ?a ?b] => destruct (Qltb a b) end;
    destruct (Z.even (Qfloor x)); destruct (Z.even (Qfloor y)); lia.
Qed.

Lemma rnd53_pos_spec x e : 0 < x -> p2 e <= x -> x < p2 (e+1) ->
  rnd53_pos x == inject_Z (np_around (x / p2 (e - 52))) * p2 (e - 52).
Proof.
  intros Hx H1 H2. unfold rnd53_pos. rewrite (qexp_unique x e) by assumption. reflexivity.
Qed.

Lemma rnd53_pos_proper x y : 0 < x -> x == y -> rnd53_pos x == rnd53_pos y.
Proof.
  intros Hx H. destruct (qexp_spec x Hx) as [A B].
  rewrite (rnd53_pos_spec x (qexp x)) by assumption.
  rewrite (rnd53_pos_spec y (qexp x)) by (rewrite <- H; assumption).
  rewrite (np_around_proper (x / p2 (qexp x - 52)) (y / p2 (qexp x - 52)))
    by (unfold Qdiv; apply Qmult_comp; [exact H | reflexivity]).
  reflexivity.
Qed.

Lemma Qdiv_le x y s : 0 < s -> x <= y -> x / s <= y / s.
Proof.
  intros Hs H. apply Qle_shift_div_l; [assumption|].
  setoid_replace (x / s * s) with x by (field; lra). assumption.
Qed.

Lemma rnd53_pos_range x e : 0 < x -> p2 e <= x -> x < p2 (e+1) ->
  p2 e <= rnd53_pos x /\ rnd53_pos x <= p2 (e + 1).
Proof.
  intros Hx H1 H2. rewrite (rnd53_pos_spec x e) by assumption.
  set (s := p2 (e - 52)).
  assert (Hs : 0 < s) by apply p2_pos.
  assert (E1 : p2 e == inject_Z (2 ^ 52) * s).
  { unfold s. rewrite <- p2_Z by lia. rewrite <- p2_add.
    replace (52 + (e - 52))%Z with e by lia. reflexivity. }
  assert (E2 : p2 (e + 1) == inject_Z (2 ^ 53) * s).
  { unfold s. rewrite <- p2_Z by lia. rewrite <- p2_add.
    replace (53 + (e - 52))%Z with (e+1)%Z by lia. reflexivity. }
  rewrite E1, E2. split; (apply Qmult_le_r; [exact Hs|]); apply inject_Z_le.
  - rewrite <- (np_around_int (inject_Z (2^52)) (2^52)) by reflexivity.
    apply np_around_mono. apply Qle_shift_div_l; [exact Hs|]. rewrite <- E1. exact H1.
  - rewrite <- (np_around_int (inject_Z (2^53)) (2^53)) by reflexivity.
    apply np_around_mono. apply Qle_shift_div_r; [exact Hs|]. rewrite <- E2. lra.
Qed.

Lemma rnd53_pos_mono x y : 0 < x -> x <= y -> rnd53_pos x <= rnd53_pos y.
Proof.
  intros Hx H. assert (Hy : 0 < y) by lra.
  destruct (qexp_spec x Hx) as [A B], (qexp_spec y Hy) as [C D].
  destruct (Z.eq_dec (qexp x) (qexp y)) as [E|E].
  - rewrite (rnd53_pos_spec x (qexp y)) by (try rewrite <- E; assumption).
    rewrite (rnd53_pos_spec y (qexp y)) by assumption.
    apply Qmult_le_r; [apply p2_pos|]. apply inject_Z_le. apply np_around_mono.
    apply Qdiv_le; [apply p2_pos | exact H].
  - assert (p2 (qexp x) < p2 (qexp y + 1)) by lra. apply p2_lt_inv in H0.
    assert (p2 (qexp x + 1) <= p2 (qexp y)) by (apply p2_mono; lia).
    destruct (rnd53_pos_range x _ Hx A B). destruct (rnd53_pos_range y _ Hy C D). lra.
Qed.

Lemma rnd53_pos_rel x : 0 < x -> Qabs (rnd53_pos x - x) <= u53 * x.
Proof.
  intros Hx. destruct (qexp_spec x Hx) as [A B].
  rewrite (rnd53_pos_spec x (qexp x)) by assumption.
  set (e := qexp x) in *. set (s := p2 (e - 52)).
  assert (Hs : 0 < s) by apply p2_pos.
  assert (E : x == (x / s) * s) by (field; lra).
  setoid_replace (inject_Z (np_around (x / s)) * s - x)
    with ((inject_Z (np_around (x / s)) - x / s) * s) by (rewrite E at 2; ring).
  rewrite Qabs_Qmult. rewrite (Qabs_pos s) by lra.
  apply Qle_trans with ((1#2) * s).
  { apply Qmult_le_r; [exact Hs|]. apply np_around_half. }
  assert (Es : (1#2) * s == u53 * p2 e).
  { unfold s. replace (e - 52)%Z with (-52 + e)%Z by lia. rewrite p2_add.
    rewrite Qmult_assoc. reflexivity. }
  rewrite Es. apply Qmult_le_l; [reflexivity|exact A].
Qed.

Lemma rnd53_pos_int n : (0 < n <= 2 ^ 53)%Z -> rnd53_pos (inject_Z n) == inject_Z n.
Proof.
  intros Hn. assert (Hx : 0 < inject_Z n) by (apply (inject_Z_lt 0); lia).
  destruct (Z.eq_dec n (2^53)) as [->|Hne]; [reflexivity|].
  destruct (qexp_spec _ Hx) as [A B]. set (e := qexp (inject_Z n)) in *.
  rewrite (rnd53_pos_spec _ e) by assumption.
  assert (e < 53)%Z.
  { apply p2_lt_inv. apply Qle_lt_trans with (inject_Z n); [exact A|].
    rewrite p2_Z by lia. apply inject_Z_lt. lia. }
  set (s := p2 (e - 52)). assert (Hs : 0 < s) by apply p2_pos.
  assert (Ei : inject_Z n / s == inject_Z (n * 2 ^ (52 - e))).
  { rewrite inject_Z_mult, <- p2_Z by lia.
    assert (s * p2 (52 - e) == 1).
    { unfold s. rewrite <- p2_add. replace (e - 52 + (52 - e))%Z with 0%Z by lia. reflexivity. }
    setoid_replace (inject_Z n * p2 (52 - e)) with (inject_Z n * (s * p2 (52-e)) / s) by (field; lra).
    rewrite H0. field. lra. }
  rewrite (np_around_int _ _ Ei). rewrite <- Ei. field. lra.
Qed.

Lemma rnd53_of_pos x : 0 < x -> rnd53 x = rnd53_pos x.
Proof. intros H. unfold rnd53. destruct x as [[|p|p] d]; try reflexivity; inversion H. Qed.
Lemma rnd53_of_neg x : x < 0 -> rnd53 x = - rnd53_pos (- x).
Proof. intros H. unfold rnd53. destruct x as [[|p|p] d]; try reflexivity; inversion H. Qed.
Lemma rnd53_of_0 x : x == 0 -> rnd53 x = 0.
Proof. intros H. unfold rnd53. destruct x as [[|p|p] d]; try reflexivity; inversion H. Qed.

Lemma rnd53_pos_pos x : 0 < x -> 0 < rnd53_pos x.
Proof.
  intros Hx. destruct (qexp_spec x Hx) as [A B]. destruct (rnd53_pos_range x _ Hx A B).
  pose proof (p2_pos (qexp x)). lra.
Qed.

Ltac sgn x := destruct (Qlt_le_dec x 0) as [?Hn|?Hp]; [|destruct (Qlt_le_dec 0 x) as [?Hq|?Hz]; [|assert (x == 0) by lra]].

Theorem rnd53_fl_ok : fl_ok rnd53.
Proof.
  constructor.
  - intros x y H. sgn x.
    + rewrite !rnd53_of_neg by lra. rewrite (rnd53_pos_proper (-x) (-y)) by lra. reflexivity.
    + rewrite !rnd53_of_pos by lra. apply rnd53_pos_proper; lra.
    + rewrite !rnd53_of_0 by lra. reflexivity.
  - intros x. sgn x.
    + rewrite rnd53_of_neg by lra. rewrite (Qabs_neg x) by lra.
      setoid_replace (- rnd53_pos (- x) - x) with (- (rnd53_pos (-x) - (-x))) by ring.
      rewrite Qabs_opp. apply rnd53_pos_rel. lra.
    + rewrite rnd53_of_pos by lra. rewrite (Qabs_pos x) by lra. apply rnd53_pos_rel. lra.
    + rewrite rnd53_of_0 by lra. rewrite H. discriminate.
  - intros x y H. sgn x; sgn y; try lra.
    + rewrite !rnd53_of_neg by lra. assert (rnd53_pos (-y) <= rnd53_pos (-x)) by (apply rnd53_pos_mono; lra). lra.
    + rewrite rnd53_of_neg, rnd53_of_pos by lra.
      assert (0 < rnd53_pos (-x)) by (apply rnd53_pos_pos; lra).
      assert (0 < rnd53_pos y) by (apply rnd53_pos_pos; lra). lra.
    + rewrite rnd53_of_neg, rnd53_of_0 by lra.
      assert (0 < rnd53_pos (-x)) by (apply rnd53_pos_pos; lra). lra.
    + rewrite !rnd53_of_pos by lra. apply rnd53_pos_mono; lra.
    + rewrite rnd53_of_0, rnd53_of_pos by lra. assert (0 < rnd53_pos y) by (apply rnd53_pos_pos; lra). lra.
    + rewrite !rnd53_of_0 by lra. lra.
  - intros n H. sgn (inject_Z n).
    + rewrite rnd53_of_neg by lra. apply (inject_Z_lt_inv n 0) in Hn.
      rewrite <- inject_Z_opp, rnd53_pos_int by lia. rewrite inject_Z_opp. ring.
    + rewrite rnd53_of_pos by lra. apply (inject_Z_lt_inv 0 n) in Hq. apply rnd53_pos_int. lia.
    + rewrite rnd53_of_0 by lra. lra.
  - intros x. sgn x.
    + rewrite rnd53_of_pos, rnd53_of_neg by lra. ring.
    + rewrite rnd53_of_neg, rnd53_of_pos by lra.
      rewrite (rnd53_pos_proper (- - x) x) by lra. reflexivity.
    + rewrite !rnd53_of_0 by lra. reflexivity.
Qed.
