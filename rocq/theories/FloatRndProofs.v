(** * [rnd p] rounds to [p] bits. *)
From Verif Require Import Base BaseLemmas Rounding FloatSpec FloatModel.
From Coq Require Import Qpower Qfield.
Open Scope Q_scope.

Lemma expo_qexp x : expo x = qexp x. Proof. reflexivity. Qed.

Section P.
  Variable p : Z.
  Hypothesis Hp : (1 <= p)%Z.

  Lemma rnd_pos_spec x e : 0 < x -> p2 e <= x -> x < p2 (e+1) ->
    rnd_pos p x == inject_Z (np_around (x / p2 (e - (p - 1)))) * p2 (e - (p - 1)).
  Proof.
    intros Hx H1 H2. unfold rnd_pos. rewrite expo_qexp. rewrite (qexp_unique x e) by assumption. reflexivity.
  Qed.

  Lemma rnd_pos_proper x y : 0 < x -> x == y -> rnd_pos p x == rnd_pos p y.
  Proof.
    intros Hx H. destruct (qexp_spec x Hx) as [A B].
    rewrite (rnd_pos_spec x (qexp x)) by assumption.
    rewrite (rnd_pos_spec y (qexp x)) by (rewrite <- H; assumption).
    rewrite (np_around_proper (x / p2 (qexp x - (p - 1))) (y / p2 (qexp x - (p - 1))))
      by (unfold Qdiv; apply Qmult_comp; [exact H | reflexivity]).
    reflexivity.
  Qed.

  Lemma rnd_pos_range x e : 0 < x -> p2 e <= x -> x < p2 (e+1) ->
    p2 e <= rnd_pos p x /\ rnd_pos p x <= p2 (e + 1) /\ (0 <= np_around (x / p2 (e - (p - 1))) <= 2 ^ p)%Z.
  Proof.
    intros Hx H1 H2. rewrite (rnd_pos_spec x e) by assumption.
    set (s := p2 (e - (p - 1))).
    assert (Hs : 0 < s) by apply p2_pos.
    assert (E1 : p2 e == inject_Z (2 ^ (p - 1)) * s).
    { unfold s. rewrite <- p2_Z by lia. rewrite <- p2_add.
      replace (p - 1 + (e - (p - 1)))%Z with e by lia. reflexivity. }
    assert (E2 : p2 (e + 1) == inject_Z (2 ^ p) * s).
    { unfold s. rewrite <- p2_Z by lia. rewrite <- p2_add.
      replace (p + (e - (p - 1)))%Z with (e+1)%Z by lia. reflexivity. }
    assert (L : (2 ^ (p - 1) <= np_around (x / s))%Z).
    { rewrite <- (np_around_int (inject_Z (2^(p - 1))) (2^(p - 1))) by reflexivity.
      apply np_around_mono. apply Qle_shift_div_l; [exact Hs|]. rewrite <- E1. exact H1. }
    assert (U : (np_around (x / s) <= 2 ^ p)%Z).
    { rewrite <- (np_around_int (inject_Z (2^p)) (2^p)) by reflexivity.
      apply np_around_mono. apply Qle_shift_div_r; [exact Hs|]. rewrite <- E2. lra. }
    split; [|split].
    - rewrite E1. apply Qmult_le_r; [exact Hs|]. apply inject_Z_le. exact L.
    - rewrite E2. apply Qmult_le_r; [exact Hs|]. apply inject_Z_le. exact U.
    - assert (0 < 2 ^ (p - 1))%Z by (apply Z.pow_pos_nonneg; lia). lia.
  Qed.

  Lemma rnd_pos_mono x y : 0 < x -> x <= y -> rnd_pos p x <= rnd_pos p y.
  Proof.
    intros Hx H. assert (Hy : 0 < y) by lra.
    destruct (qexp_spec x Hx) as [A B], (qexp_spec y Hy) as [C D].
    destruct (Z.eq_dec (qexp x) (qexp y)) as [E|E].
    - rewrite (rnd_pos_spec x (qexp y)) by (try rewrite <- E; assumption).
      rewrite (rnd_pos_spec y (qexp y)) by assumption.
      apply Qmult_le_r; [apply p2_pos|]. apply inject_Z_le. apply np_around_mono.
      apply Qdiv_le; [apply p2_pos | exact H].
    - assert (p2 (qexp x) < p2 (qexp y + 1)) by lra. apply p2_lt_inv in H0.
      assert (p2 (qexp x + 1) <= p2 (qexp y)) by (apply p2_mono; lia).
      destruct (rnd_pos_range x _ Hx A B) as (? & ? & _). destruct (rnd_pos_range y _ Hy C D) as (? & ? & _). lra.
  Qed.

  Lemma rnd_pos_rel x : 0 < x -> Qabs (rnd_pos p x - x) <= p2 (- p) * x.
  Proof.
    intros Hx. destruct (qexp_spec x Hx) as [A B].
    rewrite (rnd_pos_spec x (qexp x)) by assumption.
    set (e := qexp x) in *. set (s := p2 (e - (p - 1))).
    assert (Hs : 0 < s) by apply p2_pos.
    assert (E : x == (x / s) * s) by (field; lra).
    setoid_replace (inject_Z (np_around (x / s)) * s - x)
      with ((inject_Z (np_around (x / s)) - x / s) * s) by (rewrite E at 2; ring).
    rewrite Qabs_Qmult. rewrite (Qabs_pos s) by lra.
    apply Qle_trans with ((1#2) * s).
    { apply Qmult_le_r; [exact Hs|]. apply np_around_half. }
    assert (Es : (1#2) * s == p2 (- p) * p2 e).
    { unfold s. replace (e - (p - 1))%Z with (1 + (- p + e))%Z by lia. rewrite !p2_add.
      change (p2 1) with (2#1). ring. }
    rewrite Es. apply Qmult_le_l; [apply p2_pos|exact A].
  Qed.

  Lemma rnd_pos_exact k e : (0 < k <= 2 ^ p)%Z -> rnd_pos p (inject_Z k * p2 e) == inject_Z k * p2 e.
  Proof.
    intros Hk. set (x := inject_Z k * p2 e).
    assert (Hx : 0 < x) by (unfold x; apply Qmult_lt_0_compat; [apply (inject_Z_lt 0); lia|apply p2_pos]).
    destruct (qexp_spec x Hx) as [A B]. set (f := qexp x) in *.
    rewrite (rnd_pos_spec x f) by assumption.
    assert (X2 : x <= p2 (p + e)).
    { unfold x. rewrite p2_add. apply Qmult_le_r; [apply p2_pos|]. rewrite p2_Z by lia. apply inject_Z_le. lia. }
    assert (F : (f <= p + e)%Z).
    { destruct (Z_le_gt_dec f (p + e)); [assumption|]. exfalso.
      assert (p2 (p + e) < p2 f); [|lra].
      assert (p2 (p + e + 1) <= p2 f) by (apply p2_mono; lia). rewrite (p2_add (p + e) 1) in H. change (p2 1) with (2#1) in H.
      pose proof (p2_pos (p + e)). lra. }
    set (s := p2 (f - (p - 1))). assert (Hs : 0 < s) by apply p2_pos.
    assert (Ei : exists n, x / s == inject_Z n).
    { destruct (Z.eq_dec f (p + e)) as [E|E].
      - exists (2 ^ (p - 1))%Z. assert (X : x == p2 (p + e)) by (rewrite <- E in *; lra).
        rewrite X. unfold s. rewrite E. rewrite <- p2_Z by lia.
        replace (p + e)%Z with ((p - 1) + (p + e - (p - 1)))%Z at 1 by lia. rewrite p2_add.
        field. pose proof (p2_pos (p + e - (p - 1))). lra.
      - exists (k * 2 ^ (e - (f - (p - 1))))%Z. rewrite inject_Z_mult, <- p2_Z by lia.
        unfold x. replace e with ((e - (f - (p - 1))) + (f - (p - 1)))%Z at 1 by lia. rewrite p2_add. fold s. field. lra. }
    destruct Ei as (n & Ei). rewrite (np_around_int _ _ Ei). rewrite <- Ei. field. lra.
  Qed.

  Lemma rnd_of_pos x : 0 < x -> rnd p x = rnd_pos p x.
  Proof. intros H. unfold rnd. destruct x as [[|q|q] d]; try reflexivity; inversion H. Qed.
  Lemma rnd_of_neg x : x < 0 -> rnd p x = - rnd_pos p (- x).
  Proof. intros H. unfold rnd. destruct x as [[|q|q] d]; try reflexivity; inversion H. Qed.
  Lemma rnd_of_0 x : x == 0 -> rnd p x = 0.
  Proof. intros H. unfold rnd. destruct x as [[|q|q] d]; try reflexivity; inversion H. Qed.

  Lemma rnd_pos_pos x : 0 < x -> 0 < rnd_pos p x.
  Proof.
    intros Hx. destruct (qexp_spec x Hx) as [A B]. destruct (rnd_pos_range x _ Hx A B) as (? & ? & _).
    pose proof (p2_pos (qexp x)). lra.
  Qed.

  Lemma rnd_pos_format x : 0 < x -> exists k e, (Z.abs k <= 2 ^ p)%Z /\ rnd_pos p x == inject_Z k * p2 e.
  Proof.
    intros Hx. destruct (qexp_spec x Hx) as [A B]. destruct (rnd_pos_range x _ Hx A B) as (_ & _ & R).
    exists (np_around (x / p2 (qexp x - (p - 1)))), (qexp x - (p - 1))%Z. split; [lia|].
    apply rnd_pos_spec; assumption.
  Qed.

  Theorem rnd_binary : binary p (rnd p).
  Proof.
    constructor.
    - intros x y H. sgn x.
      + rewrite !rnd_of_neg by lra. rewrite (rnd_pos_proper (-x) (-y)) by lra. reflexivity.
      + rewrite !rnd_of_pos by lra. apply rnd_pos_proper; lra.
      + rewrite !rnd_of_0 by lra. reflexivity.
    - intros x y H. sgn x; sgn y; try lra.
      + rewrite !rnd_of_neg by lra. assert (rnd_pos p (-y) <= rnd_pos p (-x)) by (apply rnd_pos_mono; lra). lra.
      + rewrite rnd_of_neg, rnd_of_pos by lra.
        assert (0 < rnd_pos p (-x)) by (apply rnd_pos_pos; lra).
        assert (0 < rnd_pos p y) by (apply rnd_pos_pos; lra). lra.
      + rewrite rnd_of_neg, rnd_of_0 by lra.
        assert (0 < rnd_pos p (-x)) by (apply rnd_pos_pos; lra). lra.
      + rewrite !rnd_of_pos by lra. apply rnd_pos_mono; lra.
      + rewrite rnd_of_0, rnd_of_pos by lra. assert (0 < rnd_pos p y) by (apply rnd_pos_pos; lra). lra.
      + rewrite !rnd_of_0 by lra. lra.
    - intros x. change Qpower with (fun b e => Qpower b e). sgn x.
      + rewrite rnd_of_neg by lra. destruct (rnd_pos_format (-x)) as (k & e & K & E); [lra|].
        exists (- k)%Z, e. split; [lia|]. change (Qpower 2 e) with (p2 e). rewrite E, inject_Z_opp. ring.
      + rewrite rnd_of_pos by lra. apply rnd_pos_format. lra.
      + rewrite rnd_of_0 by lra. exists 0%Z, 0%Z. split; [apply Z.pow_nonneg; lia|reflexivity].
    - intros k e Hk. change (Qpower 2 e) with (p2 e). pose proof (p2_pos e) as He.
      destruct (Z.lt_trichotomy k 0) as [H|[H|H]].
      + assert (inject_Z k * p2 e < 0).
        { assert (0 < inject_Z (- k) * p2 e) by (apply Qmult_lt_0_compat; [apply (inject_Z_lt 0); lia|exact He]).
          rewrite inject_Z_opp in H0. lra. }
        rewrite rnd_of_neg by assumption.
        rewrite (rnd_pos_proper (- (inject_Z k * p2 e)) (inject_Z (- k) * p2 e)); [|lra|rewrite inject_Z_opp; ring].
        rewrite rnd_pos_exact by lia. rewrite inject_Z_opp. ring.
      + subst k. rewrite rnd_of_0 by ring. ring.
      + rewrite rnd_of_pos by (apply Qmult_lt_0_compat; [apply (inject_Z_lt 0); lia|exact He]).
        apply rnd_pos_exact. lia.
    - intros x. change (Qpower 2 (- p)) with (p2 (- p)). sgn x.
      + rewrite rnd_of_neg by lra. rewrite (Qabs_neg x) by lra.
        setoid_replace (- rnd_pos p (- x) - x) with (- (rnd_pos p (-x) - (-x))) by ring.
        rewrite Qabs_opp. apply rnd_pos_rel. lra.
      + rewrite rnd_of_pos by lra. rewrite (Qabs_pos x) by lra. apply rnd_pos_rel. lra.
      + rewrite rnd_of_0 by lra. rewrite H. cbn [Qabs]. rewrite Qmult_0_r. discriminate.
  Qed.
End P.
