(** * Lemmas about resampled rasters (C76). *)
From Coq Require Import Qabs Qpower Qfield.
From Verif Require Import Base BaseLemmas PyStr Rounding TileModel ClipModel ReprModel ReprSpec.
Open Scope Q_scope.

Lemma rnd24_pos_exact x m e : 0 < x -> (0 < m <= 2 ^ 24)%Z -> x == inject_Z m * p2 e -> rnd24_pos x == x.
Proof.
  intros Hx Hm E. destruct (qexp_spec x Hx) as [A B]. unfold rnd24_pos. set (q := qexp x) in *.
  assert (S0 : ~ p2 (q - 23) == 0) by (pose proof (p2_pos (q - 23)); lra).
  assert (N : exists n, x / p2 (q - 23) == inject_Z n).
  { destruct (Z.eq_dec m (2 ^ 24)) as [M|M].
    - assert (X : x == p2 (24 + e)) by (rewrite E, M, p2_add, (p2_Z 24) by lia; reflexivity).
      assert (Q1 : q = (24 + e)%Z).
      { apply qexp_unique; [exact Hx|lra|]. rewrite X, (p2_add (24 + e) 1). pose proof (p2_pos (24 + e)). change (p2 1) with 2. lra. }
      exists (2 ^ 23)%Z. rewrite X, Q1. set (z := (24 + e - 23)%Z). replace (24 + e)%Z with (23 + z)%Z by (unfold z; lia). rewrite p2_add, (p2_Z 23) by lia.
      pose proof (p2_pos z). field. lra.
    - assert (L : (q < 24 + e)%Z).
      { apply p2_lt_inv. rewrite p2_add, (p2_Z 24) by lia. rewrite E in A. eapply Qle_lt_trans; [exact A|].
        apply Qmult_lt_r; [apply p2_pos|]. apply inject_Z_lt. lia. }
      exists (m * 2 ^ (e - q + 23))%Z. rewrite inject_Z_mult, <- p2_Z by lia. rewrite E.
      assert (Ee : p2 e == p2 (e - q + 23) * p2 (q - 23)) by (rewrite <- p2_add; replace (e - q + 23 + (q - 23))%Z with e by lia; reflexivity).
      rewrite Ee. field. exact S0. }
  destruct N as [n N]. rewrite (np_around_int _ _ N), <- N. field. exact S0.
Qed.

Lemma rnd24_exact x m e : (Z.abs m <= 2 ^ 24)%Z -> x == inject_Z m * 2 ^ e -> rnd24 x == x.
Proof.
  intros Hm E. change (2 ^ e) with (p2 e) in E. unfold rnd24. pose proof (p2_pos e) as P.
  assert (SG : forall y n, y == inject_Z n * p2 e -> 0 < y -> (0 < n)%Z).
  { intros y n Ey Hy. destruct (Z_lt_ge_dec 0 n) as [|G]; [assumption|]. exfalso.
    assert (inject_Z n <= 0) by (change 0 with (inject_Z 0); apply inject_Z_le; lia).
    assert (inject_Z n * p2 e <= 0 * p2 e) by (apply Qmult_le_compat_r; lra). lra. }
  destruct (Qnum x) eqn:N.
  - unfold Qeq. cbn. rewrite N. reflexivity.
  - assert (Hx : 0 < x) by (unfold Qlt; cbn; rewrite N; lia).
    pose proof (SG x m E Hx). apply (rnd24_pos_exact x m e); [exact Hx|lia|exact E].
  - assert (Hx : 0 < - x) by (unfold Qlt; cbn; rewrite N; cbn; lia).
    assert (E' : - x == inject_Z (- m) * p2 e) by (rewrite inject_Z_opp, E; ring).
    pose proof (SG (- x) (- m)%Z E' Hx). rewrite (rnd24_pos_exact (- x) (- m) e); [ring|exact Hx|lia|exact E'].
Qed.

Lemma store_kept t v : kept t v -> store (dst_type t) v == v.
Proof.
  intros [->|(m & e & Hm & E)]; [reflexivity|]. destruct t; cbn; try reflexivity; eapply rnd24_exact; eauto.
Qed.

(** Indices of the pixel that contains a point. *)
Lemma floor_pos x x0 d j : 0 < d -> (Qfloor ((x - x0) / d) = j <-> x0 + inject_Z j * d <= x /\ x < x0 + inject_Z (j + 1) * d).
Proof.
  intros Hd. assert (E : (x - x0) / d * d == x - x0) by (field; lra). rewrite inject_Z_plus. change (inject_Z 1) with 1. split.
  - intros <-. destruct (Qfloor_spec ((x - x0) / d)) as [A B]. set (f := inject_Z (Qfloor ((x - x0) / d))) in *.
    assert (f * d <= (x - x0) / d * d) by (apply Qmult_le_compat_r; lra).
    assert ((x - x0) / d * d < (f + 1) * d) by (apply Qmult_lt_r; lra). split; lra.
  - intros [A B]. apply Qfloor_unique.
    + apply Qle_shift_div_l; lra.
    + apply Qlt_shift_div_r; lra.
Qed.
Lemma floor_neg y y0 d i : d < 0 -> (Qfloor ((y - y0) / d) = i <-> y0 + inject_Z (i + 1) * d < y /\ y <= y0 + inject_Z i * d).
Proof.
  intros Hd. assert (E : (y - y0) / d == ((- y) - (- y0)) / (- d)) by (field; lra). rewrite (Qfloor_comp _ _ E).
  rewrite (floor_pos (- y) (- y0) (- d) i) by lra. split; intros [A B]; split; lra.
Qed.
