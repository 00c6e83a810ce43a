(** * Bounds on polynomials with rational coefficients by computation.
    A polynomial in three real variables is a list of monomials; [bound_ok] gives an upper
    bound of its absolute value from the coefficients. *)
From Coq Require Import Reals QArith Qreals Qabs List Lia Lra ZArith.
Import ListNotations.
Local Open Scope R_scope.

Inductive expr := X | Y | Z | K (q : Q) | Add (a b : expr) | Sub (a b : expr) | Mul (a b : expr).
Fixpoint eeval (x y z : R) (e : expr) : R :=
  match e with
  | X => x | Y => y | Z => z | K q => Q2R q
  | Add a b => eeval x y z a + eeval x y z b
  | Sub a b => eeval x y z a - eeval x y z b
  | Mul a b => eeval x y z a * eeval x y z b
  end.

Definition mono := (nat * nat * nat)%type.
Definition poly := list (mono * Q).
Definition meval (x y z : R) (m : mono) : R := let '(i, j, k) := m in x ^ i * y ^ j * z ^ k.
Fixpoint peval (x y z : R) (p : poly) : R :=
  match p with [] => 0 | (m, q) :: r => Q2R q * meval x y z m + peval x y z r end.

Definition meqb (m n : mono) : bool := let '(i, j, k) := m in let '(i', j', k') := n in (i =? i')%nat && (j =? j')%nat && (k =? k')%nat.
Definition madd (m n : mono) : mono := let '(i, j, k) := m in let '(i', j', k') := n in (i + i', j + j', k + k')%nat.
Fixpoint ins (m : mono) (q : Q) (p : poly) : poly :=
  match p with
  | [] => [(m, q)]
  | (n, r) :: p' => if meqb m n then (n, Qred (q + r)) :: p' else (n, r) :: ins m q p'
  end.
Fixpoint padd (p r : poly) : poly := match p with [] => r | (m, q) :: p' => ins m q (padd p' r) end.
Definition pscale (m : mono) (q : Q) (p : poly) : poly := map (fun t => (madd m (fst t), Qred (q * snd t))) p.
Fixpoint pmul (p r : poly) : poly := match p with [] => [] | (m, q) :: p' => padd (pscale m q r) (pmul p' r) end.
Fixpoint norm (e : expr) : poly :=
  match e with
  | X => [((1, 0, 0)%nat, 1%Q)] | Y => [((0, 1, 0)%nat, 1%Q)] | Z => [((0, 0, 1)%nat, 1%Q)] | K q => [((0, 0, 0)%nat, q)]
  | Add a b => padd (norm a) (norm b)
  | Sub a b => padd (norm a) (pscale (0, 0, 0)%nat (-1)%Q (norm b))
  | Mul a b => pmul (norm a) (norm b)
  end.

Section Eval.
Variables x y z : R.
Local Notation ev := (peval x y z).
Lemma Q2R_red q : Q2R (Qred q) = Q2R q. Proof. apply Qeq_eqR, Qred_correct. Qed.
Lemma ins_ok m q p : ev (ins m q p) = Q2R q * meval x y z m + ev p.
Proof.
  induction p as [|[n r] p IH]; cbn [ins peval]; [reflexivity|]. destruct (meqb m n) eqn:E; cbn [peval].
  - destruct m as [[i j] k], n as [[i' j'] k']. cbn [meqb] in E. apply andb_prop in E as [E E3]. apply andb_prop in E as [E1 E2].
    apply Nat.eqb_eq in E1, E2, E3. subst. rewrite Q2R_red, Q2R_plus. ring.
  - rewrite IH. ring.
Qed.
Lemma padd_ok p r : ev (padd p r) = ev p + ev r.
Proof. induction p as [|[m q] p IH]; cbn [padd peval]; [ring|]. rewrite ins_ok, IH. ring. Qed.
Lemma meval_add m n : meval x y z (madd m n) = meval x y z m * meval x y z n.
Proof. destruct m as [[i j] k], n as [[i' j'] k']. cbn [madd meval]. rewrite !pow_add. ring. Qed.
Lemma pscale_ok m q p : ev (pscale m q p) = Q2R q * meval x y z m * ev p.
Proof. unfold pscale. induction p as [|[n r] p IH]; cbn [map peval fst snd]; [ring|]. rewrite IH, meval_add, Q2R_red, Q2R_mult. ring. Qed.
Lemma pmul_ok p r : ev (pmul p r) = ev p * ev r.
Proof. induction p as [|[m q] p IH]; cbn [pmul peval]; [ring|]. rewrite padd_ok, pscale_ok, IH. ring. Qed.
Lemma norm_ok e : ev (norm e) = eeval x y z e.
Proof.
  induction e; cbn [norm eeval]; try (cbn [peval meval]; try rewrite RMicromega.Q2R_1; cbn [pow]; ring).
  - rewrite padd_ok, IHe1, IHe2. reflexivity.
  - rewrite padd_ok, pscale_ok, IHe1, IHe2. cbn [meval pow]. replace (Q2R (-1)) with (-1) by (unfold Q2R; cbn [Qnum Qden]; field). ring.
  - rewrite pmul_ok, IHe1, IHe2. reflexivity.
Qed.
End Eval.

(** Every monomial with a nonzero coefficient has degree at least [d] in the first variable;
    the sum of |coefficient| * bx^(degree - d). *)
Fixpoint low_ok (d : nat) (p : poly) : bool :=
  match p with [] => true | ((i, _, _), q) :: r => (Qeq_bool q 0 || (d <=? i)%nat) && low_ok d r end.
Fixpoint qpow (q : Q) (n : nat) : Q := match n with O => 1%Q | S k => Qred (q * qpow q k) end.
Fixpoint bnd (bx : Q) (d : nat) (p : poly) : Q :=
  match p with [] => 0%Q | ((i, _, _), q) :: r => Qred (Qabs q * qpow bx (i - d) + bnd bx d r) end.

Lemma qpow_ok q n : Q2R (qpow q n) = Q2R q ^ n.
Proof. induction n as [|n IH]; cbn [qpow pow]; [apply RMicromega.Q2R_1|]. rewrite Q2R_red, Q2R_mult, IH. reflexivity. Qed.
Lemma Q2R_abs q : Q2R (Qabs q) = Rabs (Q2R q).
Proof.
  destruct (Qlt_le_dec q 0) as [L|L].
  - rewrite (Qeq_eqR _ _ (Qabs_neg q (Qlt_le_weak _ _ L))), Q2R_opp. apply Qlt_Rlt in L. rewrite RMicromega.Q2R_0 in L. rewrite Rabs_left; lra.
  - rewrite (Qeq_eqR _ _ (Qabs_pos q L)). apply Qle_Rle in L. rewrite RMicromega.Q2R_0 in L. rewrite Rabs_pos_eq; lra.
Qed.
Lemma pow_le_1 a n : Rabs a <= 1 -> Rabs (a ^ n) <= 1.
Proof.
  intros H. rewrite <- RPow_abs. induction n as [|n IH]; cbn [pow]; [lra|]. pose proof (Rabs_pos a).
  assert (0 <= Rabs a ^ n) by (apply pow_le; assumption). nra.
Qed.
Lemma bound_ok bx d p x y z : 0 <= x <= Q2R bx -> Rabs y <= 1 -> Rabs z <= 1 -> low_ok d p = true ->
  Rabs (peval x y z p) <= x ^ d * Q2R (bnd bx d p).
Proof.
  intros Hx Hy Hz. induction p as [|[[[i j] k] q] p IH]; intros L; cbn [peval bnd low_ok] in *.
  { rewrite Rabs_R0, RMicromega.Q2R_0. lra. }
  apply andb_prop in L as [L1 L2]. specialize (IH L2). rewrite Q2R_red, Q2R_plus, Q2R_mult, Q2R_abs, qpow_ok.
  rewrite Rmult_plus_distr_l. apply Rle_trans with (1 := Rabs_triang _ _). apply Rplus_le_compat; [|exact IH].
  assert (B0 : 0 <= Q2R bx) by lra.
  destruct (Qeq_bool q 0) eqn:E.
  - apply Qeq_bool_iff in E. apply Qeq_eqR in E. rewrite E, RMicromega.Q2R_0, Rmult_0_l, Rabs_R0, Rmult_0_l, Rmult_0_r. lra.
  - cbn [orb] in L1. apply Nat.leb_le in L1. rewrite Rabs_mult. cbn [meval]. rewrite !Rabs_mult.
    pose proof (pow_le_1 y j Hy) as PY. pose proof (pow_le_1 z k Hz) as PZ. pose proof (Rabs_pos (y ^ j)). pose proof (Rabs_pos (z ^ k)).
    rewrite (Rabs_pos_eq (x ^ i)) by (apply pow_le; lra).
    assert (EX : x ^ i = x ^ d * x ^ (i - d)) by (rewrite <- pow_add; f_equal; lia).
    assert (XB : x ^ (i - d) <= Q2R bx ^ (i - d)) by (apply pow_incr; lra).
    assert (0 <= x ^ d) by (apply pow_le; lra). assert (0 <= x ^ (i - d)) by (apply pow_le; lra). pose proof (Rabs_pos (Q2R q)).
    assert (W : x ^ i * Rabs (y ^ j) * Rabs (z ^ k) <= x ^ i).
    { assert (0 <= x ^ i) by (apply pow_le; lra). assert (Rabs (y ^ j) * Rabs (z ^ k) <= 1) by nra. rewrite Rmult_assoc. nra. }
    apply Rle_trans with (Rabs (Q2R q) * x ^ i); [apply Rmult_le_compat_l; assumption|]. rewrite EX.
    replace (x ^ d * (Rabs (Q2R q) * Q2R bx ^ (i - d))) with (Rabs (Q2R q) * (x ^ d * Q2R bx ^ (i - d))) by ring.
    apply Rmult_le_compat_l; [assumption|]. apply Rmult_le_compat_l; assumption.
Qed.

(** The polynomial [e] is bounded by [x^d * q] for 0 <= x <= bx, |y| <= 1, |z| <= 1. *)
Definition check (e : expr) (bx : Q) (d : nat) (q : Q) : bool := let p := norm e in low_ok d p && Qle_bool (bnd bx d p) q.
Lemma check_ok e bx d q x y z : check e bx d q = true -> 0 <= x <= Q2R bx -> Rabs y <= 1 -> Rabs z <= 1 ->
  Rabs (eeval x y z e) <= x ^ d * Q2R q.
Proof.
  unfold check. cbv zeta. intros H Hx Hy Hz. apply andb_prop in H as [L Q]. rewrite <- norm_ok. apply Rle_trans with (1 := bound_ok bx d _ x y z Hx Hy Hz L).
  apply Rmult_le_compat_l; [apply pow_le; lra|]. apply Qle_Rle, Qle_bool_iff, Q.
Qed.
