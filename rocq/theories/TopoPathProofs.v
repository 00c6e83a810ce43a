(** * Traversal lines (C41). *)
From Coq Require Import Permutation Sorted.
From Verif Require Import Base BaseLemmas NameModel TerrSpec TopoModel TopoSpec TopoLineProofs DistProofs.
Open Scope Z_scope.

Lemma increments d : i_incr d = - fst (upwind d) /\ j_incr d = - snd (upwind d).
Proof. destruct d; split; reflexivity. Qed.

Section Path.
Variables nr nc : Z.
Hypothesis Hnr : 1 <= nr.
Hypothesis Hnc : 1 <= nc.

Definition ins (r c : Z) : Prop := 0 <= r < nr /\ 0 <= c < nc.
Definition idx (r c : Z) : Z := c * nr + r.
Lemma idx_row r c : 0 <= r < nr -> idx r c mod nr = r.
Proof. intros H. unfold idx. rewrite Z.add_comm, Z_mod_plus_full. apply Z.mod_small. exact H. Qed.
Lemma idx_col r c : 0 <= r < nr -> idx r c / nr = c.
Proof. intros H. unfold idx. rewrite Z.add_comm, Z_div_plus_full by lia. rewrite Z.div_small by exact H. lia. Qed.
Lemma idx_range r c : ins r c -> 0 <= idx r c < nr * nc.
Proof. intros [A B]. unfold idx. nia. Qed.
Lemma idx_inv n : 0 <= n < nr * nc -> ins (n mod nr) (n / nr) /\ idx (n mod nr) (n / nr) = n.
Proof.
  intros H. pose proof (Z.mod_pos_bound n nr ltac:(lia)) as A. pose proof (Z.div_mod n nr ltac:(lia)) as D. split; [|unfold idx; lia].
  split; [exact A|]. split; [apply Z.div_pos; lia|]. apply Z.div_lt_upper_bound; lia.
Qed.
Lemma idx_inj r c r' c' : ins r c -> ins r' c' -> idx r c = idx r' c' -> r = r' /\ c = c'.
Proof.
  intros [A _] [A' _] E. split.
  - rewrite <- (idx_row r c A), <- (idx_row r' c' A'), E. reflexivity.
  - rewrite <- (idx_col r c A), <- (idx_col r' c' A'), E. reflexivity.
Qed.

(** ** The loop *)
Lemma path_loop_spec di dj fuel : forall i j, exists len,
  0 <= len <= Z.of_nat fuel /\
  path_loop fuel nr nc (i + 1) (j + 1) di dj = map (fun t => idx (i + t * di) (j + t * dj)) (zrange len) /\
  (forall t, 0 <= t < len -> ins (i + t * di) (j + t * dj)) /\
  (len < Z.of_nat fuel -> ~ ins (i + len * di) (j + len * dj)).
Proof.
  induction fuel as [|fuel IH]; intros i j.
  - exists 0. split; [lia|]. split; [reflexivity|]. split; [intros; lia|lia].
  - cbn [path_loop]. destruct ((i + 1 <=? nr) && (1 <=? i + 1) && ((j + 1 <=? nc) && (1 <=? j + 1))) eqn:E.
    + rewrite !andb_true_iff, !Z.leb_le in E. destruct (IH (i + di) (j + dj)) as (len & Hl & P & I & O).
      replace (i + 1 + di) with (i + di + 1) by lia. replace (j + 1 + dj) with (j + dj + 1) by lia. rewrite P.
      exists (len + 1). split; [lia|]. split; [|split].
      * rewrite (zrange_cons (len + 1)) by lia. cbn [map]. f_equal; [unfold idx; lia|]. replace (len + 1 - 1) with len by lia. rewrite map_map. apply map_ext. intros t. f_equal; lia.
      * intros t Ht. destruct (Z.eq_dec t 0) as [->|N]; [unfold ins; lia|]. specialize (I (t - 1) ltac:(lia)).
        replace (i + t * di) with (i + di + (t - 1) * di) by lia. replace (j + t * dj) with (j + dj + (t - 1) * dj) by lia. exact I.
      * intros L. specialize (O ltac:(lia)). replace (i + (len + 1) * di) with (i + di + len * di) by lia. replace (j + (len + 1) * dj) with (j + dj + len * dj) by lia. exact O.
    + exists 0. split; [lia|]. split; [reflexivity|]. split; [intros; lia|]. intros _ C. rewrite !andb_false_iff, !Z.leb_gt in E. unfold ins in C. lia.
Qed.

Variable d : dir.
Notation di := (i_incr d).
Notation dj := (j_incr d).
Lemma step_bounds : (-1 <= di <= 1 /\ -1 <= dj <= 1) /\ (di <> 0 \/ dj <> 0).
Proof. destruct d; cbn; lia. Qed.

Lemma make_path_spec r c : ins r c -> exists len,
  1 <= len /\ make_path nr nc (idx r c) d = map (fun t => idx (r + t * di) (c + t * dj)) (zrange len) /\
  (forall t, 0 <= t < len -> ins (r + t * di) (c + t * dj)) /\ ~ ins (r + len * di) (c + len * dj).
Proof.
  intros H. unfold make_path. rewrite idx_row by apply H. replace (idx r c + 1 - (r + 1)) with (c * nr) by (unfold idx; lia). rewrite Z.div_mul by lia.
  destruct (path_loop_spec di dj (Z.to_nat (nr + nc)) r c) as (len & Hl & P & I & O). exists len.
  assert (L1 : 1 <= len).
  { destruct (Z.eq_dec len 0) as [->|N]; [|lia]. exfalso. apply (O ltac:(lia)). replace (r + 0 * di) with r by lia. replace (c + 0 * dj) with c by lia. exact H. }
  assert (L2 : len < nr + nc).
  { destruct (Z_lt_ge_dec len (nr + nc)) as [L|G]; [exact L|]. exfalso. pose proof (I (nr + nc - 1) ltac:(lia)) as Z1. destruct H as [H1 H2], Z1 as [Z1 Z2].
    destruct step_bounds as [[B1 B2] [N|N]].
    - assert (di = 1 \/ di = -1) as [E|E] by lia; rewrite E in Z1; lia.
    - assert (dj = 1 \/ dj = -1) as [E|E] by lia; rewrite E in Z2; lia. }
  split; [exact L1|]. split; [exact P|]. split; [exact I|]. apply O. lia.
Qed.

(** ** Start cells *)
Definition on_edge (r c : Z) : Prop := ~ ins (r - di) (c - dj).

Lemma in_insert x l i : In i (insert_unique x l) <-> i = x \/ In i l.
Proof.
  induction l as [|y l IH]; cbn; [split; intros [H|H]; auto|]. destruct (Z.ltb_spec x y); [cbn; split; intros [H1|H1]; auto|].
  destruct (Z.eqb_spec x y) as [->|]; cbn; [|rewrite IH]; split; intros; intuition.
Qed.
Lemma in_unique l i : In i (np_unique l) <-> In i l.
Proof. unfold np_unique. induction l as [|x l IH]; cbn; [reflexivity|]. rewrite in_insert, IH. split; intros [H|H]; auto. Qed.
Lemma insert_sorted x l : sorted l -> sorted (insert_unique x l).
Proof.
  induction 1 as [|y l S IH F]; cbn; [repeat constructor|]. destruct (Z.ltb_spec x y).
  - constructor; [constructor; assumption|]. rewrite Forall_forall in *. intros z [<-|Hz]; [assumption|]. apply F in Hz. lia.
  - destruct (Z.eqb_spec x y); [constructor; assumption|]. constructor; [exact IH|]. rewrite Forall_forall in *. intros z Hz. apply in_insert in Hz. destruct Hz as [->|Hz]; [lia|auto].
Qed.
Lemma unique_sorted l : sorted (np_unique l).
Proof. unfold np_unique. induction l; cbn; [constructor|apply insert_sorted; assumption]. Qed.
Lemma sorted_NoDup l : sorted l -> NoDup l.
Proof. induction 1 as [|x l S IH F]; constructor; [|exact IH]. intros H. rewrite Forall_forall in F. apply F in H. lia. Qed.

Lemma in_range3_step a n i : 0 <= a < n -> In i (range3 a (n * nc) n) <-> exists c, 0 <= c < nc /\ i = c * n + a.
Proof.
  intros Ha. unfold range3. rewrite in_map_iff. split.
  - intros (k & <- & Hk). apply in_zrange in Hk. exists k. split; [|lia]. split; [lia|].
    assert (k + 1 <= (n * nc - a + n - 1) / n) by lia. pose proof (Z.mul_div_le (n * nc - a + n - 1) n ltac:(lia)). nia.
  - intros (c & Hc & ->). exists c. split; [lia|]. apply in_zrange. split; [lia|]. assert (c + 1 <= (n * nc - a + n - 1) / n); [|lia].
    apply Z.div_le_lower_bound; nia.
Qed.
Lemma in_starts i : In i (starts nr nc d) <-> exists r c, ins r c /\ i = idx r c /\ on_edge r c.
Proof.
  unfold starts. rewrite in_unique, !in_app_iff.
  assert (Kn : In i (range3 0 (nr * nc) nr) <-> exists c, 0 <= c < nc /\ i = idx 0 c) by (rewrite in_range3_step by lia; reflexivity).
  assert (Ks : In i (range3 (nr - 1) (nr * nc) nr) <-> exists c, 0 <= c < nc /\ i = idx (nr - 1) c) by (rewrite in_range3_step by lia; reflexivity).
  assert (Ke : In i (range2 ((nc - 1) * nr) (nr * nc)) <-> exists r, 0 <= r < nr /\ i = idx r (nc - 1)).
  { rewrite in_range2. unfold idx. split; [intros H; exists (i - (nc - 1) * nr); nia|intros (r & Hr & ->); nia]. }
  assert (Kw : In i (range2 0 nr) <-> exists r, 0 <= r < nr /\ i = idx r 0).
  { rewrite in_range2. unfold idx. split; [intros H; exists i; lia|intros (r & Hr & ->); lia]. }
  assert (E : forall P : Prop, (if false then [] else []) = @nil Z) by reflexivity. clear E.
  unfold on_edge, ins.
  destruct d; cbn [has_n has_s has_e has_w i_incr j_incr]; unfold i_incr, j_incr; cbn [has_n has_s has_e has_w In]; rewrite ?Kn, ?Ks, ?Ke, ?Kw; (split;
    [ intros H; repeat (destruct H as [H|H]); try contradiction; destruct H as (x & Hx & ->); eexists _, _; (split; [|split; [reflexivity|]]); lia
    | intros (r & c & [Hr Hc] & -> & H) ]).
  - left. exists c. split; [lia|f_equal; lia].
  - right; left. exists c. split; [lia|f_equal; lia].
  - right; right; left. exists r. split; [lia|f_equal; lia].
  - right; right; right. exists r. split; [lia|f_equal; lia].
  - destruct (Z.eq_dec r 0) as [->|N]; [left; exists c; split; [lia|reflexivity]|right; right; left; exists r; split; [lia|f_equal; lia]].
  - destruct (Z.eq_dec r 0) as [->|N]; [left; exists c; split; [lia|reflexivity]|right; right; right; exists r; split; [lia|f_equal; lia]].
  - destruct (Z.eq_dec r (nr - 1)) as [->|N]; [right; left; exists c; split; [lia|reflexivity]|right; right; left; exists r; split; [lia|f_equal; lia]].
  - destruct (Z.eq_dec r (nr - 1)) as [->|N]; [right; left; exists c; split; [lia|reflexivity]|right; right; right; exists r; split; [lia|f_equal; lia]].
Qed.
Lemma starts_NoDup : NoDup (starts nr nc d).
Proof. apply sorted_NoDup, unique_sorted. Qed.

(** ** Partition *)
Lemma ins_dec r c : {ins r c} + {~ ins r c}.
Proof. unfold ins. destruct (Z_le_dec 0 r), (Z_lt_dec r nr), (Z_le_dec 0 c), (Z_lt_dec c nc); (left; lia) || (right; lia). Qed.

(** Walk upwind from a cell to the edge. *)
Lemma walk_back r c : ins r c -> exists T, 0 <= T /\ (forall t, 0 <= t <= T -> ins (r - t * di) (c - t * dj)) /\ on_edge (r - T * di) (c - T * dj).
Proof.
  intros H.
  assert (G : forall n, (forall t, 0 <= t <= Z.of_nat n -> ins (r - t * di) (c - t * dj)) \/
     exists T, 0 <= T /\ (forall t, 0 <= t <= T -> ins (r - t * di) (c - t * dj)) /\ on_edge (r - T * di) (c - T * dj)).
  { induction n as [|n [IH|IH]]; [|destruct (ins_dec (r - Z.of_nat (S n) * di) (c - Z.of_nat (S n) * dj)) as [I|O]|right; exact IH].
    - left. intros t Ht. replace t with 0 by lia. replace (r - 0 * di) with r by lia. replace (c - 0 * dj) with c by lia. exact H.
    - left. intros t Ht. destruct (Z.eq_dec t (Z.of_nat (S n))) as [->|N]; [exact I|]. apply IH. lia.
    - right. exists (Z.of_nat n). split; [lia|]. split; [exact IH|]. unfold on_edge.
      replace (r - Z.of_nat n * di - di) with (r - Z.of_nat (S n) * di) by lia. replace (c - Z.of_nat n * dj - dj) with (c - Z.of_nat (S n) * dj) by lia. exact O. }
  destruct (G (Z.to_nat (nr + nc))) as [A|A]; [|exact A]. exfalso. specialize (A (nr + nc) ltac:(lia)). destruct H as [H1 H2], A as [Z1 Z2].
  destruct step_bounds as [[B1 B2] [N|N]].
  - assert (di = 1 \/ di = -1) as [E|E] by lia; rewrite E in Z1; lia.
  - assert (dj = 1 \/ dj = -1) as [E|E] by lia; rewrite E in Z2; lia.
Qed.

Lemma path_in r c x : ins r c -> In x (make_path nr nc (idx r c) d) -> exists t, 0 <= t /\ (forall u, 0 <= u <= t -> ins (r + u * di) (c + u * dj)) /\ x = idx (r + t * di) (c + t * dj).
Proof.
  intros H I. destruct (make_path_spec r c H) as (len & _ & P & In_ & _). rewrite P in I. apply in_map_iff in I. destruct I as (t & <- & Ht). apply in_zrange in Ht.
  exists t. split; [lia|]. split; [intros u Hu; apply In_; lia|reflexivity].
Qed.
Lemma in_path r c t : ins r c -> 0 <= t -> (forall u, 0 <= u <= t -> ins (r + u * di) (c + u * dj)) -> In (idx (r + t * di) (c + t * dj)) (make_path nr nc (idx r c) d).
Proof.
  intros H Ht A. destruct (make_path_spec r c H) as (len & _ & P & _ & O). rewrite P. apply in_map_iff. exists t. split; [reflexivity|]. apply in_zrange. split; [exact Ht|].
  destruct (Z_lt_ge_dec t len) as [L|G]; [exact L|]. exfalso. apply O. apply A. destruct (make_path_spec r c H) as (len' & L' & _). 
  assert (0 <= len) by (destruct (Z_lt_ge_dec len 0); [exfalso; apply O; rewrite zrange_nil in P by lia; destruct (make_path_spec r c H) as (l2 & Hl2 & P2 & _); rewrite P in P2; rewrite (zrange_cons l2) in P2 by lia; discriminate|lia]). lia.
Qed.
Lemma path_NoDup r c : ins r c -> NoDup (make_path nr nc (idx r c) d).
Proof.
  intros H. destruct (make_path_spec r c H) as (len & _ & P & I & _). rewrite P. 
  assert (G : forall l, NoDup l -> (forall t, In t l -> 0 <= t < len) -> NoDup (map (fun t => idx (r + t * di) (c + t * dj)) l)).
  { induction 1 as [|x l N ND IH]; intros B; cbn; [constructor|]. constructor; [|apply IH; intros; apply B; right; assumption].
    intros K. apply in_map_iff in K. destruct K as (t & E & Ht). apply N. 
    assert (x = t); [|subst; exact Ht]. apply idx_inj in E; [|apply I; apply B; right; exact Ht|apply I; apply B; left; reflexivity].
    destruct E as [E1 E2]. destruct step_bounds as [[B1 B2] [N1|N1]].
    - assert (di = 1 \/ di = -1) as [E|E] by lia; rewrite E in E1; lia.
    - assert (dj = 1 \/ dj = -1) as [E|E] by lia; rewrite E in E2; lia. }
  apply G; [apply zrange_NoDup|]. intros t Ht. apply in_zrange in Ht. exact Ht.
Qed.

(** Lines through a common cell are the same line. *)
Lemma lines_disjoint r c r' c' x : ins r c -> ins r' c' -> on_edge r c -> on_edge r' c' ->
  In x (make_path nr nc (idx r c) d) -> In x (make_path nr nc (idx r' c') d) -> r = r' /\ c = c'.
Proof.
  intros H H' E E' I I'. destruct (path_in r c x H I) as (t & Ht & A & X). destruct (path_in r' c' x H' I') as (t' & Ht' & A' & X').
  assert (Q : r + t * di = r' + t' * di /\ c + t * dj = c' + t' * dj) by (apply idx_inj; [apply A; lia|apply A'; lia|congruence]). destruct Q as [Q1 Q2].
  destruct (Z.lt_trichotomy t t') as [L|[->|L]].
  - exfalso. apply E. replace (r - di) with (r' + (t' - t - 1) * di) by lia. replace (c - dj) with (c' + (t' - t - 1) * dj) by lia. apply A'. lia.
  - split; lia.
  - exfalso. apply E'. replace (r' - di) with (r + (t - t' - 1) * di) by lia. replace (c' - dj) with (c + (t - t' - 1) * dj) by lia. apply A. lia.
Qed.

Lemma partition : Permutation (flat_map (fun s => make_path nr nc s d) (starts nr nc d)) (zrange (nr * nc)).
Proof.
  apply NoDup_Permutation.
  - apply NoDup_flat; [exact starts_NoDup| |].
    + intros s Hs. apply in_starts in Hs. destruct Hs as (r & c & I & -> & _). apply path_NoDup. exact I.
    + intros s s' x Hs Hs' I I'. apply in_starts in Hs, Hs'. destruct Hs as (r & c & J & -> & E), Hs' as (r' & c' & J' & -> & E').
      destruct (lines_disjoint r c r' c' x J J' E E' I I') as [-> ->]. reflexivity.
  - apply zrange_NoDup.
  - intros x. rewrite in_flat_map, in_zrange. split.
    + intros (s & Hs & I). apply in_starts in Hs. destruct Hs as (r & c & J & -> & _). destruct (path_in r c x J I) as (t & Ht & A & ->). apply idx_range. apply A. lia.
    + intros H. destruct (idx_inv x H) as [I E]. set (r := x mod nr) in *. set (c := x / nr) in *. destruct (walk_back r c I) as (T & HT & A & Ed).
      exists (idx (r - T * di) (c - T * dj)). split.
      * apply in_starts. exists (r - T * di), (c - T * dj). split; [apply A; lia|]. split; [reflexivity|exact Ed].
      * rewrite <- E. replace (idx r c) with (idx (r - T * di + T * di) (c - T * dj + T * dj)) by (f_equal; lia). apply in_path; [apply A; lia|exact HT|].
        intros u Hu. replace (r - T * di + u * di) with (r - (T - u) * di) by lia. replace (c - T * dj + u * dj) with (c - (T - u) * dj) by lia. apply A. lia.
Qed.
End Path.
