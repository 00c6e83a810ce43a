From Coq Require Import Ascii String.
From Verif Require Import Base BaseLemmas PyStr NameModel NameProofs NcModel SaveModel SaveSpec.
Open Scope Z_scope.

(** ** Attributes *)
Lemma att_app a b k : att (a ++ b) k = match att b k with Some w => Some w | None => att a k end.
Proof. induction a as [|[k' v] a IH]; cbn [att app]; [destruct (att b k); reflexivity|]. rewrite IH. destruct (att b k); reflexivity. Qed.
Lemma att_notin l k : ~ In k (map fst l) -> att l k = None.
Proof.
  induction l as [|[k' v] l IH]; intros H; [reflexivity|]. cbn [att]. rewrite IH by (intros C; apply H; right; exact C).
  destruct (String.eqb_spec k' k) as [->|]; [exfalso; apply H; left; reflexivity|reflexivity].
Qed.
Lemma dict_keys k v d x : In x (map fst (dict_set k v d)) <-> x = k \/ In x (map fst d).
Proof.
  induction d as [|[k' v'] d IH]; cbn [dict_set map fst In]; [intuition|]. destruct (String.eqb_spec k' k) as [->|]; cbn [map fst In]; [intuition|]. rewrite IH. intuition.
Qed.
Lemma dict_nodup k v d : NoDup (map fst d) -> NoDup (map fst (dict_set k v d)).
Proof.
  induction d as [|[k' v'] d IH]; cbn [dict_set map fst]; intros N; [repeat constructor; intros []|]. inversion N as [|? ? H1 H2]; subst. destruct (String.eqb_spec k' k) as [->|E]; cbn [map fst]; constructor; auto.
  rewrite dict_keys. intros [C|C]; [congruence|contradiction].
Qed.
Lemma dict_att k v d x : NoDup (map fst d) -> att (dict_set k v d) x = if String.eqb k x then Some v else att d x.
Proof.
  induction d as [|[k' v'] d IH]; intros N; [reflexivity|]. inversion N as [|? ? H1 H2]; subst. cbn [dict_set]. destruct (String.eqb_spec k' k) as [->|E]; cbn [att].
  - destruct (String.eqb_spec k x) as [->|]; [rewrite att_notin by exact H1; reflexivity|]. reflexivity.
  - rewrite IH by exact H2. destruct (String.eqb_spec k x) as [->|]; [reflexivity|]. reflexivity.
Qed.

(** ** Configuration *)
Definition put_all (kvs : list (string * string)) (d : atts) : atts := fold_left (fun d kv => dict_set (fst kv) (AText (snd kv)) d) kvs d.
Lemma sections_put l d : fold_left add_section l d = put_all (conf_keys l) d.
Proof.
  revert d. induction l as [|s l IH]; intros d; [reflexivity|]. cbn [fold_left conf_keys flat_map]. rewrite IH. unfold put_all. rewrite fold_left_app. fold (conf_keys l). f_equal.
  unfold add_section, add_option. generalize (snd s) as o. intros o. revert d. induction o as [|x o IHo]; intros d; [reflexivity|]. cbn [fold_left map fst snd]. apply IHo.
Qed.
Lemma put_all_nodup kvs : forall d, NoDup (map fst d) -> NoDup (map fst (put_all kvs d)).
Proof. induction kvs as [|x kvs IH]; intros d N; [exact N|]. apply IH, dict_nodup, N. Qed.
Lemma put_all_other kvs k : ~ In k (map fst kvs) -> forall d, NoDup (map fst d) -> att (put_all kvs d) k = att d k.
Proof.
  induction kvs as [|x kvs IH]; intros H d N; [reflexivity|]. unfold put_all in *. cbn [fold_left]. rewrite IH; [|intros C; apply H; right; exact C|apply dict_nodup, N].
  rewrite dict_att by exact N. destruct (String.eqb_spec (fst x) k) as [E|]; [exfalso; apply H; left; exact E|reflexivity].
Qed.
Lemma put_all_in kvs k v : NoDup (map fst kvs) -> In (k, v) kvs -> forall d, NoDup (map fst d) -> att (put_all kvs d) k = Some (AText v).
Proof.
  induction kvs as [|x kvs IH]; intros Nk H d N; [destruct H|]. inversion Nk as [|? ? H1 H2]; subst. destruct H as [->|H].
  - change (put_all ((k, v) :: kvs) d) with (put_all kvs (dict_set k (AText v) d)). rewrite put_all_other; [|exact H1|apply dict_nodup, N]. rewrite dict_att by exact N. rewrite String.eqb_refl. reflexivity.
  - change (put_all (x :: kvs) d) with (put_all kvs (dict_set (fst x) (AText (snd x)) d)). apply IH; [exact H2|exact H|apply dict_nodup, N].
Qed.
Fixpoint underscored (s : string) : bool := match s with EmptyString => false | String c s => Ascii.eqb c underscore || underscored s end.
Lemma underscored_mid a b : underscored (a ++ "_" ++ b) = true.
Proof. induction a as [|c a IH]; [reflexivity|]. simpl in *. rewrite IH. apply orb_true_r. Qed.
Lemma conf_underscored l k : In k (map fst (conf_keys l)) -> underscored k = true.
Proof.
  intros H. apply in_map_iff in H. destruct H as ([k' v] & <- & H). unfold conf_keys in H. apply in_flat_map in H. destruct H as (s & _ & H). apply in_map_iff in H. destruct H as (ov & E & _). injection E as <- _. apply underscored_mid.
Qed.
Lemma fixed_nodup e a b c d g : NoDup (map fst (fixed_atts e a b c d g)).
Proof. cbn [fixed_atts map fst]. repeat constructor; cbn [In]; intuition discriminate. Qed.
Lemma global_plain e a b c d g k : underscored k = false -> att (global_atts e a b c d g) k = att (fixed_atts e a b c d g) k.
Proof.
  intros H. unfold global_atts. rewrite sections_put. apply put_all_other; [|apply fixed_nodup]. intros C. apply conf_underscored in C. congruence.
Qed.

(** ** Ranges *)
Definition is_q (x : num) : Prop := exists q, x = Num q.
Lemma min_fold xs : forall x, (exists q, x = Num q) -> Forall is_q xs ->
  exists m, fold_left np_minimum xs x = Num m /\ (In (Num m) (x :: xs)) /\ forall q, In (Num q) (x :: xs) -> (m <= q)%Q.
Proof.
  induction xs as [|y xs IH]; intros x [q ->] F; cbn [fold_left].
  - exists q. split; [reflexivity|]. split; [left; reflexivity|]. intros q' [E|[]]. injection E as ->. lra.
  - inversion F as [|? ? [p ->] F']; subst. unfold np_minimum at 2. destruct (Qltb p q) eqn:L.
    + destruct (IH (Num p) (ex_intro _ p eq_refl) F') as (m & E & I & B). exists m. split; [exact E|]. split; [right; exact I|]. intros q' [K|K]; [|exact (B q' K)].
      injection K as ->. apply Qltb_lt in L. pose proof (B p (or_introl eq_refl)). lra.
    + destruct (IH (Num q) (ex_intro _ q eq_refl) F') as (m & E & I & B). exists m. split; [exact E|]. split; [destruct I as [I|I]; [left; exact I|right; right; exact I]|].
      intros q' [K|[K|K]]; [apply B; left; exact K| |apply B; right; exact K]. injection K as ->. apply Qltb_ge in L. pose proof (B q (or_introl eq_refl)). lra.
Qed.
Lemma max_fold xs : forall x, (exists q, x = Num q) -> Forall is_q xs ->
  exists m, fold_left np_maximum xs x = Num m /\ (In (Num m) (x :: xs)) /\ forall q, In (Num q) (x :: xs) -> (q <= m)%Q.
Proof.
  induction xs as [|y xs IH]; intros x [q ->] F; cbn [fold_left].
  - exists q. split; [reflexivity|]. split; [left; reflexivity|]. intros q' [E|[]]. injection E as ->. lra.
  - inversion F as [|? ? [p ->] F']; subst. unfold np_maximum at 2. destruct (Qltb q p) eqn:L.
    + destruct (IH (Num p) (ex_intro _ p eq_refl) F') as (m & E & I & B). exists m. split; [exact E|]. split; [right; exact I|]. intros q' [K|K]; [|exact (B q' K)].
      injection K as ->. apply Qltb_lt in L. pose proof (B p (or_introl eq_refl)). lra.
    + destruct (IH (Num q) (ex_intro _ q eq_refl) F') as (m & E & I & B). exists m. split; [exact E|]. split; [destruct I as [I|I]; [left; exact I|right; right; exact I]|].
      intros q' [K|[K|K]]; [apply B; left; exact K| |apply B; right; exact K]. injection K as ->. apply Qltb_ge in L. pose proof (B q (or_introl eq_refl)). lra.
Qed.
Lemma extremes l : l <> [] -> Forall is_q l ->
  exists lo hi, np_extreme np_minimum l = Ok (Num lo) /\ np_extreme np_maximum l = Ok (Num hi) /\ range_of (fun q => In (Num q) l) lo hi.
Proof.
  intros N F. destruct l as [|x l]; [congruence|]. inversion F as [|? ? X F']; subst. destruct (min_fold l x X F') as (lo & E & I & B). destruct (max_fold l x X F') as (hi & E' & I' & B').
  exists lo, hi. cbn [np_extreme]. rewrite E, E'. do 2 (split; [reflexivity|]). split; [exact I|]. split; [exact I'|]. intros q Hq. split; auto.
Qed.
Definition keep (l : list num) : list num := filter (fun x => match x with Num _ => true | NaN => false end) l.
Lemma keep_q l : Forall is_q (keep l).
Proof. apply Forall_forall. intros x H. apply filter_In in H. destruct H as [_ H]. destruct x as [|q]; [discriminate|exists q; reflexivity]. Qed.
Lemma keep_in l q : In (Num q) (keep l) <-> In (Num q) l.
Proof. unfold keep. rewrite filter_In. intuition. Qed.
Lemma nanextremes l : l <> [] ->
  (exists q, In (Num q) l) ->
  exists lo hi, np_nanextreme np_minimum l = Ok (Num lo) /\ np_nanextreme np_maximum l = Ok (Num hi) /\ range_of (fun q => In (Num q) l) lo hi.
Proof.
  intros N [q0 Hq]. destruct l as [|y l]; [congruence|]. set (L := y :: l) in *. assert (NK : keep L <> []) by (intros E; apply keep_in in Hq; rewrite E in Hq; exact Hq).
  destruct (extremes (keep L) NK (keep_q L)) as (lo & hi & A & B & R1 & R2 & R3). exists lo, hi. unfold np_nanextreme. fold (keep L). destruct (keep L) as [|x xs] eqn:K; [congruence|]. unfold L at 1 2. cbn [np_extreme] in A, B. rewrite A, B.
  do 2 (split; [reflexivity|]). rewrite <- K in *. split; [apply keep_in; exact R1|]. split; [apply keep_in; exact R2|]. intros q H. apply R3, keep_in, H.
Qed.
Lemma nanextremes_none l p : l <> [] -> (forall q, ~ In (Num q) l) -> np_nanextreme p l = Ok NaN.
Proof.
  intros N H. destruct l as [|y l]; [congruence|]. set (L := y :: l) in *. unfold np_nanextreme. fold (keep L). assert (K : keep L = []).
  { destruct (keep L) as [|x xs] eqn:K; [reflexivity|]. pose proof (keep_q L) as F. rewrite K in F. inversion F as [|? ? [q ->] _]; subst. exfalso. apply (H q), keep_in. rewrite K. left. reflexivity. }
  rewrite K. reflexivity.
Qed.
Lemma cells_in g x : In x (cells g) <-> exists r c, 0 <= r < g_rows g /\ 0 <= c < g_cols g /\ g_at g r c = x.
Proof.
  unfold cells. rewrite in_flat_map. split.
  - intros (r & Hr & H). apply in_map_iff in H. destruct H as (c & E & Hc). apply in_zrange in Hr. apply in_zrange in Hc. exists r, c. auto.
  - intros (r & c & Hr & Hc & E). exists r. split; [apply in_zrange; exact Hr|]. apply in_map_iff. exists c. split; [exact E|apply in_zrange; exact Hc].
Qed.
Lemma cells_nonempty g : 0 < g_rows g -> 0 < g_cols g -> cells g <> [].
Proof. intros Hr Hc E. assert (H : In (g_at g 0 0) (cells g)) by (apply cells_in; exists 0, 0; repeat split; lia || reflexivity). rewrite E in H. exact H. Qed.
