(** * Proofs for creating variables (C106). *)
From Coq Require Import Ascii String Lia.
From Verif Require Import Base PyStr BaseLemmas NcModel NcProofs NcvModel NcvSpec.
Open Scope Z_scope.

Lemma free_has f n : free f n -> has_var f n = false.
Proof.
  intros N. destruct (has_var f n) eqn:E; [|reflexivity]. exfalso. apply N. unfold has_var in E. apply existsb_exists in E as (v & I & E). apply String.eqb_eq in E. apply in_map_iff. exists v. auto.
Qed.
Lemma has_free f n : ~ free f n -> has_var f n = true.
Proof.
  intros N. destruct (has_var f n) eqn:E; [reflexivity|]. exfalso. apply N. intros I. apply in_map_iff in I as (v & V & I). unfold has_var in E. pose proof (existsb_false _ _ E v I) as X. cbn in X. rewrite V, String.eqb_refl in X. discriminate.
Qed.
Lemma lengths_sizes f dims : forall shape, lengths f dims shape -> dim_sizes f dims = Some shape.
Proof.
  intros shape (N & F). induction F as [|d n dims shape I F IH]; [reflexivity|]. cbn [dim_sizes]. rewrite IH.
  assert (E : dim_size f d = Some n); [|rewrite E; reflexivity]. unfold dim_size. clear - N I. induction (nf_dims f) as [|[k m] l IH]; [destruct I|]. cbn [find fst]. destruct (String.eqb_spec k d) as [->|Nk].
  - destruct I as [[= ->]|I]; [reflexivity|]. exfalso. cbn in N. inversion N as [|? ? X]. apply X. apply in_map_iff. exists (d, n). auto.
  - destruct I as [[= -> ->]|I]; [congruence|]. apply IH; [cbn in N; inversion N; assumption|exact I].
Qed.
Lemma sizes_none f d dims : In d dims -> ~ In d (map fst (nf_dims f)) -> dim_sizes f dims = None.
Proof.
  intros I N. induction dims as [|x dims IH]; [destruct I|]. cbn [dim_sizes]. destruct I as [->|I].
  - assert (E : dim_size f d = None); [|rewrite E; reflexivity]. unfold dim_size. destruct (find _ _) as [[k m]|] eqn:E; [|reflexivity]. apply find_some in E as (J & E). apply String.eqb_eq in E. cbn in E. subst k. exfalso. apply N. apply in_map_iff. exists (d, m). auto.
  - rewrite (IH I). destruct (dim_size f x); reflexivity.
Qed.
Lemma created f n dims shape fill : free f n -> lengths f dims shape ->
  create_variable f n dims fill = (NcFile (nf_dims f) (nf_vars f ++ [NcVar n dims shape (fun _ => fill) []]) (nf_atts f) (nf_open f), None).
Proof. intros N L. unfold create_variable. rewrite (free_has f n N), (lengths_sizes f dims shape L). reflexivity. Qed.
Lemma attributes f n w a : has_var f n = false -> nv_name w = n ->
  match a with Some (x :: l) => set_atts (NcFile (nf_dims f) (nf_vars f ++ [w]) (nf_atts f) (nf_open f)) n (x :: l) | _ => NcFile (nf_dims f) (nf_vars f ++ [w]) (nf_atts f) (nf_open f) end =
  NcFile (nf_dims f) (nf_vars f ++ [NcVar (nv_name w) (nv_dims w) (nv_shape w) (nv_at w) (nv_atts w ++ given_atts a)]) (nf_atts f) (nf_open f).
Proof.
  intros H E. destruct a as [[|x l]|]; cbn [given_atts].
  - rewrite app_nil_r. destruct w; reflexivity.
  - unfold set_atts. rewrite upd_new by assumption. reflexivity.
  - rewrite app_nil_r. destruct w; reflexivity.
Qed.
(** Nothing written. *)
Lemma unwritten cast fill f n dims shape t d a : free f n -> lengths f dims shape -> truth d = Ok false ->
  nc_create_var cast fill f n dims t d a = (NcFile (nf_dims f) (nf_vars f ++ [NcVar n dims shape (fun _ => fill) (given_atts a)]) (nf_atts f) (nf_open f), None).
Proof.
  intros N L T. unfold nc_create_var. rewrite (created f n dims shape fill N L). cbn [nc_then fst snd]. rewrite T. cbn [nc_then fst snd].
  rewrite (attributes f n _ a (free_has f n N)) by reflexivity. reflexivity.
Qed.
(** Written. *)
Lemma written cast fill f n dims shape t d a : free f n -> lengths f dims shape -> truth d = Ok true -> broadcastable (a_shape (np_array cast t d)) shape = true ->
  nc_create_var cast fill f n dims t d a =
  (NcFile (nf_dims f) (nf_vars f ++ [NcVar n dims shape (fun ix => a_at (np_array cast t d) (squeeze (a_shape (np_array cast t d)) ix)) (given_atts a)]) (nf_atts f) (nf_open f), None).
Proof.
  intros N L T B. unfold nc_create_var. rewrite (created f n dims shape fill N L). cbn [nc_then fst snd]. rewrite T. unfold assign_all. cbn [nf_vars].
  rewrite find_new; [|exact (free_has f n N)|apply String.eqb_refl]. cbn [nv_shape]. rewrite B. rewrite upd_new by (try apply (free_has f n N); reflexivity). cbn [nc_then fst snd nv_name nv_dims nv_shape nv_atts].
  rewrite (attributes f n _ a (free_has f n N)) by reflexivity. reflexivity.
Qed.
Lemma count_ones shape : (forall n, In n shape -> 0 <= n) -> count shape = 1 -> forall n, In n shape -> n = 1.
Proof.
  induction shape as [|m shape IH]; intros P C n I; [destruct I|]. cbn [count fold_right] in C. fold (count shape) in C. pose proof (P m (or_introl eq_refl)) as M.
  assert (X : m = 1 /\ count shape = 1) by (destruct (Z.mul_eq_1 m (count shape) C) as [->| ->]; lia). destruct X as [X1 X2]. destruct I as [<-|I]; [exact X1|]. exact (IH (fun k J => P k (or_intror J)) X2 n I).
Qed.
Lemma ones_broadcast sh target : (forall n, In n sh -> n = 1) -> length sh = length target -> broadcastable sh target = true.
Proof.
  revert target. induction sh as [|n sh IH]; intros [|m target] O E; try discriminate; [reflexivity|]. cbn [broadcastable]. rewrite (O n (or_introl eq_refl)), Z.eqb_refl, orb_true_r. apply IH; [intros k I; apply O; right; exact I|cbn in E; lia].
Qed.
Lemma ones_squeeze sh ix : (forall n, In n sh -> n = 1) -> length sh = length ix -> squeeze sh ix = repeat 0 (length sh).
Proof.
  revert ix. induction sh as [|n sh IH]; intros [|i ix] O E; try discriminate; [reflexivity|]. cbn [squeeze repeat length]. rewrite (O n (or_introl eq_refl)). cbn. f_equal. apply IH; [intros k I; apply O; right; exact I|cbn in E; lia].
Qed.
(** nc_create_dim is nc_create_var without data and then the values. *)
Lemma dim_by_var cast f name values t a : NcModel.nc_create_dim cast f name values t a =
  nc_then (create_dimension f name (zlen values)) (fun f =>
  nc_then (nc_create_var cast NaN f name [name] t NoData None) (fun f =>
  nc_then (assign_all f name (np_array cast t (AList values))) (fun f => (match a with [] => f | _ => set_atts f name a end, None)))).
Proof.
  unfold NcModel.nc_create_dim. destruct (create_dimension f name (zlen values)) as [f1 [e|]]; [reflexivity|]. cbn [nc_then fst snd]. unfold nc_create_var. destruct (create_variable f1 name [name] NaN) as [f2 [e|]]; reflexivity.
Qed.
