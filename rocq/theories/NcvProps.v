(** * C106: creating a variable with its values. *)
From Coq Require Import Ascii String Lia.
From Verif Require Import Base PyStr BaseLemmas NcModel NcSpec NcProofs NcvModel NcvSpec NcvProofs.
Open Scope Z_scope.

(** Values given as a list are stored, all of them. *)
Theorem C106_list : forall cast fill f name d dtype l a, free f name -> lengths f [d] [zlen l] -> l <> [] ->
  exists f' w, nc_create_var cast fill f name [d] dtype (AList l) a = (f', None) /\ gained f w f' /\ nv_name w = name /\ nv_dims w = [d] /\ nv_atts w = given_atts a /\
    forall i, 0 <= i < zlen l -> nv_at w [i] = cast dtype (nth (Z.to_nat i) l NaN).
Proof.
  intros cast fill f name d dtype l a N L Ne. rewrite (written cast fill f name [d] [zlen l] dtype (AList l) a N L).
  - eexists. eexists. split; [reflexivity|]. split; [repeat split|]. split; [reflexivity|]. split; [reflexivity|]. split; [reflexivity|]. intros i I. cbn [nv_at np_array a_at a_shape squeeze hd].
    destruct (Z.eqb_spec (zlen l) 1) as [E|]; [|reflexivity]. replace i with 0 by lia. reflexivity.
  - destruct l; [congruence|reflexivity].
  - cbn. rewrite Z.eqb_refl. reflexivity.
Qed.
Print Assumptions C106_list.
(** Without values, or with none of them, the variable holds the fill value. *)
Theorem C106_none : forall cast fill f name dims shape dtype data a, free f name -> lengths f dims shape ->
  data = NoData \/ data = AList [] \/ (exists x, data = AnArray x /\ In 0 (a_shape x)) ->
  exists f' w, nc_create_var cast fill f name dims dtype data a = (f', None) /\ gained f w f' /\ nv_name w = name /\ nv_dims w = dims /\ nv_atts w = given_atts a /\ forall ix, nv_at w ix = fill.
Proof.
  intros cast fill f name dims shape dtype data a N L D. rewrite (unwritten cast fill f name dims shape dtype data a N L).
  - eexists. eexists. split; [reflexivity|]. split; [repeat split|]. repeat split.
  - destruct D as [->|[->|(x & -> & I)]]; [reflexivity|reflexivity|]. cbn [truth]. assert (Z0 : count (a_shape x) = 0). { clear - I. induction (a_shape x) as [|n l IH]; [destruct I|]. cbn. fold (count l). destruct I as [->|I]; [reflexivity|]. rewrite (IH I). lia. } rewrite Z0. reflexivity.
Qed.
Print Assumptions C106_none.
(** Values given as an array of more than one element are not stored: the function raises
    ValueError after the variable has been created, with the fill value and without attributes. *)
Theorem C106_array_refuted : forall cast fill f name dims shape dtype x a, free f name -> lengths f dims shape ->
  (forall n, In n (a_shape x) -> 0 < n) -> (exists n, In n (a_shape x) /\ 1 < n) ->
  exists f' w, nc_create_var cast fill f name dims dtype (AnArray x) a = (f', Some ValueError) /\ gained f w f' /\ nv_name w = name /\ nv_atts w = [] /\ forall ix, nv_at w ix = fill.
Proof.
  intros cast fill f name dims shape dtype x a N L P (n & I & G). assert (C : 1 < count (a_shape x)).
  { assert (Q : forall l, (forall k, In k l -> 0 < k) -> 0 < count l). { clear. intros l. induction l as [|k l IH]; intros H; [reflexivity|]. cbn. fold (count l). apply Z.mul_pos_pos; [apply H; left; reflexivity|apply IH; intros j J; apply H; right; exact J]. }
    revert P I. clear - G Q. induction (a_shape x) as [|k l IH]; intros P I; [destruct I|]. cbn. fold (count l). pose proof (P k (or_introl eq_refl)) as K. pose proof (Q l (fun j J => P j (or_intror J))) as R. destruct I as [->|I].
    - nia.
    - specialize (IH (fun j J => P j (or_intror J)) I). nia. }
  unfold nc_create_var. rewrite (created f name dims shape fill N L). cbn [nc_then fst snd truth]. destruct (Z.eqb_spec (count (a_shape x)) 0); [lia|]. destruct (Z.eqb_spec (count (a_shape x)) 1); [lia|].
  eexists. eexists. split; [reflexivity|]. split; [repeat split|]. repeat split.
Qed.
Print Assumptions C106_array_refuted.
Lemma zeros {A} (l : list A) : repeat 0 (length l) = map (fun _ => 0) l.
Proof. induction l as [|x l IH]; [reflexivity|]. cbn. rewrite IH. reflexivity. Qed.
Lemma squeeze_ones {A} sh : forall ix (dims : list A), (forall n, In n sh -> n = 1) -> length sh = length dims -> length ix = length dims -> squeeze sh ix = map (fun _ => 0) dims.
Proof.
  induction sh as [|n sh IH]; intros ix dims O L1 L2; destruct dims as [|x dims], ix as [|i ix]; try discriminate; [reflexivity|]. cbn [squeeze map]. rewrite (O n (or_introl eq_refl)). cbn [Z.eqb Pos.eqb]. f_equal.
  apply IH; [intros k I; apply O; right; exact I|cbn in L1; lia|cbn in L2; lia].
Qed.
(** An array of one element is stored unless the element is 0; then the variable keeps the
    fill value, and nothing is raised. *)
Theorem C106_one : forall cast fill f name dims shape dtype x v a, free f name -> lengths f dims shape ->
  (forall n, In n (a_shape x) -> n = 1) -> length (a_shape x) = length dims -> a_at x (map (fun _ => 0) dims) = v ->
  exists f' w, nc_create_var cast fill f name dims dtype (AnArray x) a = (f', None) /\ gained f w f' /\ nv_name w = name /\ nv_atts w = given_atts a /\
    forall ix, length ix = length dims -> nv_at w ix = match v with NaN => cast dtype NaN | Num q => if Qeq_bool q 0 then fill else cast dtype (Num q) end.
Proof.
  intros cast fill f name dims shape dtype x v a N L O R V. assert (C : count (a_shape x) = 1). { clear - O. induction (a_shape x) as [|n l IH]; [reflexivity|]. cbn. fold (count l). rewrite (O n (or_introl eq_refl)), (IH (fun k I => O k (or_intror I))). reflexivity. }
  assert (Ls : length dims = length shape) by (destruct L as [_ F]; clear - F; induction F; cbn; congruence).
  assert (T : truth (AnArray x) = Ok (match v with NaN => true | Num q => negb (Qeq_bool q 0) end)) by (cbn [truth]; rewrite C, R, zeros, V; reflexivity).
  destruct (match v with NaN => true | Num q => negb (Qeq_bool q 0) end) eqn:B.
  - rewrite (written cast fill f name dims shape dtype (AnArray x) a N L T) by (apply ones_broadcast; [exact O|cbn [np_array a_shape]; lia]).
    eexists. eexists. split; [reflexivity|]. split; [repeat split|]. split; [reflexivity|]. split; [reflexivity|]. intros ix Li. cbn [nv_at np_array a_at a_shape]. rewrite (squeeze_ones (a_shape x) ix dims) by (assumption || lia). rewrite V. destruct v as [|q]; [reflexivity|]. destruct (Qeq_bool q 0); [discriminate|reflexivity].
  - rewrite (unwritten cast fill f name dims shape dtype (AnArray x) a N L T). eexists. eexists. split; [reflexivity|]. split; [repeat split|]. split; [reflexivity|]. split; [reflexivity|]. intros ix _. cbn [nv_at]. destruct v as [|q]; [discriminate|]. destruct (Qeq_bool q 0); [reflexivity|discriminate].
Qed.
Print Assumptions C106_one.
(** A name in use and an unknown dimension are refused, and the data set is unchanged. *)
Theorem C106_refused : forall cast fill f name dims dtype data a,
  (~ free f name -> nc_create_var cast fill f name dims dtype data a = (f, Some RuntimeError)) /\
  (free f name -> (exists d, In d dims /\ ~ In d (map fst (nf_dims f))) -> nc_create_var cast fill f name dims dtype data a = (f, Some KeyError)).
Proof.
  intros cast fill f name dims dtype data a. unfold nc_create_var, create_variable. split.
  - intros N. rewrite (has_free f name N). reflexivity.
  - intros N (d & I & U). rewrite (free_has f name N), (sizes_none f d dims I U). reflexivity.
Qed.
Print Assumptions C106_refused.
(** The values of a dimension are stored however they are given, one 0 included: it is
    created without data, and its values are written afterwards. *)
Theorem C106_dimension : forall cast f name values dtype a, ~ In name (map fst (nf_dims f)) -> free f name ->
  exists f' w, NcModel.nc_create_dim cast f name values dtype a = (f', None) /\ nf_dims f' = nf_dims f ++ [(name, zlen values)] /\ nf_vars f' = nf_vars f ++ [w] /\
    nv_name w = name /\ nv_atts w = a /\ forall i, 0 <= i < zlen values -> nv_at w [i] = cast dtype (nth (Z.to_nat i) values NaN).
Proof.
  intros cast f name values dtype a Nd N. rewrite dim_by_var. unfold create_dimension. assert (Hd : has_dim f name = false). { destruct (has_dim f name) eqn:E; [|reflexivity]. exfalso. apply Nd. apply has_dim_iff in E. exact E. } rewrite Hd. cbn [nc_then fst snd].
  set (f1 := NcFile (nf_dims f ++ [(name, zlen values)]) (nf_vars f) (nf_atts f) (nf_open f)).
  assert (N1 : free f1 name) by exact N. unfold nc_create_var, create_variable. rewrite (free_has f1 name N1). cbn [dim_sizes]. assert (S : dim_size f1 name = Some (zlen values)). { unfold dim_size, f1. cbn [nf_dims]. rewrite find_new; [reflexivity|exact Hd|apply String.eqb_refl]. } rewrite S.
  cbn [nc_then fst snd truth]. unfold assign_all. cbn [nf_vars]. rewrite find_new; [|exact (free_has f1 name N1)|apply String.eqb_refl]. cbn [np_array a_shape nv_shape broadcastable]. rewrite Z.eqb_refl. cbn [orb andb].
  rewrite upd_new by (try exact (free_has f1 name N1); reflexivity). cbn [nc_then fst snd nv_name nv_dims nv_shape nv_atts].
  assert (A : exists w, nv_name w = name /\ nv_atts w = a /\ (forall i, 0 <= i < zlen values -> nv_at w [i] = cast dtype (nth (Z.to_nat i) values NaN)) /\
    match a with [] => NcFile (nf_dims f1) (nf_vars f1 ++ [NcVar name [name] [zlen values] (fun ix => a_at (np_array cast dtype (AList values)) (squeeze [zlen values] ix)) []]) (nf_atts f1) (nf_open f1)
    | _ => set_atts (NcFile (nf_dims f1) (nf_vars f1 ++ [NcVar name [name] [zlen values] (fun ix => a_at (np_array cast dtype (AList values)) (squeeze [zlen values] ix)) []]) (nf_atts f1) (nf_open f1)) name a end = NcFile (nf_dims f1) (nf_vars f1 ++ [w]) (nf_atts f1) (nf_open f1)).
  { assert (V : forall i, 0 <= i < zlen values -> a_at (np_array cast dtype (AList values)) (squeeze [zlen values] [i]) = cast dtype (nth (Z.to_nat i) values NaN)).
    { intros i I. cbn [np_array a_at squeeze hd]. destruct (Z.eqb_spec (zlen values) 1) as [E|]; [|reflexivity]. replace i with 0 by lia. reflexivity. }
    destruct a as [|x l].
    - eexists. split; [|split; [|split; [|reflexivity]]]; [reflexivity|reflexivity|exact V].
    - unfold set_atts. rewrite upd_new by (try exact (free_has f1 name N1); reflexivity). eexists. split; [|split; [|split; [|reflexivity]]]; [reflexivity|reflexivity|exact V]. }
  destruct A as (w & W1 & W2 & W3 & W4). exists (NcFile (nf_dims f1) (nf_vars f1 ++ [w]) (nf_atts f1) (nf_open f1)), w. split; [rewrite <- W4; destruct a; reflexivity|]. split; [reflexivity|]. split; [reflexivity|]. split; [exact W1|]. split; [exact W2|exact W3].
Qed.
Print Assumptions C106_dimension.

(** ** Concrete case: a data set with dimensions x (three) and y (one). *)
Definition nv_file : ncfile := NcFile [("x"%string, 3); ("y"%string, 1)] [] [] true.
Example C106_ex : free nv_file "v" /\ lengths nv_file ["x"%string] [3] /\ lengths nv_file ["y"%string] [1] /\
  (let r := nc_create_var (fun _ v => v) (Num (-9999)) nv_file "v" ["x"%string] "f" (AList [Num 5; NaN; Num 0]) None in snd r = None /\ map (fun w => map (fun i => nv_at w [i]) [0; 1; 2]) (nf_vars (fst r)) = [[Num 5; NaN; Num 0]]) /\
  (let r := nc_create_var (fun _ v => v) (Num (-9999)) nv_file "v" ["x"%string] "f" (AnArray (Arr [3] (fun _ => Num 5))) None in snd r = Some ValueError /\ map (fun w => map (fun i => nv_at w [i]) [0; 1; 2]) (nf_vars (fst r)) = [[Num (-9999); Num (-9999); Num (-9999)]]) /\
  (let r := nc_create_var (fun _ v => v) (Num (-9999)) nv_file "v" ["y"%string] "f" (AnArray (Arr [1] (fun _ => Num 0))) None in snd r = None /\ map (fun w => nv_at w [0]) (nf_vars (fst r)) = [Num (-9999)]).
Proof.
  assert (ND : NoDup (map fst (nf_dims nv_file))) by (repeat constructor; cbn; intuition discriminate).
  split; [intros []|]. split; [split; [exact ND|constructor; [cbn; auto|constructor]]|]. split; [split; [exact ND|constructor; [cbn; auto|constructor]]|]. cbv zeta. repeat split; vm_compute; reflexivity.
Qed.
