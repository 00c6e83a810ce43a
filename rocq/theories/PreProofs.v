(** * Proofs about the preparation of the land-cover map. *)
From Coq Require Import Ascii String Sorted.
From Verif Require Import Base BaseLemmas PyStr UtilModel UtilProofs TerrProofs PreModel PreSpec.
Open Scope Z_scope.

(** ** Attributes *)
Lemma aget_aset a k v k' : aget (aset a k v) k' = if str_eqb k k' then Ok v else aget a k'.
Proof.
  induction a as [|[k0 v0] a IH]; cbn [aset aget]; [reflexivity|].
  destruct (str_eqb_spec k0 k) as [->|N]; cbn [aget].
  - destruct (str_eqb k k'); reflexivity.
  - rewrite IH. destruct (str_eqb_spec k0 k') as [->|N']; [|reflexivity]. destruct (str_eqb_spec k k'); [congruence|reflexivity].
Qed.
Lemma aget_same a k v : aget (aset a k v) k = Ok v.
Proof. rewrite aget_aset, str_eqb_refl. reflexivity. Qed.
Lemma aget_other a k v k' : k' <> k -> aget (aset a k v) k' = aget a k'.
Proof. intros N. rewrite aget_aset. destruct (str_eqb_spec k k'); [congruence|reflexivity]. Qed.

Lemma mapM_forall2 {A B} (f : A -> res B) l bs : mapM f l = Ok bs -> Forall2 (fun a b => f a = Ok b) l bs.
Proof.
  revert bs. induction l as [|a l IH]; cbn [mapM]; intros bs H; [injection H as <-; constructor|].
  destruct (f a) as [b|] eqn:E; [|discriminate]. cbn [bind] in H. destruct (mapM f l) as [bs'|]; [|discriminate]. injection H as <-. constructor; [exact E|apply IH; reflexivity].
Qed.

(** ** Order of strings *)
Lemma str_leb_refl a : str_leb a a = true.
Proof. induction a as [|x a IH]; cbn [str_leb]; [reflexivity|]. rewrite Nat.ltb_irrefl. exact IH. Qed.
Lemma str_leb_total a b : str_leb a b = false -> str_leb b a = true.
Proof.
  revert b. induction a as [|x a IH]; intros [|y b]; cbn [str_leb]; try discriminate; auto.
  destruct (Nat.ltb_spec (nat_of_ascii x) (nat_of_ascii y)) as [H|H]; [discriminate|]. destruct (Nat.ltb_spec (nat_of_ascii y) (nat_of_ascii x)) as [H'|H']; [reflexivity|apply IH].
Qed.
Lemma str_leb_trans a b c : str_leb a b = true -> str_leb b c = true -> str_leb a c = true.
Proof.
  revert b c. induction a as [|x a IH]; intros [|y b] [|z c]; cbn [str_leb]; try discriminate; auto.
  destruct (Nat.ltb_spec (nat_of_ascii x) (nat_of_ascii y)), (Nat.ltb_spec (nat_of_ascii y) (nat_of_ascii z)), (Nat.ltb_spec (nat_of_ascii x) (nat_of_ascii z)),
    (Nat.ltb_spec (nat_of_ascii y) (nat_of_ascii x)), (Nat.ltb_spec (nat_of_ascii z) (nat_of_ascii y)), (Nat.ltb_spec (nat_of_ascii z) (nat_of_ascii x));
    try discriminate; try lia; auto. apply IH.
Qed.
Lemma nat_of_ascii_inj x y : nat_of_ascii x = nat_of_ascii y -> x = y.
Proof. intros H. rewrite <- (ascii_nat_embedding x), <- (ascii_nat_embedding y), H. reflexivity. Qed.
Lemma str_leb_antisym a b : str_leb a b = true -> str_leb b a = true -> a = b.
Proof.
  revert b. induction a as [|x a IH]; intros [|y b]; cbn [str_leb]; try discriminate; auto.
  destruct (Nat.ltb_spec (nat_of_ascii x) (nat_of_ascii y)), (Nat.ltb_spec (nat_of_ascii y) (nat_of_ascii x)); try discriminate; try lia.
  intros H1 H2. assert (x = y) as -> by (apply nat_of_ascii_inj; lia). f_equal. apply IH; assumption.
Qed.

(** ** Stable sorting *)
Definition kle {A} (x y : str * A) : Prop := str_leb (fst x) (fst y) = true.
Definition with_key {A} (k : str) (l : list (str * A)) : list (str * A) := filter (fun x => str_eqb (fst x) k) l.

Lemma insert_in {A} (x : str * A) l y : In y (insert x l) <-> y = x \/ In y l.
Proof. induction l as [|z l IH]; cbn [insert]; [cbn; intuition|]. destruct (str_leb (fst x) (fst z)); cbn [In]; [intuition|]. rewrite IH. intuition. Qed.
Lemma sorted_in {A} (l : list (str * A)) y : In y (sorted l) <-> In y l.
Proof. induction l as [|x l IH]; cbn; [tauto|]. rewrite insert_in. fold (sorted l). rewrite IH. intuition. Qed.
Lemma insert_sorted {A} (x : str * A) l : StronglySorted kle l -> StronglySorted kle (insert x l).
Proof.
  induction l as [|y l IH]; intros H; cbn [insert]; [repeat constructor|]. apply StronglySorted_inv in H. destruct H as [H1 H2].
  destruct (str_leb (fst x) (fst y)) eqn:E.
  - constructor; [constructor; assumption|]. constructor; [exact E|]. rewrite Forall_forall in *. intros z Hz. exact (str_leb_trans _ _ _ E (H2 z Hz)).
  - constructor; [exact (IH H1)|]. rewrite Forall_forall in *. intros z Hz. apply insert_in in Hz. destruct Hz as [->|Hz]; [apply str_leb_total; exact E|exact (H2 z Hz)].
Qed.
Lemma sorted_sorted {A} (l : list (str * A)) : StronglySorted kle (sorted l).
Proof. induction l as [|x l IH]; cbn; [constructor|]. apply insert_sorted. exact IH. Qed.
Lemma insert_stable {A} (x : str * A) l k : with_key k (insert x l) = with_key k (x :: l).
Proof.
  induction l as [|y l IH]; cbn [insert]; [reflexivity|]. destruct (str_leb (fst x) (fst y)) eqn:E; [reflexivity|].
  unfold with_key in *. cbn [filter] in *. rewrite IH. destruct (str_eqb_spec (fst x) k) as [Ex|Ex]; [|reflexivity]. destruct (str_eqb_spec (fst y) k) as [Ey|Ey]; [|reflexivity].
  exfalso. rewrite Ex, Ey, str_leb_refl in E. discriminate.
Qed.
Lemma sorted_stable {A} (l : list (str * A)) k : with_key k (sorted l) = with_key k l.
Proof.
  induction l as [|x l IH]; [reflexivity|]. change (sorted (x :: l)) with (insert x (sorted l)). rewrite insert_stable. unfold with_key in *. cbn [filter]. rewrite IH. reflexivity.
Qed.

(** ** Grouping runs of a sorted list *)
Definition klt (a b : str) : Prop := str_leb a b = true /\ a <> b.
Lemma groupby_head {A} k (x : A) l : exists xs gs, groupby ((k, x) :: l) = (k, x :: xs) :: gs.
Proof. cbn [groupby]. destruct (groupby l) as [|[k' xs] gs]; [do 2 eexists; reflexivity|]. destruct (str_eqb k k'); do 2 eexists; reflexivity. Qed.
Lemma groupby_spec {A} (l : list (str * A)) : StronglySorted kle l ->
  StronglySorted klt (map fst (groupby l)) /\
  (forall k, In k (map fst (groupby l)) <-> In k (map fst l)) /\
  (forall k xs, In (k, xs) (groupby l) -> xs = map snd (with_key k l) /\ xs <> []).
Proof.
  induction l as [|[k x] l IH]; intros H; [split; [constructor|split; [tauto|intros k xs []]]|].
  apply StronglySorted_inv in H. destruct H as [H1 H2]. destruct (IH H1) as (S1 & K1 & M1). clear IH. cbn [groupby].
  assert (Kle : forall k', In k' (map fst (groupby l)) -> str_leb k k' = true).
  { intros k' Hk. apply K1 in Hk. apply in_map_iff in Hk. destruct Hk as (y & <- & Hy). rewrite Forall_forall in H2. exact (H2 y Hy). }
  destruct (groupby l) as [|[k' xs] gs] eqn:Eg.
  - assert (l = []) as ->. { destruct l as [|[k0 x0] l]; [reflexivity|]. destruct (groupby_head k0 x0 l) as (? & ? & X). rewrite X in Eg. discriminate. }
    split; [repeat constructor|]. split; [intros k'; cbn; tauto|]. intros k' xs [X|[]]. injection X as <- <-. unfold with_key. cbn. rewrite str_eqb_refl. split; [reflexivity|discriminate].
  - cbn [map fst] in *. apply StronglySorted_inv in S1. destruct S1 as [S1 S2]. rewrite Forall_forall in S2. destruct (str_eqb_spec k k') as [<-|N].
    + split; [cbn; constructor; [exact S1|rewrite Forall_forall; exact S2]|]. split.
      * intros q. cbn [map fst In]. specialize (K1 q). cbn [In] in K1. tauto.
      * intros q ys [X|X].
        -- injection X as <- <-. destruct (M1 k xs (or_introl eq_refl)) as [E _]. unfold with_key in *. cbn [filter fst]. rewrite str_eqb_refl. cbn [map snd]. rewrite <- E. split; [reflexivity|discriminate].
        -- assert (Nk : k <> q) by (apply S2; apply in_map_iff; exists (q, ys); auto). destruct (M1 q ys (or_intror X)) as [E Ny]. unfold with_key in *. cbn [filter fst]. destruct (str_eqb_spec k q); [contradiction|]. auto.
    + assert (Nk : ~ In k (k' :: map fst gs)).
      { intros [X|X]; [congruence|]. destruct (S2 k X) as [L _]. apply N. apply str_leb_antisym; [apply Kle; left; reflexivity|exact L]. }
      split; [|split].
      * cbn [map fst]. constructor; [constructor; [exact S1|rewrite Forall_forall; exact S2]|]. rewrite Forall_forall. intros q Hq. split; [apply Kle; exact Hq|]. intros <-. contradiction.
      * intros q. cbn [map fst In]. specialize (K1 q). cbn [In] in K1. tauto.
      * intros q ys [X|X].
        -- injection X as <- <-. unfold with_key. cbn [filter fst]. rewrite str_eqb_refl. split; [|discriminate]. cbn [map snd]. f_equal.
           assert (W : filter (fun x0 : str * A => str_eqb (fst x0) k) l = []); [|rewrite W; reflexivity].
           destruct (filter _ l) as [|y r] eqn:F; [reflexivity|]. exfalso. assert (I : In y (filter (fun x0 : str * A => str_eqb (fst x0) k) l)) by (rewrite F; left; reflexivity).
           apply filter_In in I. destruct I as [I J]. destruct (str_eqb_spec (fst y) k) as [Ek|]; [|discriminate]. apply Nk. apply K1. rewrite <- Ek. apply in_map. exact I.
        -- assert (Nq : k <> q). { intros ->. apply Nk. change (In q (map fst ((k', xs) :: gs))). apply in_map_iff. exists (q, ys). auto. }
           destruct (M1 q ys X) as [E Ny]. unfold with_key in *. cbn [filter fst]. destruct (str_eqb_spec k q); [contradiction|]. auto.
Qed.

(** ** Dissolving *)
Lemma label_key v k : key_of v = Ok k <-> label v = Some k.
Proof. destruct v as [|s|z]; cbn; [split; congruence| |split; discriminate]. destruct s; split; congruence. Qed.
Lemma keyed_label {G} name (f : feature G) kf : keyed name f = Ok kf <-> flabel name f = Some (fst kf) /\ snd kf = f.
Proof.
  unfold keyed, flabel. destruct (aget (fst f) name) as [v|e]; cbn [bind]; [|split; [discriminate|intros [X _]; discriminate]].
  destruct (key_of v) as [k|] eqn:E; cbn [bind].
  - apply label_key in E. rewrite E. destruct kf as [k' f']. cbn [fst snd]. split; [intros X; injection X as <- <-; auto|intros [X <-]; injection X as <-; reflexivity].
  - split; [discriminate|]. intros [X _]. apply label_key in X. congruence.
Qed.
Lemma keyed_members {G} name (l : list (feature G)) kl k :
  mapM (keyed name) l = Ok kl -> map snd (with_key k kl) = members name k l.
Proof.
  intros H. apply mapM_forall2 in H. unfold with_key, members. induction H as [|f kf l kl E _ IH]; [reflexivity|]. apply keyed_label in E. destruct E as [E1 E2]. cbn [filter]. rewrite E1.
  destruct kf as [k' f']. cbn [fst snd] in *. subst f'. destruct (str_eqb k' k); cbn [map snd]; [f_equal|]; exact IH.
Qed.
Lemma keyed_keys {G} name (l : list (feature G)) kl k :
  mapM (keyed name) l = Ok kl -> (In k (map fst kl) <-> exists f, In f l /\ flabel name f = Some k).
Proof.
  intros H. apply mapM_forall2 in H. induction H as [|f kf l kl E _ IH]; cbn [map In]; [split; [intros []|intros (f & [] & _)]|]. apply keyed_label in E. destruct E as [E1 E2]. rewrite IH. split.
  - intros [<-|(f' & H1 & H2)]; [exists f|exists f']; auto.
  - intros (f' & [<-|H1] & H2); [left; rewrite E1 in H2; injection H2 as <-; reflexivity|right; exists f'; auto].
Qed.

Lemma dissolve_spec {G} (ge : geo G) name l out : dissolve ge name l = Ok out ->
  exists ks, StronglySorted klt ks /\ (forall k, In k ks <-> exists f, In f l /\ flabel name f = Some k) /\
    Forall2 (fun k o => exists f r, members name k l = f :: r /\ o = (fst f, g_union ge (map snd (f :: r)))) ks out.
Proof.
  unfold dissolve. destruct (mapM (keyed name) l) as [kl|] eqn:E; [|discriminate]. cbn [bind]. intros H. apply mapM_forall2 in H.
  destruct (groupby_spec (sorted kl) (sorted_sorted kl)) as (S & K & M). exists (map fst (groupby (sorted kl))). split; [exact S|]. split.
  - intros k. rewrite K, <- (keyed_keys name l kl k E). rewrite !in_map_iff. split; intros (y & <- & Hy); (exists y; split; [reflexivity|]); [exact (proj1 (sorted_in kl y) Hy)|exact (proj2 (sorted_in kl y) Hy)].
  - assert (Q : forall gs, Forall2 (fun (g : str * list (feature G)) b => match snd g with [] => Err ValueError | f :: _ => Ok (fst f, g_union ge (map snd (snd g))) end = Ok b) gs out -> (forall g, In g gs -> In g (groupby (sorted kl))) ->
      Forall2 (fun k o => exists f r, members name k l = f :: r /\ o = (fst f, g_union ge (map snd (f :: r)))) (map fst gs) out); [|exact (Q _ H (fun g Hg => Hg))].
    clear H. intros gs H. induction H as [|[k xs] o gs out Eo _ IH]; intros I; cbn [map fst]; constructor.
    + destruct (M k xs (I _ (or_introl eq_refl))) as [Ex _]. rewrite sorted_stable, (keyed_members name l kl k E) in Ex. cbn [snd] in Eo. destruct xs as [|f r]; [discriminate|]. injection Eo as <-. exists f, r. split; [symmetry; exact Ex|reflexivity].
    + apply IH. intros g Hg. apply I. right. exact Hg.
Qed.
Lemma dissolve_ok {G} (ge : geo G) name l : (exists out, dissolve ge name l = Ok out) <-> forall f, In f l -> exists k, flabel name f = Some k.
Proof.
  split.
  - intros (out & H) f Hf. unfold dissolve in H. destruct (mapM (keyed name) l) as [kl|] eqn:E; [|discriminate]. destruct (mapM_inv _ _ _ f E Hf) as (kf & Ek). apply keyed_label in Ek. destruct Ek as [Ek _]. exists (fst kf). exact Ek.
  - intros H. unfold dissolve. destruct (mapM_ok (keyed name) l) as (kl & E).
    + intros f Hf. destruct (H f Hf) as (k & Ek). exists (k, f). apply keyed_label. auto.
    + rewrite E. cbn [bind]. apply mapM_ok. intros [k xs] Hg. destruct (groupby_spec (sorted kl) (sorted_sorted kl)) as (_ & _ & M). destruct (M k xs Hg) as [_ N]. cbn [snd]. destruct xs; [contradiction|]. eexists. reflexivity.
Qed.
Lemma in_members {G} name k (l : list (feature G)) f : In f (members name k l) <-> In f l /\ flabel name f = Some k.
Proof. unfold members. rewrite filter_In. destruct (flabel name f) as [k'|]; [|intuition discriminate]. destruct (str_eqb_spec k' k) as [->|N]; intuition congruence. Qed.

(** ** argmax *)
Lemma argmax_from_spec l : forall i b d, (fst b < i)%nat -> 
  let m := argmax_from l i b in
  (m = fst b /\ (forall j, (j < length l)%nat -> nth j l d <= snd b)%Q) \/
  (exists j, (j < length l)%nat /\ m = (i + j)%nat /\ (snd b < nth j l d)%Q /\ (forall j', (j' < length l)%nat -> nth j' l d <= nth j l d)%Q /\ forall j', (j' < j)%nat -> (nth j' l d < nth j l d)%Q).
Proof.
  induction l as [|x l IH]; intros i b d Hb; cbn [argmax_from]; [left; split; [reflexivity|intros j Hj; inversion Hj]|].
  destruct (Qltb (snd b) x) eqn:E.
  - apply Qltb_lt in E. right. destruct (IH (S i) (i, x) d) as [[M L]|(j & Hj & M & L1 & L2 & L3)]; [cbn; lia| |]; cbn [fst snd] in *.
    + exists 0%nat. cbn [length nth]. repeat split; [lia|rewrite M; lia|exact E| |intros j' Hj'; lia]. intros [|j'] Hj'; [apply Qle_refl|apply L; cbn in Hj'; lia].
    + exists (S j). cbn [length nth]. repeat split; [lia|rewrite M; lia|lra| |].
      * intros [|j'] Hj'; [lra|apply L2; cbn in Hj'; lia].
      * intros [|j'] Hj'; [exact L1|apply L3; lia].
  - apply Qltb_ge in E. destruct (IH (S i) b d) as [[M L]|(j & Hj & M & L1 & L2 & L3)]; [lia| |].
    + left. split; [exact M|]. intros [|j] Hj; cbn [nth]; [exact E|apply L; cbn in Hj; lia].
    + right. exists (S j). cbn [length nth]. repeat split; [lia|rewrite M; lia|exact L1| |].
      * intros [|j'] Hj'; [lra|apply L2; cbn in Hj'; lia].
      * intros [|j'] Hj'; [lra|apply L3; lia].
Qed.
Lemma argmax_spec l m d : argmax l = Ok m -> (m < length l)%nat /\ (forall j, (j < length l)%nat -> (nth j l d <= nth m l d)%Q) /\ forall j, (j < m)%nat -> (nth j l d < nth m l d)%Q.
Proof.
  destruct l as [|x l]; [discriminate|]. cbn [argmax]. intros H. injection H as <-.
  destruct (argmax_from_spec l 1 (0%nat, x) d) as [[M L]|(j & Hj & M & L1 & L2 & L3)]; [cbn; lia| |]; cbn [fst snd] in *; rewrite M.
  - cbn [length nth]. repeat split; [lia| |intros j Hj; lia]. intros [|j] Hj; [apply Qle_refl|apply L; cbn in Hj; lia].
  - cbn [length Nat.add nth]. repeat split; [lia| |].
    + intros [|j'] Hj'; [lra|apply L2; cbn in Hj'; lia].
    + intros [|j'] Hj'; [exact L1|apply L3; lia].
Qed.
Lemma argmax_ok l : l <> [] -> exists m, argmax l = Ok m.
Proof. destruct l; [contradiction|]. intros _. eexists. reflexivity. Qed.

(** ** Choosing *)
Lemma candidates_spec {G} (ge : geo G) other poly i : tree_ok ge -> (In i (candidates ge other poly) <-> touching ge other poly i).
Proof.
  intros T. unfold candidates, touching. rewrite filter_In. split.
  - intros [_ H]. destruct (nth_error other i) as [g|]; [|discriminate]. exists g. auto.
  - intros H. split; [apply T; exact H|]. destruct H as (g & -> & H). exact H.
Qed.
Lemma candidates_nodup {G} (ge : geo G) other poly : tree_ok ge -> NoDup (candidates ge other poly).
Proof. intros T. unfold candidates. apply NoDup_filter. apply T. Qed.

(** The share of [poly] covered by [g], as computed. *)
Definition share {G} (fl : Q -> Q) (ge : geo G) (poly g : G) : Q := fl (overlap ge poly g / g_area ge poly)%Q.

Lemma process_none {G} fl (ge : geo G) other poly : tree_ok ge -> (forall i, ~ touching ge other poly i) -> process fl ge other poly = Ok None.
Proof.
  intros T H. unfold process. destruct (candidates ge other poly) as [|c l] eqn:E; [reflexivity|]. exfalso. apply (H c). apply candidates_spec; [exact T|]. rewrite E. left. reflexivity.
Qed.
Lemma process_some {G} fl (ge : geo G) other poly r : tree_ok ge -> process fl ge other poly = Ok r ->
  (r = None /\ forall i, ~ touching ge other poly i) \/
  (exists c g, r = Some c /\ nth_error other c = Some g /\ g_intersects ge poly g = true /\
    ((forall i, touching ge other poly i -> i = c) \/ (~ g_area ge poly == 0)%Q) /\
    forall i g', nth_error other i = Some g' -> g_intersects ge poly g' = true -> i = c \/ (share fl ge poly g' <= share fl ge poly g)%Q).
Proof.
  intros T. unfold process. pose proof (fun i => candidates_spec ge other poly i T) as C. destruct (candidates ge other poly) as [|c [|c' l]] eqn:E.
  - intros H. injection H as <-. left. split; [reflexivity|]. intros i Hi. apply C in Hi. destruct Hi.
  - intros H. injection H as <-. right. destruct (proj1 (C c) (or_introl eq_refl)) as (g & Hg & Ig). exists c, g. repeat split; auto.
    + left. intros i Hi. apply C in Hi. destruct Hi as [<-|[]]. reflexivity.
    + intros i g' Hi Ii. left. assert (X : touching ge other poly i) by (exists g'; auto). apply C in X. destruct X as [<-|[]]. reflexivity.
  - set (fids := c :: c' :: l) in *. destruct (mapM _ fids) as [rs|] eqn:Em; [|discriminate]. cbn [bind]. destruct (argmax rs) as [m|] eqn:Ea; [|discriminate]. cbn [bind].
    destruct (nth_error fids m) as [b|] eqn:Eb; [|discriminate]. intros H. injection H as <-. right.
    assert (Tb : touching ge other poly b) by (apply C; apply nth_error_In in Eb; exact Eb). destruct Tb as (g & Hg & Ig). exists b, g. split; [reflexivity|]. split; [exact Hg|]. split; [exact Ig|].
    pose proof (mapM_forall2 _ _ _ Em) as F.
    assert (At : forall j i g', nth_error fids j = Some i -> nth_error other i = Some g' -> nth j rs 0%Q = share fl ge poly g' /\ (j < length rs)%nat /\ (~ g_area ge poly == 0)%Q).
    { clear - F. revert F. generalize fids. intros ff F. induction F as [|x y ff rs Exy _ IH]; intros j i g' Hj Hg; [destruct j; discriminate|]. destruct j as [|j]; cbn in Hj.
      - injection Hj as ->. rewrite Hg in Exy. destruct (Qeq_bool (g_area ge poly) 0) eqn:Z; [discriminate|]. injection Exy as <-. split; [reflexivity|]. split; [cbn; lia|]. apply Qeq_bool_neq. exact Z.
      - destruct (IH j i g' Hj Hg) as (I1 & I2 & I3). cbn [nth length]. split; [exact I1|]. split; [lia|exact I3]. }
    destruct (argmax_spec rs m 0%Q Ea) as (Lm & Mx & _). destruct (At m b g Eb Hg) as (Sm & _ & Nz). split; [right; exact Nz|].
    intros i g' Hi Ii. right. assert (X : In i fids) by (apply C; exists g'; auto). apply In_nth_error in X. destruct X as (j & Hj). destruct (At j i g' Hj Hi) as (Sj & Lj & _). rewrite <- Sj, <- Sm. apply Mx. exact Lj.
Qed.
Lemma process_ok {G} fl (ge : geo G) other poly : tree_ok ge ->
  ((exists r, process fl ge other poly = Ok r) <-> ((~ g_area ge poly == 0)%Q \/ forall i j, touching ge other poly i -> touching ge other poly j -> i = j)).
Proof.
  intros T. pose proof (fun i => candidates_spec ge other poly i T) as C. split.
  - intros (r & H). destruct (process_some fl ge other poly r T H) as [[_ N]|(c & g & _ & _ & _ & [U|U] & _)]; [right|right|left; exact U].
    + intros i j Hi. destruct (N i Hi).
    + intros i j Hi Hj. rewrite (U i Hi), (U j Hj). reflexivity.
  - intros H. pose proof (candidates_nodup ge other poly T) as ND. unfold process. destruct (candidates ge other poly) as [|c [|c' l]] eqn:E; [eexists; reflexivity|eexists; reflexivity|].
    set (fids := c :: c' :: l) in *. assert (Nz : Qeq_bool (g_area ge poly) 0 = false).
    { destruct (Qeq_bool (g_area ge poly) 0) eqn:Z; [|reflexivity]. exfalso. apply Qeq_bool_iff in Z. destruct H as [H|H]; [contradiction|].
      assert (c = c') by (apply H; apply C; [left; reflexivity|right; left; reflexivity]). subst c'. inversion ND as [|? ? X _]. apply X. left. reflexivity. }
    destruct (mapM_ok (fun id => match nth_error other id with None => Err IndexError | Some o => if Qeq_bool (g_area ge poly) 0 then Err ZeroDivisionError else Ok (fl (g_area ge (g_inter ge poly o) / g_area ge poly)%Q) end) fids) as (rs & Em).
    + intros i Hi. apply C in Hi. destruct Hi as (g & -> & _). rewrite Nz. eexists. reflexivity.
    + rewrite Em. cbn [bind]. pose proof (mapM_forall2 _ _ _ Em) as F. assert (Le : length fids = length rs) by (clear - F; induction F; cbn; congruence).
      destruct (argmax_ok rs) as (m & Ea); [intros ->; discriminate Le|]. rewrite Ea. cbn [bind]. destruct (argmax_spec rs m 0%Q Ea) as (Lm & _). destruct (nth_error fids m) as [b|] eqn:X; [eexists; reflexivity|]. apply nth_error_None in X. lia.
Qed.

(** With exact arithmetic the largest share is the largest overlap. *)
Lemma share_overlap {G} (ge : geo G) poly g g' : areas_ok ge -> (~ g_area ge poly == 0)%Q -> (share (fun x => x) ge poly g' <= share (fun x => x) ge poly g)%Q -> (overlap ge poly g' <= overlap ge poly g)%Q.
Proof.
  intros A N H. unfold share in H. assert (P : (0 < g_area ge poly)%Q) by (destruct (Qlt_le_dec 0 (g_area ge poly)) as [X|X]; [exact X|exfalso; apply N; apply Qle_antisym; [exact X|apply A]]).
  apply (Qmult_le_compat_r _ _ (g_area ge poly)) in H; [|apply A]. unfold Qdiv in H. rewrite <- !Qmult_assoc, !(Qmult_comm (/ _)), !Qmult_inv_r, !Qmult_1_r in H by exact N. exact H.
Qed.

(** ** Joining *)
Lemma combine_forall2 {A B} (P : A -> B -> Prop) l r : Forall2 P l r -> Forall2 (fun a ab => fst ab = a /\ P a (snd ab)) l (combine l r).
Proof. induction 1; cbn; constructor; auto. Qed.
Lemma forall2_comp {A B C} (P : A -> B -> Prop) (Q : B -> C -> Prop) l m n : Forall2 P l m -> Forall2 Q m n -> Forall2 (fun a c => exists b, P a b /\ Q b c) l n.
Proof. intros H. revert n. induction H; intros n K; inversion K; subst; constructor; eauto. Qed.
Lemma forall2_impl {A B} (P Q : A -> B -> Prop) l m : (forall a b, P a b -> Q a b) -> Forall2 P l m -> Forall2 Q l m.
Proof. intros I H. induction H; constructor; auto. Qed.
