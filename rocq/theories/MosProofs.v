From Coq Require Import Permutation.
From Verif Require Import Base BaseLemmas PyStr NameModel NameSpec NameProofs DistModel DistProofs ConvModel ConvSpec ConvRunSpec ConvRunProofs MosSpec MosModel.
Open Scope Z_scope.

Lemma put_same {A} r (a : A) f : put r a f r = a.
Proof. unfold put. rewrite Nat.eqb_refl. reflexivity. Qed.
Lemma put_other {A} r (a : A) f i : i <> r -> put r a f i = f i.
Proof. intros H. unfold put. destruct (Nat.eqb_spec i r); [contradiction|reflexivity]. Qed.

Lemma tile_before f t : t = tile_of_file f <-> ~ In "_"%char t /\ (f = t \/ exists rest, f = t ++ "_"%char :: rest).
Proof.
  unfold tile_of_file. split.
  - intros ->. induction f as [|x f [N IH]]; cbn [split_head]; [split; [intros []|left; reflexivity]|].
    destruct (Ascii.eqb_spec x underscore) as [->|D].
    + split; [intros []|]. right. exists f. reflexivity.
    + split; [intros [E|H]; [apply D; exact E|exact (N H)]|]. destruct IH as [IH|[rest IH]].
      * left. rewrite <- IH. reflexivity.
      * right. exists rest. cbn [app]. rewrite <- IH. reflexivity.
  - intros [N [->|[rest ->]]].
    + induction t as [|x t IH]; [reflexivity|]. cbn [split_head]. destruct (Ascii.eqb_spec x underscore) as [->|D]; [elim N; left; reflexivity|].
      f_equal. apply IH. intros H. apply N. right. exact H.
    + symmetry. apply split_head_app. exact N.
Qed.
Lemma tile_list_names l tiles : tile_list l tiles -> NoDup tiles /\ forall t, In t tiles <-> names_tile l t.
Proof.
  intros [D H]. split; [exact D|]. intros t. rewrite H. unfold names_tile. split; intros (f & I & E); exists f; (split; [exact I|]); apply tile_before; exact E.
Qed.
Lemma tile_list_ex l : exists tiles, tile_list l tiles.
Proof.
  exists (nodup (list_eq_dec ascii_dec) (map tile_of_file l)). split; [apply NoDup_nodup|]. intros t. rewrite nodup_In, in_map_iff. split; intros (f & A & B); exists f; auto.
Qed.
Lemma tile_list_length l tiles : tile_list l tiles -> (length tiles <= length l)%nat.
Proof.
  intros [D H]. rewrite <- (map_length tile_of_file l). apply NoDup_incl_length; [exact D|]. intros t I. apply H in I. destruct I as (f & I & ->). apply in_map. exact I.
Qed.

(** ** Sums over processes *)
Definition total (f : nat -> nat) (n : nat) : nat := list_sum (map f (seq 0 n)).
Lemma total_S f n : total f (S n) = (total f n + f n)%nat.
Proof. unfold total. rewrite seq_S, map_app, list_sum_app. cbn. lia. Qed.
Lemma total_ext f g n : (forall r, (r < n)%nat -> f r = g r) -> total f n = total g n.
Proof. intros H. unfold total. f_equal. apply map_ext_in. intros r I. apply in_seq in I. apply H. lia. Qed.
Lemma total_put f g n r : (r < n)%nat -> (forall i, i <> r -> g i = f i) -> (total g n + f r = total f n + g r)%nat.
Proof.
  intros L H. induction n as [|n IH]; [lia|]. rewrite !total_S. destruct (Nat.eq_dec r n) as [->|D].
  - rewrite (total_ext g f n) by (intros i I; apply H; lia). lia.
  - rewrite (H n) by lia. specialize (IH ltac:(lia)). lia.
Qed.
Lemma total_add f g n : total (fun r => f r + g r)%nat n = (total f n + total g n)%nat.
Proof. induction n as [|n IH]; [reflexivity|]. rewrite !total_S. lia. Qed.

Lemma split_nth_error {A} size (l : list A) r : (r < size)%nat -> nth_error (split_tiles (Z.of_nat size) l) r = Some (stride (Z.of_nat r) (Z.of_nat size) l).
Proof.
  intros L. unfold split_tiles, zrange. rewrite map_map, nth_error_map, Nat2Z.id. rewrite (nth_error_nth' _ 0%nat) by (rewrite seq_length; exact L). rewrite seq_nth by exact L. reflexivity.
Qed.
Lemma split_parts {A} size (l : list A) : split_tiles (Z.of_nat size) l = map (fun r => stride (Z.of_nat r) (Z.of_nat size) l) (seq 0 size).
Proof. unfold split_tiles, zrange. rewrite map_map, Nat2Z.id. reflexivity. Qed.

Lemma all_some_in {A} (l : list (option A)) k : all_some l = Some k -> l = map Some k.
Proof.
  revert k. induction l as [|[a|] l IH]; intros k; cbn [all_some]; [intros [= <-]; reflexivity| |discriminate].
  destruct (all_some l) as [k'|]; [|discriminate]. intros [= <-]. cbn [map]. rewrite (IH k' eq_refl). reflexivity.
Qed.
Lemma all_some_map {A} (k : list A) : all_some (map Some k) = Some k.
Proof. induction k as [|a k IH]; [reflexivity|]. cbn [map all_some]. rewrite IH. reflexivity. Qed.
Lemma all_some_none {A} (l : list (option A)) : all_some l = None -> In None l.
Proof. induction l as [|[a|] l IH]; cbn [all_some]; [discriminate| |left; reflexivity]. destruct (all_some l); [discriminate|]. right. apply IH. reflexivity. Qed.

Lemma cops_length ts : length (cops ts) = (2 * length ts)%nat.
Proof. unfold cops. induction ts as [|t ts IH]; [reflexivity|]. cbn [flat_map length app]. rewrite IH. lia. Qed.

Section Run.
  Context {G : Type} (mul : Q -> Q -> Q) (stats_ok : grid num -> bool) (vrt_raises : list str -> bool).
  Variables (p : str) (l : list str) (size : nat) (f0 : rstore G) (m0 : str -> option (list str)).
  Hypothesis Hsize : (1 <= size)%nat.
  Notation step := (step mul stats_ok vrt_raises (Some p) false (Some l) size).
  Notation steps := (steps mul stats_ok vrt_raises (Some p) false (Some l) size).
  Notation oval := (oval mul stats_ok p f0).
  Notation look := (look mul stats_ok p f0).

  Definition files_of (dn : list cop) : list str * list str := fold_left (fun res o => noted p o res) dn ([], []).
  Lemma files_snoc dn o : files_of (dn ++ [o]) = noted p o (files_of dn).
  Proof. unfold files_of. rewrite fold_left_app. reflexivity. Qed.
  Lemma files_cops ts : files_of (cops ts) = converter_files p ts.
  Proof.
    unfold files_of, converter_files. assert (K : forall a b, fold_left (fun res o => noted p o res) (cops ts) (a, b) = (a ++ map (m3_path p) ts, b ++ map (m3max_path p) ts)); [|apply K].
    induction ts as [|t ts IH]; intros a b; [rewrite !app_nil_r; reflexivity|]. unfold cops. cbn [flat_map app fold_left noted fst snd]. etransitivity; [apply IH|]. rewrite <- !app_assoc. reflexivity.
  Qed.

  Section Tiles.
  Variable tiles : list str.
  Hypothesis Htiles : tile_list l tiles.
  Definition part (r : nat) : list str := stride (Z.of_nat r) (Z.of_nat size) tiles.
  Definition lists : list (list str * list str) := map (fun r => converter_files p (part r)) (seq 0 size).
  Definition others_ended (s : world G) : Prop := forall r, (0 < r < size)%nat -> procs s r = Ended.

  Definition proc_ok (dn : nat -> list cop) (s : world G) (r : nat) : Prop :=
    match procs s r with
    | Begin | Listing => False
    | Waiting => dn r = []
    | Converting ops res => cops (part r) = dn r ++ ops /\ res = files_of (dn r)
    | Building _ _ | BuildingMax _ => r = 0%nat /\ dn r = cops (part r)
    | Ended => dn r = cops (part r)
    | Raised e => (exists o ops, cops (part r) = dn r ++ o :: ops /\ oval o = None) \/
        (r = 0%nat /\ dn r = cops (part r) /\ others_ended s /\ (vrt_raises (concat_fst lists) = true \/ vrt_raises (concat_snd lists) = true))
    end.
  Definition root_ok (dn : nat -> list cop) (s : world G) : Prop :=
    let m1 := write_mosaic (vrt_path p (lit "M3")) (concat_fst lists) m0 in
    match procs s 0%nat with
    | Building a b => others_ended s /\ a = concat_fst lists /\ b = concat_snd lists /\ mosaics s = m0
    | BuildingMax b => others_ended s /\ b = concat_snd lists /\ mosaics s = m1
    | Ended => others_ended s /\ mosaics s = write_mosaic (vrt_path p (lit "M3_max")) (concat_snd lists) m1
    | Raised e => mosaics s = m0 \/ (others_ended s /\ dn 0%nat = cops (part 0) /\ vrt_raises (concat_snd lists) = true /\ mosaics s = m1)
    | _ => mosaics s = m0
    end.
  Definition weight (r : nat) (q : proc) : nat :=
    let extra := match r with O => 2%nat | _ => 0%nat end in
    match q with
    | Waiting => 2 + length (cops (part r)) + extra
    | Converting ops _ => 1 + length ops + extra
    | Building _ _ => 2
    | BuildingMax _ => 1
    | _ => 0
    end%nat.
  Definition remaining (s : world G) : nat := total (fun r => weight r (procs s r)) size.
  Definition bound : nat := (2 * size + 2 * length tiles + 4)%nat.
  Record after (n : nat) (dn : nat -> list cop) (done : list cop) (s : world G) : Prop := After {
    a_folders : folders s = true;
    a_warned : warned s = false;
    a_in : forall r, (r < size)%nat -> inbox s r = Some (part r);
    a_done : forall o, In o done <-> exists r, (r < size)%nat /\ In o (dn r);
    a_disk : forall x, disk s x = look done x;
    a_val : forall o, In o done -> oval o <> None;
    a_proc : forall r, (r < size)%nat -> proc_ok dn s r;
    a_out : forall r, (0 < r < size)%nat -> match outbox s r with Some res => procs s r = Ended /\ res = converter_files p (part r) | None => procs s r <> Ended end;
    a_root : root_ok dn s;
    a_count : (n + remaining s <= bound)%nat }.

  Lemma parts_total : total (fun r => length (cops (part r))) size = (2 * length tiles)%nat.
  Proof.
    pose proof (Permutation_length (split_perm (Z.of_nat size) tiles ltac:(lia))) as P. rewrite split_parts in P. unfold total. rewrite <- P.
    clear. unfold part. induction (seq 0 size) as [|r rs IH]; [reflexivity|]. cbn [map list_sum fold_right concat]. rewrite app_length, cops_length. unfold list_sum in IH. rewrite IH. lia.
  Qed.

  Lemma results_lists s own results : gathered size s own = Some results -> own = converter_files p (part 0) ->
    (forall r, (0 < r < size)%nat -> match outbox s r with Some res => procs s r = Ended /\ res = converter_files p (part r) | None => procs s r <> Ended end) ->
    results = lists /\ others_ended s.
  Proof.
    unfold gathered. intros E -> O. destruct (all_some _) as [k|] eqn:K; [|discriminate]. injection E as <-. apply all_some_in in K.
    assert (N : forall r, (0 < r < size)%nat -> outbox s r <> None).
    { intros r L H. assert (I : In (outbox s r) (map Some k)) by (rewrite <- K; apply in_map; apply in_seq; lia). rewrite H in I. apply in_map_iff in I. destruct I as (? & ? & _). discriminate. }
    split.
    - unfold lists. destruct size as [|m]; [lia|]. cbn [seq map]. f_equal. cbn [Nat.sub] in K. rewrite Nat.sub_0_r in K.
      assert (X : map Some k = map Some (map (fun r => converter_files p (part r)) (seq 1 m))).
      { rewrite <- K, map_map. apply map_ext_in. intros r I. apply in_seq in I. specialize (O r ltac:(lia)). specialize (N r ltac:(lia)). destruct (outbox s r); [destruct O as [_ ->]; reflexivity|contradiction]. }
      clear - X. revert X. generalize (map (fun r => converter_files p (part r)) (seq 1 m)). induction k as [|a k IH]; intros [|b k'] X; try discriminate; [reflexivity|]. injection X as -> X. f_equal. apply IH. exact X.
    - intros r L. specialize (O r L). specialize (N r L). destruct (outbox s r); [apply O|contradiction].
  Qed.

  Lemma remaining_at s s' r q : (r < size)%nat -> procs s' = put r q (procs s) -> (remaining s' + weight r (procs s r) = remaining s + weight r q)%nat.
  Proof.
    intros L E. unfold remaining. rewrite E. pose proof (total_put (fun i => weight i (procs s i)) (fun i => weight i (put r q (procs s) i)) size r L) as T.
    cbv beta in T. rewrite put_same in T. apply T. intros i D. rewrite put_other by exact D. reflexivity.
  Qed.

  Lemma ended_keep s s' r q : procs s' = put r q (procs s) -> (r < size)%nat -> r = 0%nat \/ procs s r <> Ended -> others_ended s -> others_ended s'.
  Proof.
    intros E L D O i H. rewrite E. destruct (Nat.eq_dec i r) as [->|N]; [|rewrite put_other by exact N; exact (O i H)].
    destruct D as [->|D]; [lia|]. elim D. apply O. exact H.
  Qed.
  Lemma root_other dn dn' s s' r q : dn' 0%nat = dn 0%nat -> procs s' = put r q (procs s) -> mosaics s' = mosaics s -> (0 < r < size)%nat -> procs s r <> Ended -> root_ok dn s -> root_ok dn' s'.
  Proof.
    intros X E M L D R. pose proof (ended_keep s s' r q E ltac:(lia) (or_intror D)) as K. unfold root_ok in *. rewrite X, E, M, put_other by lia. cbv zeta in *.
    destruct (procs s 0%nat); try exact R; try (destruct R as [R1 R2]; split; [exact (K R1)|exact R2]).
    destruct R as [R|(R1 & R2)]; [left; exact R|right; split; [exact (K R1)|exact R2]].
  Qed.
  Lemma proc_other dn dn' s s' r q i : procs s' = put r q (procs s) -> (r < size)%nat -> r = 0%nat \/ procs s r <> Ended -> i <> r -> dn' i = dn i -> proc_ok dn s i -> proc_ok dn' s' i.
  Proof.
    intros E L D N X P. pose proof (ended_keep s s' r q E L D) as K. unfold proc_ok in *. rewrite E, X, put_other by exact N. destruct (procs s i); try exact P.
    destruct P as [P|(P1 & P2 & P3 & P4)]; [left; exact P|right]. auto.
  Qed.

  Lemma move n dn done s s' r q dn' done' : after n dn done s ->
    procs s' = put r q (procs s) -> inbox s' = inbox s -> outbox s' = outbox s -> folders s' = folders s -> warned s' = warned s ->
    (r < size)%nat -> procs s r <> Ended -> q <> Ended \/ r = 0%nat -> (forall i, i <> r -> dn' i = dn i) ->
    (forall o, In o done' <-> exists r, (r < size)%nat /\ In o (dn' r)) -> (forall x, disk s' x = look done' x) -> (forall o, In o done' -> oval o <> None) ->
    proc_ok dn' s' r -> root_ok dn' s' -> (weight r q < weight r (procs s r))%nat -> after (S n) dn' done' s'.
  Proof.
    intros [A1 A2 A3 A4 A5 A6 A7 A8 A9 A10] E E1 E2 E3 E4 L D Q X B1 B2 B3 P R W. pose proof (remaining_at s s' r q L E) as M. constructor; try assumption; try congruence.
    - intros i I. rewrite E1. auto.
    - intros i I. destruct (Nat.eq_dec i r) as [->|N]; [exact P|]. apply (proc_other dn dn' s s' r q i); auto.
    - intros i I. rewrite E2, E. specialize (A8 i I). destruct (Nat.eq_dec i r) as [->|N]; [|rewrite put_other by exact N; exact A8].
      rewrite put_same. destruct (outbox s r); [destruct A8; contradiction|]. destruct Q as [Q|Q]; [exact Q|lia].
    - lia.
  Qed.

  Lemma val_keep done s' s : disk s' = disk s -> (forall x, disk s x = look done x) -> forall x, disk s' x = look done x.
  Proof. intros ->. auto. Qed.

  Lemma after_step n dn done s s' : after n dn done s -> step s s' -> exists dn' done', after (S n) dn' done' s'.
  Proof.
    intros A S. pose proof A as [A1 A2 A3 A4 A5 A6 A7 A8 A9 A10].
    pose proof (A7 0%nat ltac:(lia)) as P0. unfold proc_ok in P0.
    destruct S as [H|p' H H0 H1|p' H H0 H1|H H0|l' ts H H0 H1|r pt L H I|r p' o ops res f L H H0 H1|r p' o ops res e L H H0 H1|r res L H|res results H I|p' a b H H0 H1|a b H H0|p' b H H0 H1|b H H0]; try discriminate; try (rewrite ?H, ?H0 in P0; contradiction).
    - rewrite (A3 r L) in I. injection I as <-. exists dn, done. pose proof (A7 r L) as P. unfold proc_ok in P. rewrite H in P.
      apply (move n dn done s _ r (Converting (cops (part r)) ([], []))); auto; try reflexivity; try (rewrite H; discriminate); try (left; discriminate).
      + unfold proc_ok. cbn [at_proc procs]. rewrite put_same, P. split; reflexivity.
      + destruct r as [|r].
        * unfold root_ok in *. cbn [at_proc procs mosaics]. rewrite put_same. rewrite H in A9. exact A9.
        * apply (root_other dn _ s _ (S r) (Converting (cops (part (S r))) ([], []))); auto; try lia; try reflexivity. rewrite H. discriminate.
      + rewrite H. cbn [weight]. lia.
    - injection H as <-. pose proof (A7 r L) as P. unfold proc_ok in P. rewrite H0 in P. destruct P as [P1 P2].
      assert (Hm : forall t, o = OpMax t -> In (OpTile t) done).
      { intros t ->. apply A4. exists r. split; [exact L|]. pose proof (cops_ordered (part r) _ _ _ P1) as C. rewrite app_nil_r in C. exact C. }
      pose proof (step_val mul stats_ok p f0 done (disk s) o A5 Hm) as V. rewrite H1 in V. destruct V as [V1 V2].
      exists (put r (dn r ++ [o]) dn), (o :: done).
      apply (move n dn done s _ r (Converting ops (noted p o res))); auto; try reflexivity; try (rewrite H0; discriminate); try (left; discriminate).
      + intros i N. apply put_other. exact N.
      + intros o'. cbn [In]. rewrite A4. split.
        * intros [<-|(i & I & J)]; [exists r; rewrite put_same; split; [exact L|apply in_or_app; right; left; reflexivity]|].
          exists i. split; [exact I|]. destruct (Nat.eq_dec i r) as [->|N]; [rewrite put_same; apply in_or_app; left; exact J|rewrite put_other by exact N; exact J].
        * intros (i & I & J). destruct (Nat.eq_dec i r) as [->|N]; [|right; exists i; rewrite put_other in J by exact N; auto].
          rewrite put_same in J. apply in_app_or in J. destruct J as [J|[J|[]]]; [right; exists r; auto|left; exact J].
      + intros o' [<-|J]; [exact V1|exact (A6 o' J)].
      + unfold proc_ok. cbn [procs]. rewrite !put_same. split; [rewrite <- app_assoc; exact P1|]. rewrite files_snoc, <- P2. reflexivity.
      + destruct r as [|r].
        * unfold root_ok in *. cbn [procs mosaics]. rewrite put_same. rewrite H0 in A9. exact A9.
        * apply (root_other dn _ s _ (S r) (Converting ops (noted p o res))); auto; try lia; try reflexivity. rewrite H0. discriminate.
      + rewrite H0. cbn [weight length]. lia.
    - injection H as <-. pose proof (A7 r L) as P. unfold proc_ok in P. rewrite H0 in P. destruct P as [P1 P2].
      assert (Hm : forall t, o = OpMax t -> In (OpTile t) done).
      { intros t ->. apply A4. exists r. split; [exact L|]. pose proof (cops_ordered (part r) _ _ _ P1) as C. rewrite app_nil_r in C. exact C. }
      pose proof (step_val mul stats_ok p f0 done (disk s) o A5 Hm) as V. rewrite H1 in V.
      exists dn, done. apply (move n dn done s _ r (Raised e)); auto; try reflexivity; try (rewrite H0; discriminate); try (left; discriminate).
      + unfold proc_ok. cbn [at_proc procs]. rewrite put_same. left. eauto.
      + destruct r as [|r].
        * unfold root_ok in *. cbn [at_proc procs mosaics]. rewrite put_same. rewrite H0 in A9. left. exact A9.
        * apply (root_other dn _ s _ (S r) (Raised e)); auto; try lia; try reflexivity. rewrite H0. discriminate.
      + rewrite H0. cbn [weight length]. lia.
    - pose proof (A7 r ltac:(lia)) as P. unfold proc_ok in P. rewrite H in P. destruct P as [P1 P2]. rewrite app_nil_r in P1.
      exists dn, done. match goal with |- after _ _ _ ?w => set (s' := w) end.
      assert (E : procs s' = put r Ended (procs s)) by reflexivity. pose proof (remaining_at s s' r Ended ltac:(lia) E) as M. rewrite H in M. cbn [weight length] in M.
      assert (D : procs s r <> Ended) by (rewrite H; discriminate).
      constructor; try assumption.
      + intros i I. destruct (Nat.eq_dec i r) as [->|N]; [unfold proc_ok; rewrite E, put_same; symmetry; exact P1|]. apply (proc_other dn dn s s' r Ended i); auto. lia.
      + intros i I. rewrite E. subst s'. cbn [outbox]. destruct (Nat.eq_dec i r) as [->|N]; [|rewrite !put_other by exact N; exact (A8 i I)].
        rewrite !put_same. split; [reflexivity|]. rewrite P2, <- P1. apply files_cops.
      + apply (root_other dn dn s s' r Ended); auto.
      + lia.
    - rewrite H in P0. destruct P0 as [P1 P2]. rewrite app_nil_r in P1.
      destruct (results_lists s res results I) as [-> O]; [rewrite P2, <- P1; apply files_cops|exact A8|].
      assert (Z0 : (0 <? zlen lists) = true).
      { apply Z.ltb_lt. unfold zlen, lists. rewrite map_length, seq_length. lia. }
      rewrite Z0. exists dn, done. apply (move n dn done s _ 0%nat (Building (concat_fst lists) (concat_snd lists))); auto; try reflexivity; try (rewrite H; discriminate); try (left; discriminate).
      + unfold proc_ok. cbn [at_proc procs]. rewrite put_same. auto.
      + unfold root_ok in *. cbn [at_proc procs mosaics]. rewrite put_same. rewrite H in A9. split; [|auto]. intros i J. cbn [at_proc procs]. rewrite put_other by lia. exact (O i J).
      + rewrite H. cbn [weight length]. lia.
    - injection H as <-. rewrite H0 in P0. destruct P0 as [_ P1]. unfold root_ok in A9. rewrite H0 in A9. destruct A9 as (O & -> & -> & M).
      exists dn, done. apply (move n dn done s _ 0%nat (BuildingMax (concat_snd lists))); auto; try reflexivity; try (rewrite H0; discriminate); try (left; discriminate).
      + unfold proc_ok. cbn [procs]. rewrite put_same. auto.
      + unfold root_ok in *. cbn [procs mosaics]. rewrite put_same, M. split; [|auto]. intros i J. cbn [at_proc procs]. rewrite put_other by lia. exact (O i J).
      + rewrite H0. cbn [weight length]. lia.
    - rewrite H in P0. destruct P0 as [_ P1]. unfold root_ok in A9. rewrite H in A9. destruct A9 as (O & -> & -> & M).
      assert (O' : forall q, others_ended (at_proc 0 q s)) by (intros q i J; cbn [at_proc procs]; rewrite put_other by lia; exact (O i J)).
      exists dn, done. apply (move n dn done s _ 0%nat (Raised RuntimeError)); auto; try reflexivity; try (rewrite H; discriminate); try (left; discriminate).
      + unfold proc_ok. cbn [at_proc procs]. rewrite put_same. right. auto.
      + unfold root_ok in *. cbn [at_proc procs mosaics]. rewrite put_same. left. exact M.
      + rewrite H. cbn [weight length]. lia.
    - injection H as <-. rewrite H0 in P0. destruct P0 as [_ P1]. unfold root_ok in A9. rewrite H0 in A9. destruct A9 as (O & -> & M).
      exists dn, done. apply (move n dn done s _ 0%nat Ended); auto; try reflexivity; try (rewrite H0; discriminate).
      + unfold root_ok in *. cbn [procs mosaics]. rewrite put_same, M. split; [|auto]. intros i J. cbn [at_proc procs]. rewrite put_other by lia. exact (O i J).
      + rewrite H0. cbn [weight length]. lia.
    - rewrite H in P0. destruct P0 as [_ P1]. unfold root_ok in A9. rewrite H in A9. destruct A9 as (O & -> & M).
      assert (O' : forall q, others_ended (at_proc 0 q s)) by (intros q i J; cbn [at_proc procs]; rewrite put_other by lia; exact (O i J)).
      exists dn, done. apply (move n dn done s _ 0%nat (Raised RuntimeError)); auto; try reflexivity; try (rewrite H; discriminate); try (left; discriminate).
      + unfold proc_ok. cbn [at_proc procs]. rewrite put_same. right. auto.
      + unfold root_ok in *. cbn [at_proc procs mosaics]. rewrite put_same. right. auto.
      + rewrite H. cbn [weight length]. lia.
  Qed.
End Tiles.

  (** ** All reachable states *)
  Definition second : world G := World (put 0 Listing (put 0 Begin (fun _ => Waiting))) (fun _ => None) (fun _ => None) true f0 m0 false.
  Lemma listed tiles : tile_list l tiles ->
    after tiles 2 (fun _ => []) [] (World (put 0 Waiting (procs second)) (fun r => nth_error (split_tiles (Z.of_nat size) tiles) r) (outbox second) (folders second) (disk second) (mosaics second) (warned second)).
  Proof.
    intros T. assert (W : forall r, put 0 Waiting (procs second) r = Waiting).
    { intros r. cbn [second procs]. unfold put. destruct (Nat.eqb r 0); reflexivity. }
    constructor; cbn [second folders warned inbox outbox disk mosaics procs] in *; auto.
    - intros r L. apply split_nth_error. exact L.
    - intros o. split; [intros []|intros (r & _ & [])].
    - intros r L. unfold proc_ok. cbn [procs]. rewrite W. reflexivity.
    - intros r L. rewrite W. discriminate.
    - unfold root_ok. cbn [procs mosaics]. rewrite W. reflexivity.
    - unfold remaining, bound. cbn [procs]. rewrite (total_ext _ (fun r => length (cops (part tiles r)) + ((fun r => 2) r + (fun r => match r with O => 2 | _ => 0 end) r))%nat).
      2:{ intros r L. rewrite W. cbn [weight]. lia. }
      rewrite !total_add, (parts_total tiles).
      assert (T2 : total (fun _ => 2%nat) size = (2 * size)%nat) by (clear; induction size as [|m IH]; [reflexivity|]; rewrite total_S; lia).
      assert (T3 : (total (fun r => match r with O => 2 | _ => 0 end) size <= 2)%nat).
      { clear. induction size as [|m IH]; [cbn; lia|]. rewrite total_S. destruct m as [|m]; [cbn; lia|]. lia. }
      cbv beta in *. lia.
  Qed.
  Lemma reach_cases n s : steps (first f0 m0) n s ->
    (n = 0%nat /\ s = first f0 m0) \/ (n = 1%nat /\ s = second) \/ exists tiles dn done, tile_list l tiles /\ after tiles n dn done s.
  Proof.
    induction 1 as [|n s s' H IH S]; [left; auto|]. right. destruct IH as [[-> ->]|[[-> ->]|(tiles & dn & done & T & A)]].
    - left. split; [reflexivity|].
      destruct S as [H0|p' H0 H1 H2|p' H0 H1 H2|H0 H1|l' ts H0 H1 H2|r pt L H0 I|r p' o ops res f L H0 H1 H2|r p' o ops res e L H0 H1 H2|r res L H0|res results H0 I|p' a b H0 H1 H2|a b H0 H1|p' b H0 H1 H2|b H0 H1];
      try discriminate; try reflexivity; exfalso; destruct r as [|r]; cbn in *; try discriminate; try lia.
    - right. destruct S as [H0|p' H0 H1 H2|p' H0 H1 H2|H0 H1|l' ts H0 H1 H2|r pt L H0 I|r p' o ops res f L H0 H1 H2|r p' o ops res e L H0 H1 H2|r res L H0|res results H0 I|p' a b H0 H1 H2|a b H0 H1|p' b H0 H1 H2|b H0 H1];
      try discriminate.
      + injection H1 as <-. exists ts, (fun _ => []), []. split; [exact H2|]. apply listed. exact H2.
      + destruct r; discriminate.
      + destruct r; discriminate.
      + destruct r; discriminate.
    - right. destruct (after_step tiles n dn done s s' A S) as (dn' & done' & A'). eauto 6.
  Qed.
  (** ** What reachable states look like *)
  Lemma all_done tiles n dn done s : after tiles n dn done s -> (forall r, (r < size)%nat -> dn r = cops (part tiles r)) ->
    forall t, In t tiles -> disk s (m3_path p t) = m3_of mul stats_ok p f0 t /\ m3_of mul stats_ok p f0 t <> None /\
      disk s (m3max_path p t) = m3max_of mul stats_ok p f0 t /\ m3max_of mul stats_ok p f0 t <> None.
  Proof.
    intros A D t I.
    assert (K : forall o, o = OpTile t \/ o = OpMax t -> In o done).
    { intros o O. apply (a_done _ _ _ _ _ A). pose proof (split_perm (Z.of_nat size) tiles ltac:(lia)) as P. rewrite split_parts in P.
      apply (Permutation_in _ (Permutation_sym P)) in I. apply in_concat in I. destruct I as (c & C & I). apply in_map_iff in C. destruct C as (r & <- & C). apply in_seq in C.
      exists r. split; [lia|]. rewrite D by lia. apply in_cops. exists t. auto. }
    pose proof (a_disk _ _ _ _ _ A) as X. pose proof (a_val _ _ _ _ _ A) as V.
    rewrite !X. change (m3_path p t) with (opath p (OpTile t)). change (m3max_path p t) with (opath p (OpMax t)). rewrite !look_op by auto.
    split; [reflexivity|]. split; [exact (V (OpTile t) (K _ (or_introl eq_refl)))|]. split; [reflexivity|]. exact (V (OpMax t) (K _ (or_intror eq_refl))).
  Qed.
  Lemma ended_done tiles n dn done s : after tiles n dn done s -> others_ended s -> dn 0%nat = cops (part tiles 0) -> forall r, (r < size)%nat -> dn r = cops (part tiles r).
  Proof.
    intros A O D [|r] L; [exact D|]. pose proof (a_proc _ _ _ _ _ A _ L) as P. unfold proc_ok in P. rewrite (O (S r)) in P by lia. exact P.
  Qed.
  Lemma disk_other tiles n dn done s : after tiles n dn done s -> forall x, (forall t, In t tiles -> x <> m3_path p t /\ x <> m3max_path p t) -> disk s x = f0 x.
  Proof.
    intros A x N. rewrite (a_disk _ _ _ _ _ A). apply look_other. intros o O E. apply (a_done _ _ _ _ _ A) in O. destruct O as (r & L & O).
    assert (I : In o (cops (part tiles r))).
    { pose proof (a_proc _ _ _ _ _ A _ L) as P. unfold proc_ok in P. destruct (procs s r); try contradiction.
      - rewrite P in O. destruct O.
      - destruct P as [P _]. rewrite P. apply in_or_app. left. exact O.
      - destruct P as [_ <-]. exact O.
      - destruct P as [_ <-]. exact O.
      - rewrite <- P. exact O.
      - destruct P as [(o' & ops & P & _)|(_ & P & _)]; [rewrite P; apply in_or_app; left; exact O|rewrite <- P; exact O]. }
    apply in_cops in I. destruct I as (t & I & J).
    assert (T : In t tiles).
    { pose proof (split_perm (Z.of_nat size) tiles ltac:(lia)) as Q. rewrite split_parts in Q. apply (Permutation_in _ Q). apply in_concat. exists (part tiles r). split; [|exact I]. apply in_map_iff. exists r. split; [reflexivity|]. apply in_seq. lia. }
    destruct (N t T) as [N1 N2]. destruct J as [-> | ->]; contradiction.
  Qed.
  Lemma fsts tiles : Permutation (concat_fst (lists tiles)) (map (m3_path p) tiles) /\ Permutation (concat_snd (lists tiles)) (map (m3max_path p) tiles).
  Proof.
    unfold concat_fst, concat_snd. rewrite fold_fst, fold_snd. cbn [app]. unfold lists. rewrite !map_map. cbn [converter_files fst snd].
    pose proof (split_perm (Z.of_nat size) tiles ltac:(lia)) as Q. rewrite split_parts in Q.
    split.
    - rewrite <- (map_map (part tiles) (map (m3_path p))), <- concat_map. apply Permutation_map. exact Q.
    - rewrite <- (map_map (part tiles) (map (m3max_path p))), <- concat_map. apply Permutation_map. exact Q.
  Qed.
  Definition can_go (s : world G) : Prop := exists s', step s s'.

  Lemma goes tiles n dn done s r : after tiles n dn done s -> (r < size)%nat ->
    can_go s \/ procs s r = Ended \/ (exists e, procs s r = Raised e) \/ (r = 0%nat /\ exists res, procs s r = Converting [] res /\ gathered size s res = None).
  Proof.
    intros A L. pose proof (a_proc _ _ _ _ _ A r L) as P. unfold proc_ok in P. destruct (procs s r) as [| | |[|o ops] res|a b|b| |e] eqn:E; try contradiction.
    - left. eexists. eapply st_scatter; [exact L|exact E|]. apply (a_in _ _ _ _ _ A). exact L.
    - destruct r as [|r].
      + destruct (gathered size s res) as [results|] eqn:R; [left; eexists; eapply st_gather_root; eassumption|]. right. right. right. split; [reflexivity|]. eauto.
      + left. eexists. eapply st_gather; [|exact E]. lia.
    - left. destruct (cop_run mul stats_ok p (disk s) o) as [f|e] eqn:C; eexists; [eapply st_convert|eapply st_convert_raises]; try eassumption; reflexivity.
    - destruct P as [-> _]. left. destruct (vrt_raises a) eqn:V; eexists; [eapply st_vrt_raises|eapply st_vrt]; try eassumption; reflexivity.
    - destruct P as [-> _]. left. destruct (vrt_raises b) eqn:V; eexists; [eapply st_vrt_max_raises|eapply st_vrt_max]; try eassumption; reflexivity.
    - right. left. reflexivity.
    - right. right. left. eauto.
  Qed.
  Lemma not_gathered (s : world G) res : gathered size s res = None -> exists r, (0 < r < size)%nat /\ outbox s r = None.
  Proof.
    unfold gathered. destruct (all_some _) as [k|] eqn:K; [discriminate|]. intros _. apply all_some_none in K. apply in_map_iff in K. destruct K as (r & E & I). apply in_seq in I. exists r. split; [lia|exact E].
  Qed.
  (** A state without further steps. *)
  Lemma stuck_shape tiles n dn done s : after tiles n dn done s -> ~ can_go s ->
    (forall r, (0 < r < size)%nat -> procs s r = Ended \/ exists e, procs s r = Raised e) /\
    (procs s 0%nat = Ended \/ (exists e, procs s 0%nat = Raised e) \/ exists res r e, procs s 0%nat = Converting [] res /\ (0 < r < size)%nat /\ procs s r = Raised e).
  Proof.
    intros A N. assert (O : forall r, (0 < r < size)%nat -> procs s r = Ended \/ exists e, procs s r = Raised e).
    { intros r L. destruct (goes _ _ _ _ _ r A ltac:(lia)) as [C|[C|[C|(C & _)]]]; [contradiction|auto|auto|lia]. }
    split; [exact O|]. destruct (goes _ _ _ _ _ 0%nat A ltac:(lia)) as [C|[C|[C|(_ & res & C & R)]]]; [contradiction|auto|auto|]. right. right.
    destruct (not_gathered s res R) as (r & L & X). pose proof (a_out _ _ _ _ _ A r L) as Y. rewrite X in Y. destruct (O r L) as [C'|[e C']]; [contradiction|]. exists res, r, e. auto.
  Qed.
  Lemma first_goes : can_go (first f0 m0).
  Proof. eexists. eapply st_mkdir; reflexivity. Qed.
  Lemma second_goes : can_go second.
  Proof. destruct (tile_list_ex l) as [tiles T]. eexists. eapply st_list; [reflexivity|reflexivity|exact T]. Qed.

  Definition converts (t : str) : Prop := m3_of mul stats_ok p f0 t <> None /\ m3max_of mul stats_ok p f0 t <> None.
  Lemma raised_fails tiles n dn done s r e : after tiles n dn done s -> (r < size)%nat -> procs s r = Raised e ->
    (exists t, In t tiles /\ ~ converts t) \/ vrt_raises (concat_fst (lists tiles)) = true \/ vrt_raises (concat_snd (lists tiles)) = true.
  Proof.
    intros A L E. pose proof (a_proc _ _ _ _ _ A r L) as P. unfold proc_ok in P. rewrite E in P. destruct P as [(o & ops & P & N)|(_ & _ & _ & P)]; [|right; exact P]. left.
    assert (I : In o (cops (part tiles r))) by (rewrite P; apply in_elt). apply in_cops in I. destruct I as (t & I & J). exists t.
    split.
    - pose proof (split_perm (Z.of_nat size) tiles ltac:(lia)) as Q. rewrite split_parts in Q. apply (Permutation_in _ Q). apply in_concat. exists (part tiles r). split; [|exact I]. apply in_map_iff. exists r. split; [reflexivity|]. apply in_seq. lia.
    - intros [C1 C2]. destruct J as [-> | ->]; [exact (C1 N)|exact (C2 N)].
  Qed.
  Lemma root_done tiles n dn done s : after tiles n dn done s -> mosaics s <> m0 -> others_ended s /\ dn 0%nat = cops (part tiles 0) /\
    (mosaics s = write_mosaic (vrt_path p (lit "M3")) (concat_fst (lists tiles)) m0 \/
     mosaics s = write_mosaic (vrt_path p (lit "M3_max")) (concat_snd (lists tiles)) (write_mosaic (vrt_path p (lit "M3")) (concat_fst (lists tiles)) m0)).
  Proof.
    intros A N. pose proof (a_root _ _ _ _ _ A) as R. pose proof (a_proc _ _ _ _ _ A 0%nat ltac:(lia)) as P. unfold root_ok in R. unfold proc_ok in P. cbv zeta in R.
    destruct (procs s 0%nat) as [| | |ops res|a b|b| |e]; try contradiction.
    - destruct R as (_ & _ & _ & R). contradiction.
    - destruct R as (R1 & _ & R2). destruct P as [_ P]. auto.
    - destruct R as (R1 & R2). auto.
    - destruct R as [R|(R1 & R2 & _ & R3)]; [contradiction|]. auto.
  Qed.
End Run.
Arguments root_done {G mul stats_ok vrt_raises p size f0 m0} Hsize {tiles n dn done s}.
Arguments all_done {G mul stats_ok vrt_raises p size f0 m0} Hsize {tiles n dn done s}.
Arguments ended_done {G mul stats_ok vrt_raises p size f0 m0} Hsize {tiles n dn done s}.
Arguments disk_other {G mul stats_ok vrt_raises p size f0 m0} Hsize {tiles n dn done s}.
Arguments raised_fails {G mul stats_ok vrt_raises p size f0 m0} Hsize {tiles n dn done s r e}.
Arguments goes {G mul stats_ok vrt_raises p l size f0 m0} Hsize {tiles n dn done s}.
Arguments stuck_shape {G mul stats_ok vrt_raises p l size f0 m0} Hsize {tiles n dn done s}.
Arguments a_count {G mul stats_ok vrt_raises p size f0 m0 tiles n dn done s}.
Arguments a_folders {G mul stats_ok vrt_raises p size f0 m0 tiles n dn done s}.
Arguments a_out {G mul stats_ok vrt_raises p size f0 m0 tiles n dn done s}.
Arguments a_root {G mul stats_ok vrt_raises p size f0 m0 tiles n dn done s}.
Arguments a_proc {G mul stats_ok vrt_raises p size f0 m0 tiles n dn done s}.
Arguments a_warned {G mul stats_ok vrt_raises p size f0 m0 tiles n dn done s}.
