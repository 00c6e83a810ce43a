(** * C100: the converter as several processes. *)
From Coq Require Import Permutation.
From Verif Require Import Base BaseLemmas PyStr NameModel NameSpec NameProofs DistModel DistProofs ConvModel ConvSpec ConvRunSpec ConvRunProofs ConvProps MosSpec MosModel MosProofs.
Open Scope Z_scope.

Lemma mosaics_ne p : mosaic p "M3" <> mosaic p "M3_max".
Proof.
  intros E. unfold mosaic in E. destruct (pjoin_pre p) as (b & Hb). rewrite !Hb in E.
  rewrite (pjoin_M3 b (lit "wind-multipliers.vrt") (lit "M3")), (pjoin_M3 b (lit "wind-multipliers.vrt") (lit "M3_max")) in E;
    try discriminate; try (intros b' Y; apply (f_equal (@rev ascii)) in Y; rewrite rev_app_distr in Y; discriminate).
  apply app_inv_head in E. discriminate.
Qed.

Section Props.
  Context {G : Type} (mul : Q -> Q -> Q) (stats_ok : grid num -> bool) (vrt_raises : list str -> bool).
  Variables (size : nat) (f0 : rstore G) (m0 : str -> option (list str)).

  (** The virtual rasters are written last: when one has been touched every other
      process has ended, and the rasters it refers to, one for every tile, are
      there with their final content. *)
  Theorem C100_mosaics_last p l n s : (1 <= size)%nat ->
    steps mul stats_ok vrt_raises (Some p) false (Some l) size (first f0 m0) n s ->
    forall x, mosaics s x <> m0 x ->
    exists d sources, In d ["M3"; "M3_max"]%string /\ x = mosaic p d /\ mosaics s x = Some sources /\ NoDup sources /\
      (forall y, In y sources <-> exists t, names_tile l t /\ y = tif p d t) /\
      (forall r, (0 < r < size)%nat -> procs s r = Ended) /\
      (forall t, names_tile l t -> disk s (tif p "M3" t) = m3_of mul stats_ok p f0 t /\ m3_of mul stats_ok p f0 t <> None /\
         disk s (tif p "M3_max" t) = m3max_of mul stats_ok p f0 t /\ m3max_of mul stats_ok p f0 t <> None).
  Proof.
    intros H R x N. destruct (reach_cases mul stats_ok vrt_raises p l size f0 m0 H n s R) as [[-> ->]|[[-> ->]|(tiles & dn & done & T & A)]]; [elim N; reflexivity|elim N; reflexivity|].
    assert (N' : mosaics s <> m0) by (intros E; apply N; rewrite E; reflexivity).
    destruct (root_done H A N') as (O & D & M). destruct (tile_list_names l tiles T) as [ND TN].
    destruct (fsts vrt_raises p size m0 H tiles) as [F1 F2].
    assert (AD := all_done H A (ended_done H A O D)).
    assert (S1 : NoDup (concat_fst (lists p size tiles)) /\ forall y, In y (concat_fst (lists p size tiles)) <-> exists t, names_tile l t /\ y = tif p "M3" t).
    { split; [apply (Permutation_NoDup (Permutation_sym F1)); apply FinFun.Injective_map_NoDup; [intros a b; apply m3_path_inj|exact ND]|].
      intros y. split.
      - intros I. apply (Permutation_in _ F1) in I. apply in_map_iff in I. destruct I as (t & <- & I). exists t. split; [apply TN; exact I|reflexivity].
      - intros (t & I & ->). apply (Permutation_in _ (Permutation_sym F1)). apply in_map_iff. exists t. split; [reflexivity|apply TN; exact I]. }
    assert (S2 : NoDup (concat_snd (lists p size tiles)) /\ forall y, In y (concat_snd (lists p size tiles)) <-> exists t, names_tile l t /\ y = tif p "M3_max" t).
    { split; [apply (Permutation_NoDup (Permutation_sym F2)); apply FinFun.Injective_map_NoDup; [intros a b; apply m3max_path_inj|exact ND]|].
      intros y. split.
      - intros I. apply (Permutation_in _ F2) in I. apply in_map_iff in I. destruct I as (t & <- & I). exists t. split; [apply TN; exact I|reflexivity].
      - intros (t & I & ->). apply (Permutation_in _ (Permutation_sym F2)). apply in_map_iff. exists t. split; [reflexivity|apply TN; exact I]. }
    assert (AD' : forall t, names_tile l t -> disk s (tif p "M3" t) = m3_of mul stats_ok p f0 t /\ m3_of mul stats_ok p f0 t <> None /\
         disk s (tif p "M3_max" t) = m3max_of mul stats_ok p f0 t /\ m3max_of mul stats_ok p f0 t <> None) by (intros t I; apply AD, TN, I).
    assert (K : (x = mosaic p "M3" /\ mosaics s x = Some (concat_fst (lists p size tiles))) \/ (x = mosaic p "M3_max" /\ mosaics s x = Some (concat_snd (lists p size tiles)))).
    { destruct M as [M|M]; rewrite M in N |- *; unfold write_mosaic in *; repeat destruct (list_eq_dec ascii_dec x _); try (elim N; reflexivity); auto. }
    destruct K as [[-> K]|[-> K]]; [exists "M3"%string|exists "M3_max"%string]; eexists; (split; [cbn; auto|]); (split; [reflexivity|]); (split; [exact K|]).
    - destruct S1. auto.
    - destruct S2. auto.
  Qed.

  (** When every tile converts, every schedule ends with all processes ended: a
      state in which none can go on is that state, the number of steps is
      bounded, and both virtual rasters are there. *)
  Theorem C100_ends p l n s : (1 <= size)%nat ->
    (forall t, names_tile l t -> m3_of mul stats_ok p f0 t <> None /\ m3max_of mul stats_ok p f0 t <> None) -> (forall k, vrt_raises k = false) ->
    steps mul stats_ok vrt_raises (Some p) false (Some l) size (first f0 m0) n s ->
    (n <= 2 * size + 2 * length l + 4)%nat /\
    ((exists s', step mul stats_ok vrt_raises (Some p) false (Some l) size s s') \/
     ((forall r, (r < size)%nat -> procs s r = Ended) /\ folders s = true /\
      (forall d, In d ["M3"; "M3_max"]%string -> exists sources, mosaics s (mosaic p d) = Some sources /\ NoDup sources /\ forall y, In y sources <-> exists t, names_tile l t /\ y = tif p d t) /\
      (forall t, names_tile l t -> disk s (tif p "M3" t) = m3_of mul stats_ok p f0 t /\ disk s (tif p "M3_max" t) = m3max_of mul stats_ok p f0 t) /\
      (forall x, (forall t, names_tile l t -> x <> tif p "M3" t /\ x <> tif p "M3_max" t) -> disk s x = f0 x))).
  Proof.
    intros H C V R. destruct (reach_cases mul stats_ok vrt_raises p l size f0 m0 H n s R) as [[-> ->]|[[-> ->]|(tiles & dn & done & T & A)]].
    - split; [lia|]. left. apply first_goes.
    - split; [lia|]. left. apply second_goes.
    - split; [pose proof (a_count A) as B; pose proof (tile_list_length l tiles T); unfold bound in B; lia|].
      destruct (tile_list_names l tiles T) as [ND TN].
      assert (NR : forall r e, (r < size)%nat -> procs s r <> Raised e).
      { intros r e L E. destruct (raised_fails H A L E) as [(t & I & F)|[F|F]]; [|rewrite V in F; discriminate|rewrite V in F; discriminate]. apply F. apply C, TN, I. }
      assert (Q : can_go mul stats_ok vrt_raises p l size s \/ forall r, (r < size)%nat -> procs s r = Ended).
      { assert (D : forall k, (k <= size)%nat -> can_go mul stats_ok vrt_raises p l size s \/ forall r, (0 < r < k)%nat -> procs s r = Ended).
        { induction k as [|k IH]; intros K; [right; lia|]. destruct (IH ltac:(lia)) as [Y|Y]; [left; exact Y|]. destruct k as [|k]; [right; lia|].
          destruct (goes (l := l) H (S k) A ltac:(lia)) as [Z|[Z|[[e Z]|[Z _]]]]; [left; exact Z| |elim (NR (S k) e ltac:(lia) Z)|discriminate].
          right. intros r L. destruct (Nat.eq_dec r (S k)) as [->|X]; [exact Z|]. apply Y. lia. }
        destruct (D size (Nat.le_refl _)) as [Y|Y]; [left; exact Y|].
        destruct (goes (l := l) H 0%nat A ltac:(lia)) as [Z|[Z|[[e Z]|[_ (res & Z & X)]]]]; [left; exact Z| |elim (NR 0%nat e ltac:(lia) Z)|].
        - right. intros [|r] L; [exact Z|]. apply Y. lia.
        - exfalso. destruct (not_gathered vrt_raises p l size m0 H s res X) as (r & L & X2). pose proof (a_out A r L) as B. rewrite X2 in B. apply B, Y, L. }
      destruct Q as [Q|Q]; [left; exact Q|right]. split; [exact Q|]. split; [exact (a_folders A)|].
      pose proof (a_root A) as M. unfold root_ok in M. rewrite (Q 0%nat ltac:(lia)) in M. destruct M as [O M].
      pose proof (a_proc A 0%nat ltac:(lia)) as P0. unfold proc_ok in P0. rewrite (Q 0%nat ltac:(lia)) in P0.
      assert (AD := all_done H A (ended_done H A O P0)).
      destruct (fsts vrt_raises p size m0 H tiles) as [F1 F2]. split; [|split].
      + intros d [<-|[<-|[]]].
        * exists (concat_fst (lists p size tiles)). split; [|split].
          -- rewrite M. unfold write_mosaic. destruct (list_eq_dec ascii_dec (mosaic p "M3") (vrt_path p (lit "M3_max"))) as [E|_].
             { elim (mosaics_ne p E). }
             destruct (list_eq_dec ascii_dec (mosaic p "M3") (vrt_path p (lit "M3"))) as [_|E]; [reflexivity|elim E; reflexivity].
          -- apply (Permutation_NoDup (Permutation_sym F1)). apply FinFun.Injective_map_NoDup; [intros a b; apply m3_path_inj|exact ND].
          -- intros y. split.
             ++ intros I. apply (Permutation_in _ F1) in I. apply in_map_iff in I. destruct I as (t & <- & I). exists t. split; [apply TN; exact I|reflexivity].
             ++ intros (t & I & ->). apply (Permutation_in _ (Permutation_sym F1)). apply in_map_iff. exists t. split; [reflexivity|apply TN; exact I].
        * exists (concat_snd (lists p size tiles)). split; [|split].
          -- rewrite M. unfold write_mosaic. destruct (list_eq_dec ascii_dec (mosaic p "M3_max") (vrt_path p (lit "M3_max"))) as [_|E]; [reflexivity|elim E; reflexivity].
          -- apply (Permutation_NoDup (Permutation_sym F2)). apply FinFun.Injective_map_NoDup; [intros a b; apply m3max_path_inj|exact ND].
          -- intros y. split.
             ++ intros I. apply (Permutation_in _ F2) in I. apply in_map_iff in I. destruct I as (t & <- & I). exists t. split; [apply TN; exact I|reflexivity].
             ++ intros (t & I & ->). apply (Permutation_in _ (Permutation_sym F2)). apply in_map_iff. exists t. split; [reflexivity|apply TN; exact I].
      + intros t I. apply TN in I. destruct (AD t I) as (X1 & _ & X2 & _). split; assumption.
      + intros x X. apply (disk_other H A). intros t I. apply X, TN, I.
  Qed.

  (** Refuted: a failure is not reported by all processes.  When a tile does not
      convert no virtual raster is written in any schedule (an old one stays), and
      where no process can go on rank 0 has raised or waits for ever for a process
      that has. *)
  Theorem C100_failing_refuted p l n s t : (1 <= size)%nat -> names_tile l t -> m3_of mul stats_ok p f0 t = None \/ m3max_of mul stats_ok p f0 t = None ->
    steps mul stats_ok vrt_raises (Some p) false (Some l) size (first f0 m0) n s ->
    (n <= 2 * size + 2 * length l + 4)%nat /\ (forall x, mosaics s x = m0 x) /\ procs s 0%nat <> Ended /\
    ((forall s', ~ step mul stats_ok vrt_raises (Some p) false (Some l) size s s') ->
      (exists e, procs s 0%nat = Raised e) \/ exists res r e, procs s 0%nat = Converting [] res /\ (0 < r < size)%nat /\ procs s r = Raised e).
  Proof.
    intros H NT F R. destruct (reach_cases mul stats_ok vrt_raises p l size f0 m0 H n s R) as [[-> ->]|[[-> ->]|(tiles & dn & done & T & A)]].
    - split; [lia|]. split; [reflexivity|]. split; [discriminate|]. intros N. destruct (first_goes mul stats_ok vrt_raises p l size f0 m0) as [s' S]. elim (N s' S).
    - split; [lia|]. split; [reflexivity|]. split; [discriminate|]. intros N. destruct (second_goes mul stats_ok vrt_raises p l size f0 m0) as [s' S]. elim (N s' S).
    - split; [pose proof (a_count A) as B; pose proof (tile_list_length l tiles T); unfold bound in B; lia|].
      destruct (tile_list_names l tiles T) as [ND TN]. apply TN in NT.
      assert (E : forall O : others_ended size s, dn 0%nat = cops (part size tiles 0) -> False).
      { intros O D. destruct (all_done H A (ended_done H A O D) t NT) as (_ & X1 & _ & X2). destruct F; contradiction. }
      assert (M : mosaics s = m0 /\ procs s 0%nat <> Ended).
      { pose proof (a_root A) as Q. pose proof (a_proc A 0%nat ltac:(lia)) as P. unfold root_ok in Q. unfold proc_ok in P. cbv zeta in Q.
        destruct (procs s 0%nat) as [| | |ops res|a b|b| |e]; try contradiction; try (split; [exact Q|discriminate]).
        - destruct Q as (O & _), P as [_ P]. elim (E O P).
        - destruct Q as (O & _), P as [_ P]. elim (E O P).
        - destruct Q as (O & _). elim (E O P).
        - destruct Q as [Q|(O & D & _)]; [split; [exact Q|discriminate]|elim (E O D)]. }
      destruct M as [M1 M2]. split; [intros x; rewrite M1; reflexivity|]. split; [exact M2|]. intros N.
      destruct (stuck_shape (l := l) H A) as [_ [S|S]]; [intros [s' S]; exact (N s' S)|contradiction|exact S].
  Qed.

  (** Without a path, without permission for the folders, or without the folder of
      shielding results rank 0 raises before it hands out work; the others wait
      for ever, and no raster is touched. *)
  Theorem C100_start_refuted path mkdir_raises listing n s : path = None \/ mkdir_raises = true \/ listing = None ->
    steps mul stats_ok vrt_raises path mkdir_raises listing size (first f0 m0) n s ->
    (n <= 2)%nat /\ disk s = f0 /\ mosaics s = m0 /\ (forall r, (0 < r)%nat -> procs s r = Waiting) /\
    ((exists s', step mul stats_ok vrt_raises path mkdir_raises listing size s s') \/
     procs s 0%nat = Raised (match path with None => TypeError | Some _ => OSError end) /\
     folders s = match path with None => false | Some _ => negb mkdir_raises end).
  Proof.
    intros B R.
    assert (K : disk s = f0 /\ mosaics s = m0 /\ (forall r, (0 < r)%nat -> procs s r = Waiting) /\ (forall r, inbox s r = None) /\
      ((n = 0%nat /\ procs s 0%nat = Begin /\ folders s = false) \/ (n = 1%nat /\ procs s 0%nat = Listing /\ folders s = true /\ path <> None /\ mkdir_raises = false /\ listing = None) \/
       ((n = 1 \/ n = 2)%nat /\ procs s 0%nat = Raised (match path with None => TypeError | Some _ => OSError end) /\ folders s = match path with None => false | Some _ => negb mkdir_raises end))).
    { induction R as [|n s s' R IH S]; [repeat split; auto; intros [|r] L; [lia|reflexivity]|].
      destruct IH as (I1 & I2 & I3 & I4 & I5).
      assert (X : forall r q, procs s r = q -> q <> Waiting -> r = 0%nat) by (intros [|r] q E D; [reflexivity|rewrite I3 in E by lia; congruence]).
      assert (Y : forall r q (f : nat -> proc), (0 < r)%nat -> put 0 q f r = f r) by (intros r q f L; apply put_other; lia).
      destruct S as [H H0|p' H H0 H1|p' H H0 H1|H H0|l' ts H H0 H1|r pt L H I|r p' o ops res f L H H0 H1|r p' o ops res e L H H0 H1|r res L H|res results H I|p' a b H H0 H1|a b H H0|p' b H H0 H1|b H H0];
        try (exfalso; destruct I5 as [(_ & Q & _)|[(_ & Q & _)|(_ & Q & _)]]; rewrite Q in *; discriminate).
      - destruct I5 as [(-> & Q & F)|[(_ & Q & _)|(_ & Q & _)]]; try (rewrite Q in H0; discriminate). subst path. cbn [at_proc procs disk mosaics inbox folders]. split; [exact I1|]. split; [exact I2|]. split; [intros r L; rewrite Y by exact L; auto|]. split; [exact I4|]. right. right. rewrite put_same. auto.
      - destruct I5 as [(-> & Q & F)|[(_ & Q & _)|(_ & Q & _)]]; try (rewrite Q in H0; discriminate). subst path mkdir_raises. cbn [at_proc procs disk mosaics inbox folders]. split; [exact I1|]. split; [exact I2|]. split; [intros r L; rewrite Y by exact L; auto|]. split; [exact I4|]. right. right. rewrite put_same. auto.
      - destruct I5 as [(-> & Q & F)|[(_ & Q & _)|(_ & Q & _)]]; try (rewrite Q in H0; discriminate). subst path mkdir_raises. cbn [procs disk mosaics inbox folders]. split; [exact I1|]. split; [exact I2|]. split; [intros r L; rewrite Y by exact L; auto|]. split; [exact I4|]. right. left. rewrite put_same. destruct B as [B|[B|B]]; try discriminate. repeat split; auto. discriminate.
      - destruct I5 as [(_ & Q & _)|[(-> & Q & F & P1 & P2 & P3)|(_ & Q & _)]]; try (rewrite Q in H; discriminate). cbn [at_proc procs disk mosaics inbox folders]. split; [exact I1|]. split; [exact I2|]. split; [intros r L; rewrite Y by exact L; auto|]. split; [exact I4|]. right. right. rewrite put_same, P2. destruct path; [auto|contradiction].
      - destruct I5 as [(_ & Q & _)|[(-> & Q & F & P1 & P2 & P3)|(_ & Q & _)]]; try (rewrite Q in H; discriminate). congruence.
      - rewrite I4 in I. discriminate.
      - assert (r = 0%nat) by (eapply X; [eassumption|discriminate]). subst r. destruct I5 as [(_ & Q & _)|[(_ & Q & _)|(_ & Q & _)]]; rewrite Q in *; discriminate.
      - assert (r = 0%nat) by (eapply X; [eassumption|discriminate]). subst r. destruct I5 as [(_ & Q & _)|[(_ & Q & _)|(_ & Q & _)]]; rewrite Q in *; discriminate.
      - assert (r = 0%nat) by (eapply X; [eassumption|discriminate]). lia. }
    destruct K as (K1 & K2 & K3 & K4 & K5). split; [lia|]. repeat (split; [assumption|]).
    destruct K5 as [(-> & Q & F)|[(-> & Q & F & P1 & P2 & P3)|(_ & Q & F)]]; [left|left|right; auto].
    - destruct path as [p|]; [destruct mkdir_raises|]; eexists; [eapply st_mkdir_raises|eapply st_mkdir|eapply st_no_path]; try eassumption; reflexivity.
    - eexists. eapply st_list_raises; eassumption.
  Qed.

  (** Refuted: the warning that there is nothing to put together is never given;
      with an empty folder both virtual rasters are built from nothing. *)
  Theorem C100_warning_refuted p l n s : (1 <= size)%nat ->
    steps mul stats_ok vrt_raises (Some p) false (Some l) size (first f0 m0) n s ->
    warned s = false /\ (l = [] -> procs s 0%nat = Ended -> mosaics s (mosaic p "M3") = Some [] /\ mosaics s (mosaic p "M3_max") = Some []).
  Proof.
    intros H R. destruct (reach_cases mul stats_ok vrt_raises p l size f0 m0 H n s R) as [[-> ->]|[[-> ->]|(tiles & dn & done & T & A)]]; [split; [reflexivity|discriminate]|split; [reflexivity|discriminate]|].
    split; [exact (a_warned A)|]. intros -> E. pose proof (a_root A) as M. unfold root_ok in M. rewrite E in M. destruct M as [_ M].
    assert (N : tiles = []) by (destruct tiles as [|t ts]; [reflexivity|]; destruct T as [_ T]; destruct (proj1 (T t) (or_introl eq_refl)) as (f & [] & _)).
    subst tiles. destruct (fsts vrt_raises p size m0 H []) as [F1 F2]. cbn [map] in F1, F2. apply Permutation_sym, Permutation_nil in F1. apply Permutation_sym, Permutation_nil in F2.
    rewrite M, F1, F2. unfold write_mosaic. split.
    - destruct (list_eq_dec ascii_dec (mosaic p "M3") (vrt_path p (lit "M3_max"))) as [X|_]; [elim (mosaics_ne p X)|]. destruct (list_eq_dec ascii_dec (mosaic p "M3") (vrt_path p (lit "M3"))) as [_|X]; [reflexivity|elim X; reflexivity].
    - destruct (list_eq_dec ascii_dec (mosaic p "M3_max") (vrt_path p (lit "M3_max"))) as [_|X]; [reflexivity|elim X; reflexivity].
  Qed.

  (** ... so every run can be completed, and cannot be continued for ever. *)
  Theorem C100_completes p l n s : (1 <= size)%nat ->
    (forall t, names_tile l t -> m3_of mul stats_ok p f0 t <> None /\ m3max_of mul stats_ok p f0 t <> None) -> (forall k, vrt_raises k = false) ->
    steps mul stats_ok vrt_raises (Some p) false (Some l) size (first f0 m0) n s ->
    exists n' s', steps mul stats_ok vrt_raises (Some p) false (Some l) size (first f0 m0) n' s' /\ (n <= n')%nat /\ forall r, (r < size)%nat -> procs s' r = Ended.
  Proof.
    intros H C V. remember (2 * size + 2 * length l + 4 - n)%nat as k eqn:K. revert n s K. induction k as [k IH] using lt_wf_ind. intros n s K R.
    destruct (C100_ends p l n s H C V R) as [B [[s' S]|[E _]]].
    - assert (R' := steps_next _ _ _ _ _ _ _ _ _ _ _ R S). destruct (C100_ends p l _ _ H C V R') as [B' _].
      destruct (IH (2 * size + 2 * length l + 4 - Datatypes.S n)%nat ltac:(lia) _ _ eq_refl R') as (n' & s'' & R'' & L & E). exists n', s''. split; [exact R''|]. split; [lia|exact E].
    - exists n, s. auto.
  Qed.
End Props.
Print Assumptions C100_mosaics_last.
Print Assumptions C100_ends.
Print Assumptions C100_completes.
Print Assumptions C100_failing_refuted.
Print Assumptions C100_start_refuted.
Print Assumptions C100_warning_refuted.

(** A folder with files of the tile t and a stray file. *)
Example C100_ex : let l := [lit "t_ms_n.nc"; lit "t_ms_e.nc"] in
  names_tile l (lit "t") /\
  forall t, names_tile l t -> m3_of Qmult ex_stats (lit "out") ex_files t <> None /\ m3max_of Qmult ex_stats (lit "out") ex_files t <> None.
Proof.
  cbv zeta. split; [exists (lit "t_ms_n.nc"); split; [left; reflexivity|]; split; [intros [E|[]]; discriminate|right; exists (lit "ms_n.nc"); reflexivity]|].
  intros t (f & I & E). apply tile_before in E. destruct I as [<-|[<-|[]]]; vm_compute in E; subst t.
  - assert (X : match m3_of Qmult ex_stats (lit "out") ex_files (lit "t"), m3max_of Qmult ex_stats (lit "out") ex_files (lit "t") with Some _, Some _ => true | _, _ => false end = true) by (vm_compute; reflexivity).
    change ["t"%char] with (lit "t"). destruct (m3_of _ _ _ _ _); [|discriminate]. destruct (m3max_of _ _ _ _ _); [|discriminate]. split; discriminate.
  - assert (X : match m3_of Qmult ex_stats (lit "out") ex_files (lit "t"), m3max_of Qmult ex_stats (lit "out") ex_files (lit "t") with Some _, Some _ => true | _, _ => false end = true) by (vm_compute; reflexivity).
    change ["t"%char] with (lit "t"). destruct (m3_of _ _ _ _ _); [|discriminate]. destruct (m3max_of _ _ _ _ _); [|discriminate]. split; discriminate.
Qed.

Lemma waits_stuck {G} mul stats_ok vrt_raises path mkdir_raises listing (s s' : world G) res e : procs s 0%nat = Converting [] res -> procs s 1%nat = Raised e -> outbox s 1%nat = None ->
  ~ step mul stats_ok vrt_raises path mkdir_raises listing 2 s s'.
Proof.
  intros E0 E1 O S. destruct S as [H H0|p' H H0 H1|p' H H0 H1|H H0|l' ts H H0 H1|r pt L H I|r p' o ops res' f L H H0 H1|r p' o ops res' e' L H H0 H1|r res' L H|res' results H I|p' a b H H0 H1|a b H H0|p' b H H0 H1|b H H0]; try congruence.
  - destruct r as [|[|r]]; [congruence|congruence|lia].
  - destruct r as [|[|r]]; [congruence|congruence|lia].
  - destruct r as [|[|r]]; [congruence|congruence|lia].
  - destruct r as [|[|r]]; [lia|congruence|lia].
  - unfold gathered in I. cbn [Nat.sub seq map all_some] in I. rewrite O in I. discriminate.
Qed.
(** With a stray file among the results, two processes: rank 1 raises and rank 0
    waits for it for ever, having converted its own tile. *)
Example C100_ex_waits : let l := [lit "t_ms_n.nc"; lit "notes.txt"] in
  m3_of Qmult ex_stats (lit "out") ex_files (lit "notes.txt") = None /\
  exists n s res e, steps Qmult ex_stats (fun _ => false) (Some (lit "out")) false (Some l) 2 (first ex_files (fun _ => None)) n s /\
    procs s 0%nat = Converting [] res /\ procs s 1%nat = Raised e /\
    forall s', ~ step Qmult ex_stats (fun _ => false) (Some (lit "out")) false (Some l) 2 s s'.
Proof.
  cbv zeta. split; [vm_compute; reflexivity|].
  assert (T : tile_list [lit "t_ms_n.nc"; lit "notes.txt"] [lit "t"; lit "notes.txt"]).
  { split; [repeat constructor; cbn; intuition discriminate|]. intros t. split.
    - intros [<-|[<-|[]]]; [exists (lit "t_ms_n.nc")|exists (lit "notes.txt")]; (split; [cbn; auto|vm_compute; reflexivity]).
    - intros (f & [<-|[<-|[]]] & ->); vm_compute; auto. }
  assert (K1 : match cop_run Qmult ex_stats (lit "out") ex_files (OpTile (lit "t")) with Ok f => match cop_run Qmult ex_stats (lit "out") f (OpMax (lit "t")) with Ok _ => true | _ => false end | _ => false end = true) by (vm_compute; reflexivity).
  assert (K2 : match cop_run Qmult ex_stats (lit "out") ex_files (OpTile (lit "notes.txt")) with Ok _ => false | _ => true end = true) by (vm_compute; reflexivity).
  destruct (cop_run Qmult ex_stats (lit "out") ex_files (OpTile (lit "notes.txt"))) as [?|e] eqn:E2; [discriminate|].
  destruct (cop_run Qmult ex_stats (lit "out") ex_files (OpTile (lit "t"))) as [f1|?] eqn:E1; [|discriminate].
  destruct (cop_run Qmult ex_stats (lit "out") f1 (OpMax (lit "t"))) as [f2|?] eqn:E3; [|discriminate].
  do 4 eexists. split; [|split; [|split]].
  - eapply steps_next. eapply steps_next. eapply steps_next. eapply steps_next. eapply steps_next. eapply steps_next. eapply steps_next. apply steps_first.
    + eapply st_mkdir; reflexivity.
    + eapply st_list; [reflexivity|reflexivity|exact T].
    + eapply (st_scatter _ _ _ _ _ _ _ _ 1%nat); [lia|reflexivity|reflexivity].
    + eapply (st_convert_raises _ _ _ _ _ _ _ _ 1%nat); [lia|reflexivity|reflexivity|exact E2].
    + eapply (st_scatter _ _ _ _ _ _ _ _ 0%nat); [lia|reflexivity|reflexivity].
    + eapply (st_convert _ _ _ _ _ _ _ _ 0%nat); [lia|reflexivity|reflexivity|exact E1].
    + eapply (st_convert _ _ _ _ _ _ _ _ 0%nat); [lia|reflexivity|reflexivity|exact E3].
  - reflexivity.
  - reflexivity.
  - intros s'. eapply waits_stuck; reflexivity.
Qed.
