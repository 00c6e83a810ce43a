From Verif Require Import Base BaseLemmas PyStr NameModel NameSpec NameProofs PipeSpec ConvModel ConvSpec.
Open Scope Z_scope.

Lemma ltb_t a b : a < b -> (a <? b) = true. Proof. apply Z.ltb_lt. Qed.
Lemma ltb_f a b : b <= a -> (a <? b) = false. Proof. apply Z.ltb_ge. Qed.

Lemma write_fits (b a : grid num) : g_cols a <= g_cols b -> g_rows a <= g_rows b ->
  write_array b a = Ok (Grid (g_rows b) (g_cols b) (fun r c =>
           if (r <? g_rows a) && (c <? g_cols a) then g_at a r c else g_at b r c)).
Proof. intros H1 H2. unfold write_array. rewrite (ltb_f _ _ H1), (ltb_f _ _ H2). reflexivity. Qed.

Lemma write_too_big (b a : grid num) : g_cols b < g_cols a \/ g_rows b < g_rows a -> write_array b a = Err ValueError.
Proof.
  intros H. unfold write_array. destruct H as [H|H]; rewrite (ltb_t _ _ H); [reflexivity|rewrite orb_true_r; reflexivity].
Qed.

Lemma bdim_same a : bdim a a = Some a.
Proof. unfold bdim. rewrite Z.eqb_refl. reflexivity. Qed.

Section CP.
  Context {G : Type}.
  Variables (mul : Q -> Q -> Q) (stats_ok : grid num -> bool).
  Variables (f : rstore G) (path tile : str) (nx ny : Z).

  Definition ones : grid num := Grid ny nx (fun r c => if (r <? nx) && (c <? ny) then Num 1 else Num 0).
  Definition eff (ty : mtype) (d : dir) : grid num :=
    match f (convert_nc path tile ty d) with
    | Some ds => match r_bands ds with b :: _ => b_data b | [] => ones end
    | None => ones
    end.
  Definition usable (ty : mtype) (d : dir) : Prop :=
    match f (convert_nc path tile ty d) with
    | Some ds => exists b rest, r_bands ds = b :: rest /\ g_cols (b_data b) = nx /\ g_rows (b_data b) = ny
    | None => nx = ny
    end.

  Lemma eff_shape ty d : usable ty d -> g_cols (eff ty d) = nx /\ g_rows (eff ty d) = ny.
  Proof.
    unfold usable, eff. destruct (f _) as [ds|]; [|intros; split; reflexivity].
    intros (b & rest & -> & H1 & H2). auto.
  Qed.

  Lemma read_type_later t bands ty d : usable ty d ->
    read_type f path tile nx ny d (Some t, false, bands) ty = Ok (Some t, false, bands ++ [eff ty d]).
  Proof.
    unfold usable, read_type, eff. destruct (f _) as [ds|].
    - intros (b & rest & E & _). cbn [bind]. unfold read_band. rewrite E. reflexivity.
    - intros Hn. rewrite write_fits by (cbn; lia). reflexivity.
  Qed.

  Lemma read_type_first ds ty d : f (convert_nc path tile ty d) = Some ds -> usable ty d ->
    read_type f path tile nx ny d (None, true, []) ty = Ok (Some (r_geo ds), false, [eff ty d]).
  Proof.
    intros E. unfold usable, read_type, eff. rewrite E.
    intros (b & rest & Eb & _). cbn [bind]. unfold read_band. rewrite Eb. reflexivity.
  Qed.

  Definition cellp (d : dir) (r c : Z) : num :=
    nmul mul (nmul mul (bget (eff Shielding d) r c) (bget (eff Terrain d) r c)) (bget (eff Topographic d) r c).
  Definition prodg (d : dir) : grid num := Grid ny nx (fun i j =>
    nmul mul (bget (Grid ny nx (fun i j => nmul mul (bget (eff Shielding d) i j) (bget (eff Terrain d) i j))) i j)
             (bget (eff Topographic d) i j)).

  Lemma multiply_three d : (forall ty, usable ty d) ->
    multiply_all mul [eff Shielding d; eff Terrain d; eff Topographic d] = Ok (prodg d).
  Proof.
    intros H. unfold multiply_all, foldM, np_multiply.
    destruct (eff_shape _ _ (H Shielding)) as [A1 A2], (eff_shape _ _ (H Terrain)) as [B1 B2], (eff_shape _ _ (H Topographic)) as [C1 C2].
    rewrite A1, A2, B1, B2, C1, C2, !bdim_same. cbn [bind g_rows g_cols]. rewrite !bdim_same. reflexivity.
  Qed.

  Lemma bget_in (g : grid num) r c : 0 <= r < g_rows g -> 0 <= c < g_cols g -> bget g r c = g_at g r c.
  Proof.
    intros H1 H2. unfold bget. f_equal.
    - destruct (Z.eqb_spec (g_rows g) 1); lia.
    - destruct (Z.eqb_spec (g_cols g) 1); lia.
  Qed.

  Definition outg (d : dir) : grid num := Grid ny nx (fun r c =>
    if (r <? ny) && (c <? nx) then g_at (prodg d) r c
    else if (r <? ny) && (c <? nx) then g_at (prodg d) (ny - 1 - r) c else Num 0).

  Lemma prodg_at d r c : (forall ty, usable ty d) -> 0 <= r < ny -> 0 <= c < nx ->
    g_at (outg d) r c = product3 mul (g_at (eff Shielding d) r c) (g_at (eff Terrain d) r c) (g_at (eff Topographic d) r c).
  Proof.
    intros H Hr Hc. unfold outg. cbn [g_at]. rewrite (ltb_t r ny), (ltb_t c nx) by lia. cbn [andb].
    unfold prodg. cbn [g_at]. rewrite bget_in by (cbn; lia). cbn [g_at].
    destruct (eff_shape _ _ (H Shielding)) as [A1 A2], (eff_shape _ _ (H Terrain)) as [B1 B2], (eff_shape _ _ (H Topographic)) as [C1 C2].
    rewrite !bget_in by lia. unfold product3, nmul.
    destruct (g_at (eff Shielding d) r c), (g_at (eff Terrain d) r c), (g_at (eff Topographic d) r c); reflexivity.
  Qed.

  Lemma write_band_eq d : write_band stats_ok nx ny d (prodg d) =
    if stats_ok (outg d) then Ok (Band (dir_str d) (outg d)) else Err RuntimeError.
  Proof.
    unfold write_band. rewrite write_fits by (cbn; lia). cbn [g_rows g_cols flip_rows prodg new_band].
    rewrite write_fits by (cbn; lia). reflexivity.
  Qed.

  Lemma convert_dir_later t out d : (forall ty, usable ty d) ->
    convert_dir mul stats_ok f path tile nx ny (Some t, false, out) d =
    if stats_ok (outg d) then Ok (Some t, false, out ++ [Band (dir_str d) (outg d)]) else Err RuntimeError.
  Proof.
    intros H. unfold convert_dir, types. cbn [foldM].
    rewrite (read_type_later t [] Shielding d (H _)). cbn [bind app].
    rewrite (read_type_later t _ Terrain d (H _)). cbn [bind app].
    rewrite (read_type_later t _ Topographic d (H _)). cbn [bind app].
    rewrite (multiply_three d H). cbn [bind]. rewrite write_band_eq. destruct (stats_ok (outg d)); reflexivity.
  Qed.

  Lemma convert_dir_first ds d : f (convert_nc path tile Shielding d) = Some ds -> (forall ty, usable ty d) ->
    convert_dir mul stats_ok f path tile nx ny (None, true, []) d =
    if stats_ok (outg d) then Ok (Some (r_geo ds), false, [Band (dir_str d) (outg d)]) else Err RuntimeError.
  Proof.
    intros E H. unfold convert_dir, types. cbn [foldM].
    rewrite (read_type_first ds Shielding d E (H _)). cbn [bind app].
    rewrite (read_type_later _ _ Terrain d (H _)). cbn [bind app].
    rewrite (read_type_later _ _ Topographic d (H _)). cbn [bind app].
    rewrite (multiply_three d H). cbn [bind]. rewrite write_band_eq. destruct (stats_ok (outg d)); reflexivity.
  Qed.

  Lemma fold_later t : forall ds out, (forall d ty, In d ds -> usable ty d) ->
    foldM (convert_dir mul stats_ok f path tile nx ny) ds (Some t, false, out) =
    if forallb (fun d => stats_ok (outg d)) ds then Ok (Some t, false, out ++ map (fun d => Band (dir_str d) (outg d)) ds)
    else Err RuntimeError.
  Proof.
    induction ds as [|d ds IH]; intros out H; cbn [foldM forallb map].
    - rewrite app_nil_r. reflexivity.
    - rewrite convert_dir_later by (intros ty; apply H; left; reflexivity).
      destruct (stats_ok (outg d)); cbn [bind andb]; [|reflexivity].
      rewrite IH by (intros; apply H; right; assumption). rewrite <- app_assoc. reflexivity.
  Qed.

  (** Everything readable: the result. *)
  Lemma m3_ok e n b rest :
    f (convert_nc path tile Shielding E_) = Some e ->
    f (convert_nc path tile Shielding N_) = Some n -> r_bands n = b :: rest ->
    g_cols (b_data b) = nx -> g_rows (b_data b) = ny ->
    (forall ty d, usable ty d) ->
    m3_raster mul stats_ok f path tile =
    if forallb (fun d => stats_ok (outg d)) directions
    then Ok (Raster (r_geo e) (map (fun d => Band (dir_str d) (outg d)) directions)) else Err RuntimeError.
  Proof.
    intros He Hn Hb Hx Hy H. unfold m3_raster, gopen. rewrite Hn. cbn [bind]. unfold read_band at 1.
    rewrite Hb. cbn [Z.sub Z.to_nat nth_error bind Z.add Z.opp Z.pos_sub]. rewrite Hx, Hy.
    assert (K : foldM (convert_dir mul stats_ok f path tile nx ny) directions (None, true, []) =
      if forallb (fun d => stats_ok (outg d)) directions
      then Ok (Some (r_geo e), false, map (fun d => Band (dir_str d) (outg d)) directions) else Err RuntimeError).
    { change (foldM (convert_dir mul stats_ok f path tile nx ny) directions (None, true, [])) with
        (bind (convert_dir mul stats_ok f path tile nx ny (None, true, []) E_)
          (foldM (convert_dir mul stats_ok f path tile nx ny) [N_; NE; NW; S_; SE; SW; W_])).
      rewrite (convert_dir_first e E_ He) by auto.
      change (forallb (fun d => stats_ok (outg d)) directions) with
        (stats_ok (outg E_) && forallb (fun d => stats_ok (outg d)) [N_; NE; NW; S_; SE; SW; W_]).
      destruct (stats_ok (outg E_)); cbn [bind andb]; [|reflexivity].
      rewrite fold_later by auto. destruct (forallb _ _); reflexivity. }
    rewrite K. destruct (forallb _ _); reflexivity.
  Qed.
End CP.

Lemma foldM_fails {A S} (step : S -> A -> res S) (x : A) : (forall s, exists e, step s x = Err e) ->
  forall l s, In x l -> exists e, foldM step l s = Err e.
Proof.
  intros H. induction l as [|y l IH]; intros s Hx; [destruct Hx|]. cbn [foldM].
  destruct Hx as [->|Hx].
  - destruct (H s) as (e & ->). exists e. reflexivity.
  - destruct (step s y) as [s'|e]; cbn [bind]; [apply IH; exact Hx|exists e; reflexivity].
Qed.

Section CP2.
  Context {G : Type}.
  Variables (mul : Q -> Q -> Q) (stats_ok : grid num -> bool).
  Hypothesis Hst : stats_spec stats_ok.
  Variables (f : rstore G) (path tile : str) (nx ny : Z).

  (** The multiplier values of a tile, with missing files standing for ones. *)
  Variable v : mtype -> dir -> Z -> Z -> num.
  Definition input_ok (ty : mtype) (d : dir) : Prop :=
    holds f (convert_nc path tile ty d) nx ny (v ty d) \/
    (f (convert_nc path tile ty d) = None /\ nx = ny /\ forall r c, v ty d r c = Num 1).
  Hypothesis Hin : forall ty d, input_ok ty d.

  Lemma in_usable ty d : usable f path tile nx ny ty d.
  Proof.
    unfold usable. destruct (Hin ty d) as [(ds & b & rest & E & Eb & H1 & H2 & _)|(E & H & _)]; rewrite E; [|exact H].
    exists b, rest. auto.
  Qed.

  Lemma in_eff ty d r c : 0 <= r < ny -> 0 <= c < nx -> g_at (eff f path tile nx ny ty d) r c = v ty d r c.
  Proof.
    intros Hr Hc. unfold eff. destruct (Hin ty d) as [(ds & b & rest & E & Eb & H1 & H2 & H3)|(E & H & Hv)]; rewrite E.
    - rewrite Eb. apply H3; assumption.
    - rewrite Hv. unfold ones. cbn [g_at]. rewrite (ltb_t r nx), (ltb_t c ny) by lia. reflexivity.
  Qed.

  Definition cell3 (d : dir) (r c : Z) : num := product3 mul (v Shielding d r c) (v Terrain d r c) (v Topographic d r c).
  Lemma out_at d r c : 0 <= r < ny -> 0 <= c < nx -> g_at (outg mul f path tile nx ny d) r c = cell3 d r c.
  Proof. intros Hr Hc. rewrite prodg_at by (auto using in_usable). rewrite !in_eff by assumption. reflexivity. Qed.

  Lemma out_stats d : stats_ok (outg mul f path tile nx ny d) = true <->
    exists r c q, 0 <= r < ny /\ 0 <= c < nx /\ cell3 d r c = Num q.
  Proof.
    rewrite (Hst _). split.
    - intros (r & c & q & [H1 H2] & E). cbn [outg g_rows g_cols] in H1, H2. exists r, c, q. rewrite out_at in E by assumption. auto.
    - intros (r & c & q & H1 & H2 & E). exists r, c, q. split; [split; assumption|]. rewrite out_at by assumption. exact E.
  Qed.

  Lemma dirs_all d : In d directions.
  Proof. destruct d; cbn; tauto. Qed.

  Variables (e : raster G).
  Hypothesis He : f (convert_nc path tile Shielding E_) = Some e.
  Hypothesis Hn : f (convert_nc path tile Shielding N_) <> None.

  Lemma m3_main : m3_raster mul stats_ok f path tile =
    if forallb (fun d => stats_ok (outg mul f path tile nx ny d)) directions
    then Ok (Raster (r_geo e) (map (fun d => Band (dir_str d) (outg mul f path tile nx ny d)) directions)) else Err RuntimeError.
  Proof.
    destruct (Hin Shielding N_) as [(n & b & rest & E & Eb & H1 & H2 & _)|(E & _)]; [|contradiction].
    eapply m3_ok; eauto using in_usable.
  Qed.

  Lemma m3_success :
    (forall d, exists r c q, 0 <= r < ny /\ 0 <= c < nx /\ cell3 d r c = Num q) ->
    exists bs, m3_raster mul stats_ok f path tile = Ok (Raster (r_geo e) bs) /\
      Forall2 (fun d b => is_band b (dir_str d) nx ny (cell3 d)) band_dirs bs.
  Proof.
    intros H. rewrite m3_main.
    replace (forallb _ _) with true.
    - eexists. split; [reflexivity|]. change band_dirs with directions.
      induction directions as [|d l IH]; constructor; [|exact IH].
      split; [reflexivity|]. split; [reflexivity|]. split; [reflexivity|]. intros r c Hr Hc. apply out_at; assumption.
    - symmetry. apply forallb_forall. intros d _. apply out_stats. apply H.
  Qed.

  Lemma m3_failure :
    ~ (forall d, exists r c q, 0 <= r < ny /\ 0 <= c < nx /\ cell3 d r c = Num q) ->
    m3_raster mul stats_ok f path tile = Err RuntimeError.
  Proof.
    intros H. rewrite m3_main. destruct (forallb _ _) eqn:E; [|reflexivity].
    exfalso. apply H. intros d. apply out_stats. rewrite forallb_forall in E. apply E. apply dirs_all.
  Qed.
End CP2.

(** Missing files. *)
Section CP3.
  Context {G : Type}.
  Variables (mul : Q -> Q -> Q) (stats_ok : grid num -> bool).
  Variables (f : rstore G) (path tile : str).

  Lemma m3_no_north : f (convert_nc path tile Shielding N_) = None -> m3_raster mul stats_ok f path tile = Err RuntimeError.
  Proof. intros H. unfold m3_raster, gopen. rewrite H. reflexivity. Qed.

  Lemma m3_no_east nx ny v : holds f (convert_nc path tile Shielding N_) nx ny v ->
    f (convert_nc path tile Shielding E_) = None -> m3_raster mul stats_ok f path tile = Err UnboundLocalError.
  Proof.
    intros (n & b & rest & E & Eb & _) H. unfold m3_raster, gopen. rewrite E. cbn [bind]. unfold read_band at 1. rewrite Eb.
    change (Z.to_nat (1 - 1)) with 0%nat. cbn [nth_error bind].
    change (foldM ?F directions ?S0) with (bind (F S0 E_) (foldM F [N_; NE; NW; S_; SE; SW; W_])).
    unfold convert_dir at 1. unfold types.
    change (foldM ?F [Shielding; Terrain; Topographic] ?S0) with (bind (F S0 Shielding) (foldM F [Terrain; Topographic])).
    unfold read_type at 1. rewrite H. reflexivity.
  Qed.

  Lemma m3_not_square nx ny v ty d : holds f (convert_nc path tile Shielding N_) nx ny v ->
    f (convert_nc path tile ty d) = None -> nx <> ny -> exists e, m3_raster mul stats_ok f path tile = Err e.
  Proof.
    intros (n & b & rest & E & Eb & H1 & H2 & _) H Hne. unfold m3_raster, gopen. rewrite E. cbn [bind]. unfold read_band at 1. rewrite Eb.
    change (Z.to_nat (1 - 1)) with 0%nat. cbn [nth_error bind]. rewrite H1, H2.
    destruct (foldM_fails (convert_dir mul stats_ok f path tile nx ny) d) with (l := directions) (s := (@None G, true, @nil band)) as (er & ->).
    - intros [[tr fi] out]. unfold convert_dir.
      destruct (foldM_fails (read_type f path tile nx ny d) ty) with (l := types) (s := (tr, fi, @nil (grid num))) as (er & ->).
      + intros [[tr' fi'] bs]. unfold read_type. rewrite H. destruct tr' as [t|]; [|eexists; reflexivity].
        rewrite write_too_big by (cbn; lia). eexists. reflexivity.
      + destruct ty; cbn; tauto.
      + exists er. reflexivity.
    - destruct d; cbn; tauto.
    - exists er. reflexivity.
  Qed.
End CP3.

(** ** Maxima *)
Lemma fold_max_spec (l : list num) : forall x0, is_max (x0 :: l) (fold_left nmax l x0).
Proof.
  induction l as [|y l IH]; intros x0; cbn [fold_left].
  - split; [intros [->|[]]; reflexivity|]. intros H. destruct x0 as [|q]; [exfalso; apply H; left; reflexivity|].
    exists q. split; [reflexivity|]. split; [left; reflexivity|]. intros x [E|[]]. injection E as <-. apply Qle_refl.
  - destruct (IH (nmax x0 y)) as [A B]. split.
    + intros [->|[->|H]]; apply A; [left; reflexivity|left; destruct x0; reflexivity|right; exact H].
    + intros H. destruct x0 as [|a]; [exfalso; apply H; left; reflexivity|].
      destruct y as [|b]; [exfalso; apply H; right; left; reflexivity|]. cbn [nmax] in *.
      assert (N : ~ In NaN (Num (if Qltb a b then b else a) :: l)) by (intros [C|C]; [discriminate|apply H; right; right; exact C]).
      destruct (B N) as (q & Eq & Hq & Hmax). exists q. split; [exact Eq|].
      destruct (Qltb a b) eqn:Eab.
      * split; [destruct Hq as [Hq|Hq]; [right; left; exact Hq|right; right; exact Hq]|].
        apply Qltb_lt in Eab. intros x [E|[E|E]].
        -- injection E as <-. apply Qle_trans with b; [lra|]. apply Hmax. left. reflexivity.
        -- injection E as <-. apply Hmax. left. reflexivity.
        -- apply Hmax. right. exact E.
      * split; [destruct Hq as [Hq|Hq]; [left; exact Hq|right; right; exact Hq]|].
        apply Qltb_ge in Eab. intros x [E|[E|E]].
        -- injection E as <-. apply Hmax. left. reflexivity.
        -- injection E as <-. apply Qle_trans with a; [lra|]. apply Hmax. left. reflexivity.
        -- apply Hmax. right. exact E.
Qed.

Lemma max_cell_spec (b : grid num) bs r c : is_max (map (fun g => g_at g r c) (b :: bs)) (max_cell (b :: bs) r c).
Proof.
  unfold max_cell. cbn [map].
  replace (fold_left _ bs (g_at b r c)) with (fold_left nmax (map (fun g => g_at g r c) bs) (g_at b r c)); [apply fold_max_spec|].
  generalize (g_at b r c). induction bs as [|x bs IH]; intros y; [reflexivity|]. cbn [map fold_left]. apply IH.
Qed.

Lemma Forall2_len {A B} (R : A -> B -> Prop) l l' : Forall2 R l l' -> length l = length l'.
Proof. induction 1; cbn; congruence. Qed.

Lemma read_eight {G} (geo : G) bs : length bs = 8%nat ->
  mapM (fun i => read_band (Raster geo bs) (i + 1)) (zrange (zlen directions)) = Ok (map b_data bs).
Proof.
  intros L. do 9 (destruct bs as [|? bs]; [try discriminate; try reflexivity|]). discriminate.
Qed.

Section CMax.
  Context {G : Type}.
  Variable stats_ok : grid num -> bool.
  Hypothesis Hst : stats_spec stats_ok.
  Variables (f : rstore G) (path tile : str) (nx ny : Z) (geo : G) (bs : list band) (v : dir -> Z -> Z -> num).
  Hypothesis Hf : f (m3_path path tile) = Some (Raster geo bs).
  Hypothesis Hbs : Forall2 (fun d b => is_band b (dir_str d) nx ny (v d)) band_dirs bs.

  Definition maxg : grid num := Grid ny nx (fun r c =>
    if (r <? ny) && (c <? nx) then max_cell (map b_data bs) r c else Num 0).

  Lemma max_at r c : 0 <= r < ny -> 0 <= c < nx -> is_max (map (fun d => v d r c) band_dirs) (g_at maxg r c).
  Proof.
    intros Hr Hc. unfold maxg. cbn [g_at]. rewrite (ltb_t r ny), (ltb_t c nx) by lia. cbn [andb].
    assert (E : map (fun d => v d r c) band_dirs = map (fun g => g_at g r c) (map b_data bs)).
    { clear Hf. revert Hbs. generalize band_dirs. intros l H. induction H as [|d b l l' (_ & _ & _ & H) _ IH]; [reflexivity|].
      cbn [map]. rewrite (H r c Hr Hc), IH. reflexivity. }
    rewrite E. destruct (map b_data bs) as [|b l]; [discriminate|]. apply max_cell_spec.
  Qed.

  Lemma m3max_eq : m3max_raster stats_ok f path tile =
    if stats_ok maxg then Ok (Raster geo [Band (lit "Maximum of all directions") maxg; Band [] (Grid ny nx (fun _ _ => Num 0))])
    else Err RuntimeError.
  Proof.
    unfold m3max_raster, gopen. rewrite Hf. cbn [bind].
    assert (Hs : forallb (fun g => (g_cols g =? nx) && (g_rows g =? ny)) (map b_data bs) = true).
    { apply forallb_forall. intros g Hg. apply in_map_iff in Hg. destruct Hg as (b & <- & Hb).
      assert (X : exists d, is_band b (dir_str d) nx ny (v d)).
      { clear Hf. induction Hbs as [|d b' l l' H Hl IH]; [destruct Hb|]. destruct Hb as [->|Hb]; [exists d; exact H|apply IH; assumption]. }
      destruct X as (d & _ & -> & -> & _). rewrite !Z.eqb_refl. reflexivity. }
    assert (Hm : mapM (fun i => read_band (Raster geo bs) (i + 1)) (zrange (zlen directions)) = Ok (map b_data bs)).
    { apply read_eight. rewrite <- (Forall2_len _ _ _ Hbs). reflexivity. }
    assert (H1 : exists b1, read_band (Raster geo bs) 1 = Ok b1 /\ g_cols b1 = nx /\ g_rows b1 = ny).
    { unfold read_band. cbn [r_bands]. inversion Hbs as [|d b l l' (_ & A & B & _) _ Ed E']. exists (b_data b). auto. }
    destruct H1 as (b1 & -> & Ex & Ey). cbn [bind]. rewrite Ex, Ey, Hm. cbn [bind]. rewrite Hs. cbn [negb].
    rewrite write_fits by (cbn; lia). cbn [bind]. reflexivity.
  Qed.

  Lemma max_stats : stats_ok maxg = true <->
    exists r c, 0 <= r < ny /\ 0 <= c < nx /\ forall d, v d r c <> NaN.
  Proof.
    rewrite (Hst _). split.
    - intros (r & c & q & [H1 H2] & E). cbn [maxg g_rows g_cols] in H1, H2. exists r, c. split; [exact H1|]. split; [exact H2|].
      intros d C. destruct (max_at r c H1 H2) as [A _]. rewrite A in E; [discriminate|].
      apply in_map_iff. exists d. split; [exact C|]. destruct d; cbn; tauto.
    - intros (r & c & H1 & H2 & H). destruct (max_at r c H1 H2) as [_ B]. destruct B as (q & E & _).
      + intros C. apply in_map_iff in C. destruct C as (d & C & _). exact (H d C).
      + exists r, c, q. split; [split; assumption|exact E].
  Qed.
End CMax.
