(** * C93: what rounding does to hill-shape multipliers. *)
From Coq Require Import Qpower Qfield.
From Verif Require Import Base BaseLemmas Rounding FloatSpec FloatModel FloatRndProofs TopoModel TopoSpec TopoLineProofs TopoMhProofs TopoCalcProofs TopoHillProofs TopoProps.
From Verif Require Import TopoFlSpec TopoFlProofs TopoFlEndProofs TopoFlHillProofs.
Open Scope Z_scope.

Lemma floors_whole line : moderate line -> whole (floors line).
Proof.
  intros H i. unfold elev_at, floors. destruct (nth_in_or_default (Z.to_nat i) (map (fun q => inject_Z (Qfloor q)) line) 0%Q) as [I | ->].
  - apply in_map_iff in I. destruct I as (x & <- & I). exists (Qfloor x). split; [reflexivity|]. specialize (H x I). apply Qabs_Qle_condition in H.
    assert (A : (inject_Z (- 2 ^ 50) <= x)%Q) by (rewrite inject_Z_opp; apply H). destruct H as [_ C].
    apply Qfloor_resp_le in A, C. rewrite Qfloor_Z in A, C. lia.
  - exists 0. split; [reflexivity|]. cbn. lia.
Qed.

(** The downwind stretch. *)
Theorem C93_stretch line v r ds : moderate line -> zlen line <= 2 ^ 50 -> (0 < ds)%Q -> rising_run (floors line) v r ->
  exists e, escarpment_factor rnd53 (floors line) r v ds = Ok e /\ (Qabs (e - stretch (floors line) v r) <= Qpower 2 (-47))%Q.
Proof.
  intros M HL Hd Hr. pose proof (run_climbs _ _ _ Hr) as C. destruct Hr as (A1 & A2 & _).
  destruct (esc_near rnd53 rnd53_fl_ok rnd53_double line_53 end_index (floors line) v r ds (floors_whole line M) A1 A2 Hd C) as (e & Ee & _ & N); [rewrite floors_len; exact HL|].
  exists e. split; [exact Ee|]. assert (E5 : (Qpower 2 (-47) == 32 * E52)%Q) by reflexivity. rewrite E5. exact N.
Qed.
Print Assumptions C93_stretch.

(** The multipliers of a line computed in double precision differ from those of
    exact arithmetic by at most 2^-45, at every point but the last, unless some
    rise sits on a limit of the formula.  (The last point is special, see C40.) *)
Theorem C93_line line ds : moderate line -> zlen line <= 2 ^ 50 -> (0 < ds)%Q -> (rnd53 ds == ds)%Q ->
  exists m m0, multiplier_calc rnd53 line ds = Ok m /\ multiplier_calc (fun x => x) line ds = Ok m0 /\ zlen m = zlen m0 /\
    forall k, 0 <= k < last_pt line -> (forall v r, rising_run (floors line) v r -> off_limits (floors line) v r ds k) ->
      (Qabs (nth (Z.to_nat k) m 0 - nth (Z.to_nat k) m0 0) <= Qpower 2 (-45))%Q.
Proof.
  intros M HL Hd Hds. assert (H50 : 2 ^ 50 <= 2 ^ 53) by (apply Z.pow_le_mono_r; lia).
  destruct (multiplier_calc_spec rnd53 (2 ^ 53) line_53 ltac:(lia) line ds Hd ltac:(lia)) as (m & Em & Lm & Tot & P).
  destruct (C40_line line ds Hd) as (m0 & Em0 & Lm0 & P0). exists m, m0. split; [exact Em|]. split; [exact Em0|]. split; [congruence|]. intros k Hk O.
  assert (LP : last_pt (floors line) = last_pt line) by (unfold last_pt; rewrite floors_len; reflexivity).
  destruct (P k ltac:(unfold last_pt in Hk; lia)) as (Bk & U & C). destruct (P0 k Hk) as (B0 & U0 & C0). unfold q_at in *.
  set (a := nth (Z.to_nat k) m 0%Q) in *. set (a0 := nth (Z.to_nat k) m0 0%Q) in *.
  assert (E5 : (Qpower 2 (-45) == 128 * E52)%Q) by reflexivity. rewrite E5. pose proof E52_pos as E5p.
  assert (HN : forall v r, rising_run (floors line) v r -> exists x, mh_calc rnd53 (floors line) r v ds = Ok x /\
     (negligible (floors line) v r ds -> (nth (Z.to_nat k) x 0 == 1)%Q) /\
     (~ negligible (floors line) v r ds -> (Qabs (nth (Z.to_nat k) x 0 - hill_at (floors line) v r ds k) <= 128 * E52)%Q)).
  { intros v r Hr. pose proof (run_climbs _ _ _ Hr) as Cl. pose proof Hr as (A1 & A2 & _).
    destruct (mh_near rnd53 rnd53_fl_ok rnd53_double line_53 end_index (floors line) v r ds (floors_whole line M) A1 A2 Hd Hds Cl ltac:(rewrite floors_len; exact HL)) as (x & Ex & _ & N).
    exists x. split; [exact Ex|]. apply N; [lia|]. apply O. exact Hr. }
  apply Qabs_Qle_condition. split.
  - destruct C0 as [C0|(v & r & Hr & Ng & C0)]; [lra|]. destruct (HN v r Hr) as (x & Ex & _ & N). specialize (N Ng). apply Qabs_Qle_condition in N.
    pose proof (U v r x Hr Ex) as K. lra.
  - destruct C as [C|(v & r & x & Hr & Ex & C)]; [lra|]. destruct (HN v r Hr) as (x' & Ex' & N1 & N2). assert (x' = x) by congruence. subst x'.
    assert (Dec : negligible (floors line) v r ds \/ ~ negligible (floors line) v r ds).
    { destruct Hr as (A1 & _). rewrite <- (negligible_dec (floors line) v r ds) by (try exact Hd; lia). destruct (_ || _ || _); [left; reflexivity|right; discriminate]. }
    destruct Dec as [Ng|Ng]; [rewrite C, (N1 Ng); lra|]. specialize (N2 Ng). apply Qabs_Qle_condition in N2. pose proof (U0 v r Hr Ng) as K. lra.
Qed.
Print Assumptions C93_line.

(** Without that proviso the claim is false: a rise of 10 m over three steps of
    the double just above 200/3 m is too gentle to matter in exact arithmetic,
    and raises its crest to more than 1.06 in double precision. *)
Definition c93_line : list Q := [0; 3; 6; 10; 10; 0]%Q.
Definition c93_ds : Q := 4691249611844267 # 70368744177664.
Theorem C93_limit_refuted : (rnd53 c93_ds == c93_ds)%Q /\ exists m m0,
  multiplier_calc rnd53 c93_line c93_ds = Ok m /\ multiplier_calc (fun x => x) c93_line c93_ds = Ok m0 /\
  (nth 3 m0 0 == 1)%Q /\ (106#100 < nth 3 m 0)%Q.
Proof.
  split; [reflexivity|]. eexists. eexists. split; [vm_compute; reflexivity|]. split; [vm_compute; reflexivity|]. split; reflexivity.
Qed.
Print Assumptions C93_limit_refuted.

(** A line off every limit, in which the hill acts. *)
Definition c93_ex : list Q := [0; 50; 100; 100; 0]%Q.
Example C93_ex : moderate c93_ex /\ (rnd53 30 == 30)%Q /\ (forall v r, rising_run (floors c93_ex) v r -> off_limits (floors c93_ex) v r 30 3) /\
  exists m, multiplier_calc rnd53 c93_ex 30 = Ok m /\ (1 < nth 3 m 0)%Q.
Proof.
  split; [|split; [reflexivity|split]].
  - intros x I. cbn [c93_ex In] in I. repeat (destruct I as [<-|I]; [vm_compute; discriminate|]). destruct I.
  - intros v r (A & B & C & D & E).
    assert (LP : last_pt (floors c93_ex) = 4) by reflexivity. rewrite LP in *.
    assert (V : forall k, v <= k < r -> k < 2).
    { intros k Hk. specialize (C k Hk). assert (0 <= k < 4) by lia. assert (k = 0 \/ k = 1 \/ k = 2 \/ k = 3) as [-> | [-> | [-> | ->]]] by lia; try lia; vm_compute in C; discriminate. }
    assert (R2 : r <= 2) by (pose proof (V (r - 1) ltac:(lia)); lia).
    assert (v = 0) as ->.
    { destruct D as [D|D]; [exact D|]. assert (v = 0 \/ v = 1) as [-> | ->] by lia; [reflexivity|]. exfalso. apply D. reflexivity. }
    assert (r = 2) as ->.
    { assert (r = 1 \/ r = 2) as [-> | ->] by lia; [|reflexivity]. exfalso. destruct E as [E|E]; [discriminate|]. apply E. reflexivity. }
    unfold off_limits, apart. repeat split; vm_compute; reflexivity.
  - eexists. split; [vm_compute; reflexivity|]. reflexivity.
Qed.
