(** * C85: what the topographic multiplier takes from the elevations *)
From Verif Require Import Base BaseLemmas NameModel TopoModel ShiftSpec ShiftProofs.
Open Scope Z_scope.

(** ** Raising the ground by whole metres changes nothing

    For every arithmetic [fl], every raster, every pixel size and position. *)
Theorem C85_datum fl sqrt2 cellsize x_left y_upper nodata k dem dem' :
  raised k dem dem' -> without_nodata nodata dem -> without_nodata nodata dem' ->
  no_tasmanian_factor x_left y_upper dem -> no_tasmanian_factor x_left y_upper dem' ->
  same_outcome (topomult fl sqrt2 cellsize x_left y_upper nodata dem) (topomult fl sqrt2 cellsize x_left y_upper nodata dem').
Proof. intros R. apply raised_same with k. apply raised_is. exact R. Qed.

(** ** Fractions of a metre do not count *)
Theorem C85_metres fl sqrt2 cellsize x_left y_upper nodata k dem dem' :
  raised_metres k dem dem' -> without_nodata nodata dem -> without_nodata nodata dem' ->
  no_tasmanian_factor x_left y_upper dem -> no_tasmanian_factor x_left y_upper dem' ->
  same_outcome (topomult fl sqrt2 cellsize x_left y_upper nodata dem) (topomult fl sqrt2 cellsize x_left y_upper nodata dem').
Proof. apply raised_same. Qed.

(** ** A missing elevation is sea level for its neighbours *)
Theorem C85_blanks fl sqrt2 cellsize x_left y_upper nodata dem dem' :
  filled nodata dem dem' ->
  same_but_blanks nodata dem (topomult fl sqrt2 cellsize x_left y_upper nodata dem) (topomult fl sqrt2 cellsize x_left y_upper None dem').
Proof. apply filled_same. Qed.

(** ** Where it fails

    A row of cells, elevations given from west to east. *)
Definition row (l : list Q) : grid num := Grid 1 (zlen l) (fun _ c => Num (nth (Z.to_nat c) l 0%Q)).
Definition eastern (x : res (list (dir * grid num))) : list num :=
  match x with
  | Ok l => flat_map (fun p => match fst p with E_ => flat (snd p) | _ => [] end) l
  | Err _ => []
  end.
Definition exact (q : Q) : Q := q.
Definition ridge : list Q := [0; 10; 20; 30; 20; 10; 0; 0; 0]%Q.
Definition here (nodata : option Q) (dem : grid num) := topomult exact (14142#10000) 25 100 20 nodata dem.
Definition differ (a b : list num) (i : Z) : Prop :=
  exists x y, pyget a i = Ok (Num x) /\ pyget b i = Ok (Num y) /\ ~ (x == y)%Q.
Lemma differ_by a b i : match pyget a i, pyget b i with Ok (Num x), Ok (Num y) => negb (Qeq_bool x y) | _, _ => false end = true -> differ a b i.
Proof.
  unfold differ. destruct (pyget a i) as [[|x]|], (pyget b i) as [[|y]|]; try discriminate. intros H. exists x, y. split; [reflexivity|]. split; [reflexivity|].
  intros E. apply Qeq_bool_iff in E. rewrite E in H. discriminate.
Qed.

(** Half a metre more can take a hill away: 10.2 m above 0.6 m counts as 10 m and
    makes a hill; 10.7 m above 1.1 m counts as 9 m and makes none. *)
Definition low : list Q := [6#10; 36#10; 102#10; 36#10; 6#10; 6#10]%Q.
Theorem C85_fraction_refuted :
  differ (eastern (here None (row low))) (eastern (here None (row (map (Qplus (1#2)) low)))) 2.
Proof. apply differ_by. vm_compute. reflexivity. Qed.

(** With a missing elevation the datum matters: land that rises by 2 m beside a
    gap has no hill at sea level, and a hill of 104 m when it lies 100 m higher. *)
Definition gap (h : Q) : grid num :=
  Grid 1 7 (fun _ c => if c =? 3 then NaN else Num (h + nth (Z.to_nat c) [2; 4; 2; 0; 2; 4; 2]%Q 0%Q)%Q).
Theorem C85_gap_refuted :
  differ (eastern (here None (gap 0))) (eastern (here None (gap 100))) 1.
Proof. apply differ_by. vm_compute. reflexivity. Qed.

(** In Tasmania the height itself counts above 500 m. *)
Definition tasmanian (dem : grid num) := topomult exact (14142#10000) 25 145 42 None dem.
Theorem C85_tasmania_refuted :
  differ (eastern (tasmanian (row ridge))) (eastern (tasmanian (row (map (Qplus 600) ridge)))) 2.
Proof. apply differ_by. vm_compute. reflexivity. Qed.

(** ** The hypotheses hold of rasters with hills *)
Lemma row_raised k l : l <> [] -> raised k (row l) (row (map (fun q => (q + inject_Z k)%Q) l)).
Proof.
  intros _. unfold raised, row, in_grid. cbn [g_rows g_cols g_at]. rewrite zlen_map_. split; [lia|]. split; [reflexivity|]. split; [reflexivity|].
  intros r c [_ C]. exists (nth (Z.to_nat c) l 0%Q), (nth (Z.to_nat c) l 0 + inject_Z k)%Q. split; [reflexivity|]. split; [|reflexivity].
  f_equal. rewrite (nth_indep _ 0%Q (0 + inject_Z k)%Q); [apply (map_nth (fun q => (q + inject_Z k)%Q))|]. rewrite map_length. unfold zlen in C. lia.
Qed.
Example C85_datum_applies k : same_outcome (here None (row ridge)) (here None (row (map (fun q => (q + inject_Z k)%Q) ridge))).
Proof.
  apply C85_datum with k; [apply row_raised; discriminate|discriminate|discriminate|left; discriminate|left; discriminate].
Qed.
(** … and the ridge does have a hill: it is not what level ground gives. *)
Example C85_ridge_is_a_hill : differ (eastern (here None (row ridge))) (eastern (here None (row [0; 0; 0; 0; 0; 0; 0; 0; 0]%Q))) 3.
Proof. apply differ_by. vm_compute. reflexivity. Qed.
Example C85_metres_applies : raised_metres 3 (row [0; 105#10; 1]%Q) (row [37#10; 13; 499#100]%Q).
Proof.
  split; [reflexivity|]. split; [reflexivity|]. split; [reflexivity|]. intros r c [_ C]. change (0 <= c < 3) in C.
  assert (J : c = 0 \/ c = 1 \/ c = 2) by lia. destruct J as [->|[->| ->]];
  [exists 0%Q, (37#10)%Q, 0|exists (105#10)%Q, 13%Q, 10|exists 1%Q, (499#100)%Q, 1];
  (split; [reflexivity|]); (split; [reflexivity|]); (split; split; [discriminate|reflexivity|discriminate|reflexivity]).
Qed.
Example C85_blanks_applies : filled (Some (-9999)%Q) (row [5; -9999; 7]%Q) (row [5; 0; 7]%Q).
Proof.
  split; [reflexivity|]. split; [reflexivity|]. split; [reflexivity|]. intros r c [_ C]. change (0 <= c < 3) in C.
  assert (J : c = 0 \/ c = 1 \/ c = 2) by lia. destruct J as [->|[->| ->]].
  - right. split; [|reflexivity]. intros [B|(q & n & B & D & Z)]; [discriminate|]. injection B as <-. injection D as <-. discriminate.
  - left. split; [|reflexivity]. right. exists (-9999)%Q, (-9999)%Q. split; [reflexivity|]. split; reflexivity.
  - right. split; [|reflexivity]. intros [B|(q & n & B & D & Z)]; [discriminate|]. injection B as <-. injection D as <-. discriminate.
Qed.

Print Assumptions C85_datum.
Print Assumptions C85_metres.
Print Assumptions C85_blanks.
Print Assumptions C85_fraction_refuted.
Print Assumptions C85_gap_refuted.
Print Assumptions C85_tasmania_refuted.
