(** * C105: text files that something else wrote. *)
From Coq Require Import Ascii String Lia Qabs.
From Verif Require Import Base BaseLemmas PyStr Rounding UtilModel TxtModel TxtSpec TxtReadSpec TxtProofs TxtLineProofs TxtReadProofs.
Open Scope Z_scope.

(** A number written in any of the usual ways is read as the double nearest to it. *)
Theorem C105_decimal : forall x, proper x -> moderate x -> exists y, read_float (decimal_text x) = Num y /\ nearest (decimal_value x) y.
Proof. intros x P M. pose proof (decimal_nearest x P M) as H. destruct (read_float (decimal_text x)) as [|y]; [destruct H|]. exists y. auto. Qed.
Print Assumptions C105_decimal.

Lemma cells_read k : (forall r x, In r k -> In x r -> proper x /\ moderate x) -> Forall2 reads_as (concat k) (concat (map (map read_float) (map (map decimal_text) k))).
Proof.
  induction k as [|row k IH]; intros Q; cbn [map concat]; [constructor|]. apply Forall2_app.
  - assert (X : forall x, In x row -> proper x /\ moderate x) by (intros x I; exact (Q row x (or_introl eq_refl) I)). clear - X. induction row as [|x row IH]; cbn [map]; constructor; [apply decimal_nearest; apply X; left; reflexivity|]. apply IH. intros y I. apply X. right. exact I.
  - apply IH. intros row' x I J. exact (Q row' x (or_intror I) J).
Qed.
(** A file of lines of numbers, with blanks around them, comments, empty lines and either
    kind of line end, is read as the array of its rows; dimensions of length 1 are dropped. *)
Theorem C105_rows : forall d ls last r c, divides d -> (forall l, In l ls -> good_line (fst l)) -> good_line last ->
  length (rows ls last) = r -> (0 < r)%nat -> (forall row, In row (rows ls last) -> length row = c) ->
  exists s l, genfromtxt d 0 (file_text d ls last) = Ok (Arr s l) /\ Forall2 reads_as (concat (rows ls last)) l /\
    (r <> 1 -> c <> 1 -> s = [r; c])%nat /\ (r = 1 -> c <> 1 -> s = [c])%nat /\ (r <> 1 -> c = 1 -> s = [r])%nat /\ (r = 1 -> c = 1 -> s = [])%nat.
Proof.
  intros d ls last r c D G L R P C. pose proof (file_rows d D ls last G L) as F. pose proof (rows_proper ls last G L) as Q. unfold genfromtxt. change (fun r : list str => match r with [] => false | _ :: _ => true end) with (@nonempty str). change (skipn 0 ?x) with x. rewrite F.
  set (m := rows ls last) in *. clearbody m. destruct m as [|r0 m]; [cbn in R; lia|]. cbn [map]. rewrite map_length, (C r0 (or_introl eq_refl)).
  replace (forallb _ _) with true. 2:{ symmetry. apply forallb_forall. intros x I. change (map decimal_text r0 :: map (map decimal_text) m) with (map (map decimal_text) (r0 :: m)) in I. apply in_map_iff in I as (x0 & <- & I). rewrite map_length. apply Nat.eqb_eq. exact (C x0 I). }
  eexists. eexists. split; [reflexivity|]. split.
  - exact (cells_read (r0 :: m) Q).
  - cbn [length] in *. rewrite map_length. rewrite R. unfold squeeze. cbn [filter]. destruct (Nat.eqb_spec r 1), (Nat.eqb_spec c 1); cbn [negb]; repeat split; intros; subst; congruence.
Qed.
Print Assumptions C105_rows.

(** Skipping lines is reading the rest of the file. *)
Theorem C105_lines : forall d ls last k, divides d -> (forall l, In l ls -> good_line (fst l)) -> good_line last -> (k <= length ls)%nat ->
  genfromtxt d k (file_text d ls last) = genfromtxt d 0 (file_text d (skipn k ls) last).
Proof.
  intros d ls last k D G L K. assert (G' : forall l, In l (skipn k ls) -> good_line (fst l)) by (intros l I; apply G; rewrite <- (firstn_skipn k ls); apply in_or_app; right; exact I).
  assert (E : skipn k (text_lines (file_text d ls last)) = text_lines (file_text d (skipn k ls) last)).
  { rewrite (file_lines d D ls last G L), (file_lines d D (skipn k ls) last G' L). rewrite skipn_map, skipn_app, map_length. replace (k - length ls)%nat with O by lia. rewrite skipn_map. reflexivity. }
  unfold genfromtxt. change (skipn 0 ?x) with x. rewrite E. reflexivity.
Qed.
Print Assumptions C105_lines.

(** Without any row the result is an empty vector; with rows of different lengths the file is refused. *)
Theorem C105_ragged : forall d ls last, divides d -> (forall l, In l ls -> good_line (fst l)) -> good_line last ->
  (rows ls last = [] -> genfromtxt d 0 (file_text d ls last) = Ok (Arr [O] [])) /\
  ((exists a b, In a (rows ls last) /\ In b (rows ls last) /\ length a <> length b) -> genfromtxt d 0 (file_text d ls last) = Err ValueError).
Proof.
  intros d ls last D G L. pose proof (file_rows d D ls last G L) as F. unfold genfromtxt. change (fun r : list str => match r with [] => false | _ :: _ => true end) with (@nonempty str). change (skipn 0 ?x) with x. rewrite F.
  set (m := rows ls last) in *. clearbody m. split; [intros ->; reflexivity|]. intros (a & b & A & B & N). destruct m as [|r0 m]; [destruct A|]. cbn [map]. destruct (forallb _ _) eqn:E; [|reflexivity]. exfalso.
  rewrite forallb_forall in E. change (map decimal_text r0 :: map (map decimal_text) m) with (map (map decimal_text) (r0 :: m)) in E.
  assert (X : forall x, In x (r0 :: m) -> length x = length r0). { intros x I. specialize (E (map decimal_text x) (in_map _ _ _ I)). apply Nat.eqb_eq in E. rewrite !map_length in E. exact E. }
  apply N. rewrite (X a A), (X b B). reflexivity.
Qed.
Print Assumptions C105_ragged.

(** A file that is not there cannot be loaded, any other is read as above. *)
Theorem C105_missing : forall disk d skip filename,
  (disk filename = None -> load_file disk d skip filename = Err OSError) /\ (forall t, disk filename = Some t -> load_file disk d skip filename = genfromtxt d skip t).
Proof. intros disk d skip filename. unfold load_file. split; [intros ->; reflexivity|intros t ->; reflexivity]. Qed.
Print Assumptions C105_missing.

(** Numbers in several notations, in a file with a heading, an empty line, blanks and Windows line ends:
    " 1.5,-.25E2 % first", "", "+3,4e-1  ". *)
Definition ex_lines : list (line * bool) :=
  [(Line 0 [] 0 (Some (lit " heading")), true);
   (Line 1 [Decimal Bare [1] (Some [5]) None; Decimal Minus [] (Some [2; 5]) (Some (true, Bare, [2]))] 1 (Some (lit " first")), true); (Line 0 [] 0 None, false)].
Definition ex_last : line := Line 0 [Decimal Plus [3] None None; Decimal Bare [4] None (Some (false, Minus, [1]))] 2 None.
Example C105_read_ex :
  let d := ","%char in divides d /\ (forall l, In l ex_lines -> good_line (fst l)) /\ good_line ex_last /\
  line_text d (fst (nth 1 ex_lines (ex_last, true))) = lit " 1.5,-.25E2 % first" /\ line_text d ex_last = lit "+3,4e-1  " /\
  length (rows ex_lines ex_last) = 2%nat /\ (forall row, In row (rows ex_lines ex_last) -> length row = 2%nat) /\
  exists x, genfromtxt d 0 (file_text d ex_lines ex_last) = Ok (Arr [2; 2]%nat x) /\ map (fun v => match v with Num q => Num (Qred q) | NaN => NaN end) (firstn 3 x) = [Num (3 # 2); Num (-25); Num 3].
Proof.
  assert (G : forall l, Forall (fun n => 0 <= n <= 9) l -> all_digit l) by (intros l F n I; rewrite Forall_forall in F; exact (F n I)).
  assert (P : forall x, In x (concat (rows ex_lines ex_last)) -> proper x /\ moderate x).
  { intros x J. cbn in J. destruct J as [<-|[<-|[<-|[<-|[]]]]]; (split; [|unfold moderate; vm_compute; discriminate]); (split; [apply G; cbn; repeat constructor; lia|]); (split; [apply G; cbn; repeat constructor; lia|]); split; cbn.
    - left. discriminate.
    - exact I.
    - right. discriminate.
    - split; [discriminate|apply G; repeat constructor; lia].
    - left. discriminate.
    - exact I.
    - left. discriminate.
    - split; [discriminate|apply G; repeat constructor; lia]. }
  assert (A : forall l, In l (map fst ex_lines ++ [ex_last]) -> good_line l).
  { intros l I. split.
    - intros x J. apply P. cbn in I. destruct I as [<-|[<-|[<-|[<-|[]]]]]; cbn in J |- *; tauto.
    - cbn in I. destruct I as [<-|[<-|[<-|[<-|[]]]]]; cbn; try exact Coq.Init.Logic.I; split; intros J; cbn in J; intuition discriminate. }
  cbv zeta. split; [split; [cbn; intuition discriminate|split; discriminate]|]. split; [intros l I; apply A, in_or_app; left; apply in_map; exact I|]. split; [apply A; cbn; tauto|].
  split; [reflexivity|]. split; [reflexivity|]. split; [reflexivity|]. split; [cbn; intros row [<-|[<-|[]]]; reflexivity|]. eexists. split; vm_compute; reflexivity.
Qed.
