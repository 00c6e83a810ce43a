(** * C105: arrays saved as text are loaded again. *)
From Coq Require Import Ascii String Lia Lqa.
From Verif Require Import Base BaseLemmas PyStr Rounding UtilModel HelpModel TxtModel TxtSpec TerrSpec TxtProofs TxtLineProofs.
Open Scope Z_scope.

(** ** Numbers *)
(** Every finite double is read back exactly from its text, with the default format (18
    digits after the point) and with any of at least 16. *)
Theorem C105_number : forall p x, (16 <= p)%nat -> double x -> exists y, read_float (show p (Num x)) = Num y /\ (y == x)%Q.
Proof. intros p x P D. exact (read_show_e p x D P). Qed.
Print Assumptions C105_number.
(** So different doubles have different texts; ... *)
Theorem C105_distinct : forall p x y, (16 <= p)%nat -> double x -> double y -> show p (Num x) = show p (Num y) -> (x == y)%Q.
Proof.
  intros p x y P Dx Dy E. destruct (read_show_e p x Dx P) as (x' & Ex & X). destruct (read_show_e p y Dy P) as (y' & Ey & Y). cbn [show] in E. rewrite E, Ey in Ex. injection Ex as <-. rewrite <- X. exact Y.
Qed.
Print Assumptions C105_distinct.
(** ... with one digit less some do not: 0.3 and 0.1 + 0.2. *)
Theorem C105_fifteen_refuted : exists x y, double x /\ double y /\ ~ (x == y)%Q /\ show 15 (Num x) = show 15 (Num y) /\ show 16 (Num x) <> show 16 (Num y).
Proof.
  exists (inject_Z 5404319552844595 * 2 ^ (-54))%Q, (inject_Z 5404319552844596 * 2 ^ (-54))%Q. split; [exists 5404319552844595, (-54); split; [reflexivity|]; split; [lia|reflexivity]|]. split; [exists 5404319552844596, (-54); split; [reflexivity|]; split; [lia|reflexivity]|].
  split; [intros E; vm_compute in E; discriminate|]. split; [vm_compute; reflexivity|]. intros E. vm_compute in E. discriminate.
Qed.
Print Assumptions C105_fifteen_refuted.

(** With [p] digits after the point, the number read differs from the one written by at most
    one unit in the last digit. *)
Theorem C105_digits : forall p x, double x -> (Qabs.Qabs x <= 2 ^ 1023)%Q -> exists y, read_float (show p (Num x)) = Num y /\ double y /\ (Qabs.Qabs (y - x) * 10 ^ Z.of_nat p <= Qabs.Qabs x)%Q.
Proof. intros p x D B. exact (read_show_near p x D B). Qed.
Print Assumptions C105_digits.

(** ** Arrays *)
(** A matrix comes back with its cells in order, whatever the header and however many of
    its lines are skipped; dimensions of length 1 are dropped. *)
Theorem C105_matrix : forall p d header skip r c rows, (16 <= p)%nat -> separates d -> plain header -> (skip <= header_lines header)%nat ->
  length rows = r -> (0 < r)%nat -> (0 < c)%nat -> matrix c rows ->
  exists s l, genfromtxt d skip (savetxt p d header (Mat rows)) = Ok (Arr s l) /\ same_cells l (concat rows) /\
    (r <> 1 -> c <> 1 -> s = [r; c])%nat /\ (r = 1 -> c <> 1 -> s = [c])%nat /\ (r <> 1 -> c = 1 -> s = [r])%nat /\ (r = 1 -> c = 1 -> s = [])%nat.
Proof.
  intros p d header skip r c rows P D N S L R C M. destruct (load_saved p d header (Mat rows) skip c D N S P) as (l & E & F); [cbn [rows_of]; intros ->; cbn in L; lia|exact C|exact M|]. cbn [rows_of] in *. rewrite L in E.
  exists (squeeze [r; c]), l. split; [exact E|]. split; [exact F|]. unfold squeeze. cbn [filter]. destruct (Nat.eqb_spec r 1), (Nat.eqb_spec c 1); cbn [negb]; repeat split; intros; subst; congruence.
Qed.
Print Assumptions C105_matrix.
(** A vector comes back as one, unless it has a single cell. *)
Theorem C105_vector : forall p d header skip v, (16 <= p)%nat -> separates d -> plain header -> (skip <= header_lines header)%nat -> v <> [] -> Forall storable v ->
  exists s l, genfromtxt d skip (savetxt p d header (Vec v)) = Ok (Arr s l) /\ same_cells l v /\ (length v <> 1 -> s = [length v])%nat /\ (length v = 1 -> s = [])%nat.
Proof.
  intros p d header skip v P D N S Ne F. destruct (load_saved p d header (Vec v) skip 1 D N S P) as (l & E & X); cbn [rows_of].
  - destruct v; [congruence|discriminate].
  - lia.
  - intros row I. apply in_map_iff in I as (x & <- & I). split; [reflexivity|]. constructor; [|constructor]. rewrite Forall_forall in F. exact (F x I).
  - cbn [rows_of] in *. rewrite map_length in E. exists (squeeze [length v; 1%nat]), l. split; [exact E|]. split.
    + replace (concat (map (fun x => [x]) v)) with v in X; [exact X|]. clear. induction v as [|x v IH]; [reflexivity|]. cbn. rewrite <- IH. reflexivity.
    + unfold squeeze. cbn [filter]. change (Nat.eqb 1 1) with true. destruct (Nat.eqb_spec (length v) 1); cbn [negb]; split; intros; congruence.
Qed.
Print Assumptions C105_vector.
(** A matrix with one column, one with one row, and a vector of the same cells all come back
    as the vector: which of them was saved is lost. *)
Theorem C105_shape_refuted : forall p d header v, (16 <= p)%nat -> separates d -> plain header -> (1 < length v)%nat -> Forall storable v ->
  forall a, In a [Vec v; Mat [v]; Mat (map (fun x => [x]) v)] ->
  exists l, genfromtxt d 0 (savetxt p d header a) = Ok (Arr [length v] l) /\ same_cells l v.
Proof.
  intros p d header v P D N L F a I. assert (V : exists l, genfromtxt d 0 (savetxt p d header (Vec v)) = Ok (Arr [length v] l) /\ same_cells l v).
  { destruct (C105_vector p d header 0 v P D N) as (s & l & E & X & Y & _); [lia|intros ->; cbn in L; lia|exact F|]. rewrite Y in E by lia. eauto. }
  destruct I as [<-|[<-|[<-|[]]]]; [exact V| |exact V].
  destruct (C105_matrix p d header 0 1 (length v) [v] P D N) as (s & l & E & X & _ & Y & _); [lia|reflexivity|lia|lia|intros row [<-|[]]; split; [reflexivity|exact F]|]. rewrite Y in E by lia. cbn [concat] in X. rewrite app_nil_r in X. eauto.
Qed.
Print Assumptions C105_shape_refuted.
(** An array without cells comes back as an empty vector. *)
Theorem C105_empty : forall p d header skip a, separates d -> plain header -> (skip <= header_lines header)%nat -> a = Vec [] \/ (exists rows, a = Mat rows /\ forall row, In row rows -> row = []) ->
  genfromtxt d skip (savetxt p d header a) = Ok (Arr [O] []).
Proof.
  intros p d header skip a D N S Ea. assert (Em : forall row, In row (rows_of a) -> row = []) by (destruct Ea as [->|(rows & -> & H)]; [intros row []|exact H]). unfold genfromtxt. change (fun r : list str => match r with [] => false | _ :: _ => true end) with (@nonempty str). rewrite (saved_rows d D p header a skip N S).
  rewrite filter_none; [reflexivity|]. intros x I. apply in_map_iff in I as (r & <- & I). rewrite (Em r I). reflexivity.
Qed.
Print Assumptions C105_empty.
(** Skipping more lines than the header has drops as many rows. *)
Theorem C105_skip : forall p d header k, separates d -> plain header ->
  (forall rows, genfromtxt d (header_lines header + k) (savetxt p d header (Mat rows)) = genfromtxt d 0 (savetxt p d [] (Mat (skipn k rows)))) /\
  (forall v, genfromtxt d (header_lines header + k) (savetxt p d header (Vec v)) = genfromtxt d 0 (savetxt p d [] (Vec (skipn k v)))).
Proof.
  intros p d header k D N. split; [intros rows; exact (skip_rows p d header (Mat rows) k D N)|]. intros v. rewrite (skip_rows p d header (Vec v) k D N). cbn [rows_of]. rewrite skipn_map. reflexivity.
Qed.
Print Assumptions C105_skip.

(** ** Headers *)
(** What follows a carriage return in a header is read as a row of the array, or makes the
    file one that cannot be loaded. *)
Theorem C105_return_refuted : forall p d h t c rows, separates d -> plain h -> plain t -> ~ In "010"%char t -> rows <> [] -> (0 < c)%nat -> (forall row, In row rows -> length row = c) ->
  let n := length (fields d t) in
  (n <> 0 -> n <> c -> genfromtxt d 0 (savetxt p d (h ++ "013"%char :: t) (Mat rows)) = Err ValueError)%nat /\
  (n = c -> exists s l, genfromtxt d 0 (savetxt p d (h ++ "013"%char :: t) (Mat rows)) = Ok (Arr s l) /\ length l = c * S (length rows) /\ firstn c l = map read_float (fields d t))%nat.
Proof.
  intros p d h t c rows D N Nt Nl Ne C M n. assert (Nr : forall x, In x (map (map (show p)) rows) -> length x = c /\ nonempty x = true).
  { intros x I. apply in_map_iff in I as (r & <- & I). rewrite map_length. specialize (M r I). split; [exact M|]. destruct r; [cbn in M; lia|reflexivity]. }
  assert (R : n <> O -> filter nonempty (map (fields d) (skipn 0 (text_lines (savetxt p d (h ++ "013"%char :: t) (Mat rows))))) = fields d t :: map (map (show p)) rows).
  { intros Z0. change (skipn 0 ?x) with x. change "013"%char with cr. rewrite (return_rows p d h t (Mat rows) D N Nt Nl) by (intros E; apply Z0; unfold n; rewrite E; reflexivity). rewrite filter_all; [reflexivity|]. intros x I. apply Nr. exact I. }
  unfold genfromtxt. change (fun r : list str => match r with [] => false | _ :: _ => true end) with (@nonempty str). split.
  - intros Z0 Nc. rewrite (R Z0). destruct (forallb _ _) eqn:E; [|reflexivity]. exfalso. rewrite forallb_forall in E. destruct rows as [|r rows]; [congruence|]. specialize (E (map (show p) r) (or_intror (or_introl eq_refl))). apply Nat.eqb_eq in E. rewrite (proj1 (Nr _ (or_introl eq_refl))) in E. apply Nc. symmetry. exact E.
  - intros Ec. rewrite (R ltac:(lia)). fold n. replace (forallb _ _) with true.
    2:{ symmetry. apply forallb_forall. intros x [<-|I]; apply Nat.eqb_eq; [reflexivity|]. rewrite (proj1 (Nr x I)). symmetry. exact Ec. }
    eexists. eexists. split; [reflexivity|]. cbn [map concat]. split.
    + rewrite app_length, map_length. fold n. rewrite Ec. clear - Nr. induction rows as [|r rows IH]; cbn [map concat length]; [lia|]. rewrite app_length, map_length. rewrite (proj1 (Nr _ (or_introl eq_refl))). cbn [map concat] in IH. specialize (IH (fun x I => Nr x (or_intror I))). lia.
    + rewrite <- Ec. unfold n. rewrite <- (map_length read_float). rewrite firstn_app, firstn_all, Nat.sub_diag. cbn [firstn]. apply app_nil_r.
Qed.
Print Assumptions C105_return_refuted.

(** ** Files *)
(** fl_save_file and then fl_load_file: once the file is saved, with or without its header
    (files.py:130-131), loading it gives the array. *)
Theorem C105_files : forall W (content : W -> str -> option str) isdir makedirs write p d header filename (w w' : W) r c rows,
  (16 <= p)%nat -> separates d -> plain header -> length rows = r -> (1 < r)%nat -> (1 < c)%nat -> matrix c rows ->
  (forall v v', write true v = Ok v' -> content v' filename = Some (savetxt p d header (Mat rows))) ->
  (forall v v', write false v = Ok v' -> content v' filename = Some (savetxt p d [] (Mat rows))) ->
  save_file isdir makedirs write filename w = Ok w' ->
  exists l, load_file (content w') d 0 filename = Ok (Arr [r; c] l) /\ same_cells l (concat rows).
Proof.
  intros W content isdir makedirs write p d header filename w w' r c rows P D N L R C M W1 W2 S.
  assert (X : exists h, plain h /\ content w' filename = Some (savetxt p d h (Mat rows))).
  { unfold save_file in S. destruct (if negb (isdir w (dirname filename)) then makedirs w (dirname filename) else Ok w) as [v|e]; [|discriminate]. cbn [bind] in S. destruct (write true v) as [v1|e] eqn:E1.
    - injection S as <-. exists header. split; [exact N|exact (W1 _ _ E1)].
    - destruct e; try discriminate. exists []. split; [intros []|exact (W2 _ _ S)]. }
  destruct X as (h & Nh & E). unfold load_file. rewrite E. destruct (C105_matrix p d h 0 r c rows P D Nh) as (s & l & G & F & H & _); [lia|exact L|lia|lia|exact M|]. rewrite H in G by lia. eauto.
Qed.
Print Assumptions C105_files.

(** ** Concrete case: a tenth, the smallest and the largest double, and NaN, below a header of
    two lines. *)
Definition tx_rows : list (list num) := [[Num (inject_Z 3602879701896397 * 2 ^ (-55)); NaN]; [Num (inject_Z (-1) * 2 ^ (-1074)); Num (inject_Z (2 ^ 53 - 1) * 2 ^ 971)]].
Example C105_ex : matrix 2 tx_rows /\ separates ","%char /\ separates " "%char /\ plain (lit "Grid" ++ [lf] ++ lit "x,y") /\ header_lines (lit "Grid" ++ [lf] ++ lit "x,y") = 2%nat /\
  savetxt 18 ","%char (lit "Grid" ++ [lf] ++ lit "x,y") (Mat tx_rows) =
    lit "%Grid" ++ [lf] ++ lit "%x,y" ++ [lf] ++ lit "1.000000000000000056e-01,nan" ++ [lf] ++ lit "-4.940656458412465442e-324,1.797693134862315708e+308" ++ [lf].
Proof.
  assert (S : forall c, existsb (Ascii.eqb c) (lit "0123456789+-.ena%") = false -> c <> "010"%char -> c <> "013"%char -> separates c).
  { intros c E A B. split; [|split; assumption]. intros I. assert (X : existsb (Ascii.eqb c) (lit "0123456789+-.ena%") = true) by (apply existsb_exists; exists c; split; [exact I|apply Ascii.eqb_refl]). congruence. }
  split. { intros row [<-|[<-|[]]]; (split; [reflexivity|]); repeat constructor.
    - exists 3602879701896397, (-55). split; [reflexivity|]. split; [lia|reflexivity].
    - exists (-1), (-1074). split; [reflexivity|]. split; [lia|reflexivity].
    - exists (2 ^ 53 - 1), 971. split; [reflexivity|]. split; [lia|reflexivity]. }
  split; [apply S; [reflexivity|discriminate|discriminate]|]. split; [apply S; [reflexivity|discriminate|discriminate]|]. split; [intros I; cbn in I; intuition discriminate|]. split; [reflexivity|]. vm_compute. reflexivity.
Qed.
