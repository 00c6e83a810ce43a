(** * Words for what a change of the land cover or of a table does (C90). *)
From Coq Require Import Qabs.
From Verif Require Import Base TerrSpec.
Open Scope Z_scope.

(** Both values are missing, or the second is not smaller. *)
Definition no_smaller (x y : num) : Prop :=
  match x, y with NaN, NaN => True | Num a, Num b => (a <= b)%Q | _, _ => False end.
(** Both values are missing, or they differ by [e] at most. *)
Definition within (e : Q) (x y : num) : Prop :=
  match x, y with NaN, NaN => True | Num a, Num b => (Qabs (a - b) <= e)%Q | _, _ => False end.

(** The initial shielding of class [cat]: the percentage of its last row in the
    table, and 1 for classes not in the table. *)
Definition initial_shielding (table : list (Z * Q)) (cat : Z) (q : Q) : Prop :=
  (exists l1 l2 v, table = l1 ++ (cat, v) :: l2 /\ ~ In cat (map fst l2) /\ (q == v / 100)%Q) \/
  (~ In cat (map fst table) /\ (q == 1)%Q).
