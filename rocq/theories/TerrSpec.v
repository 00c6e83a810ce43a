(** * Vocabulary for the terrain properties. *)
From Verif Require Import Base NameModel.
Open Scope Z_scope.

(** Step towards where the wind of direction [d] comes from: (rows, columns);
    row 0 is the northernmost, column 0 the westernmost. *)
Definition upwind (d : dir) : Z * Z :=
  match d with
  | N_ => (-1, 0) | S_ => (1, 0) | W_ => (0, -1) | E_ => (0, 1)
  | NW => (-1, -1) | NE => (-1, 1) | SW => (1, -1) | SE => (1, 1) end.

(** Pixel [k] steps upwind of (i, j). *)
Definition up_pixel (d : dir) (k i j : Z) : Z * Z := (i + k * fst (upwind d), j + k * snd (upwind d)).

Definition inside (rows cols : Z) (p : Z * Z) : bool :=
  (0 <=? fst p) && (fst p <? rows) && (0 <=? snd p) && (snd p <? cols).

(** The upwind fetch of (i, j): existing pixels lag+1 .. lag+avg steps upwind. *)
Definition fetch (d : dir) (rows cols lag avg i j : Z) : list (Z * Z) :=
  filter (inside rows cols) (map (fun k => up_pixel d k i j) (range2 (lag + 1) (lag + avg + 1))).

Definition qsum (l : list Q) : Q := fold_right Qplus 0%Q l.

(** The mean of the values at pixels [ps], or [own] when there are none. *)
Definition mean_or (own : Q) (vals : list Q) : Q :=
  match vals with [] => own | _ => (qsum vals / inject_Z (zlen vals))%Q end.
Definition values (g : grid Q) (ps : list (Z * Z)) : list Q := map (fun p => g_at g (fst p) (snd p)) ps.

(** Number of pixels of the raster along direction [d]. *)
Definition extent_along (d : dir) (rows cols : Z) : Z :=
  match d with N_ | S_ => rows | W_ | E_ => cols | _ => Z.min rows cols end.

(** The part of raster [g] with rows r0..r1-1 and columns c0..c1-1. *)
Definition window {A} (g : grid A) (r0 r1 c0 c1 : Z) : grid A :=
  Grid (r1 - r0) (c1 - c0) (fun r c => g_at g (r0 + r) (c0 + c)).

(** Equality of float values: NaN with NaN, numbers up to [==]. *)
Definition same_num (x y : num) : Prop :=
  match x, y with NaN, NaN => True | Num a, Num b => (a == b)%Q | _, _ => False end.

(** Row [(cat, v)] is the last row of [table] for class [cat]. *)
Definition last_row (table : list (Z * num)) (cat : Z) (v : num) : Prop :=
  exists l1 l2, table = l1 ++ (cat, v) :: l2 /\ ~ In cat (map fst l2).
Definition listed (table : list (Z * num)) (cat : Z) : Prop := In cat (map fst table).

(** The initial multiplier of a class used for averaging: the table's value;
    a class without a usable (non-NaN, non-zero) value is missing. *)
Definition missing_class (table : list (Z * num)) (cat : Z) : Prop :=
  ~ listed table cat \/ last_row table cat NaN \/ exists q, last_row table cat (Num q) /\ (q == 0)%Q.

(** The multiplier a class contributes: [Num q] with q its last row's non-zero
    value, [NaN] when it is missing. *)
Definition class_mult (table : list (Z * num)) (cat : Z) (x : num) : Prop :=
  match x with NaN => missing_class table cat | Num q => last_row table cat (Num q) /\ ~ (q == 0)%Q end.
