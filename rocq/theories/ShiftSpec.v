(** * Elevations measured from another datum *)
From Verif Require Import Base NameModel.
Open Scope Z_scope.

(** [dem'] is [dem] with [k] whole metres added to every elevation; no elevation is missing. *)
Definition raised (k : Z) (dem dem' : grid num) : Prop :=
  0 < g_rows dem /\ g_rows dem' = g_rows dem /\ g_cols dem' = g_cols dem /\
  forall r c, in_grid dem r c -> exists q q', g_at dem r c = Num q /\ g_at dem' r c = Num q' /\ (q' == q + inject_Z k)%Q.

(** The same, fractions of a metre left out of account: every elevation lies in
    the metre that is [k] above the metre it lay in. *)
Definition raised_metres (k : Z) (dem dem' : grid num) : Prop :=
  0 < g_rows dem /\ g_rows dem' = g_rows dem /\ g_cols dem' = g_cols dem /\
  forall r c, in_grid dem r c -> exists q q' z, g_at dem r c = Num q /\ g_at dem' r c = Num q' /\
    (inject_Z z <= q < inject_Z (z + 1))%Q /\ (inject_Z (z + k) <= q' < inject_Z (z + k + 1))%Q.

(** No elevation is the raster's no-data value. *)
Definition without_nodata (nodata : option Q) (dem : grid num) : Prop :=
  forall n, nodata = Some n -> forall r c q, in_grid dem r c -> g_at dem r c = Num q -> ~ (q == n)%Q.

(** Outside Tasmania, or in its low country. *)
Definition no_tasmanian_factor (x_left y_upper : Q) (dem : grid num) : Prop :=
  (x_left <= 143)%Q \/ (y_upper <= 40)%Q \/ forall r c q, in_grid dem r c -> g_at dem r c = Num q -> (q <= 500)%Q.

(** Two runs with the same outcome: both fail alike, or give the same multipliers
    for the same directions. *)
Definition same_grid (g g' : grid num) : Prop :=
  g_rows g' = g_rows g /\ g_cols g' = g_cols g /\ forall r c, in_grid g r c -> g_at g' r c = g_at g r c.
Definition same_outcome (x y : res (list (dir * grid num))) : Prop :=
  match x, y with
  | Ok a, Ok b => Forall2 (fun p q => fst p = fst q /\ same_grid (snd p) (snd q)) a b
  | Err e, Err f => e = f
  | _, _ => False
  end.

(** A cell without an elevation: missing, or holding the no-data value. *)
Definition blank (nodata : option Q) (x : num) : Prop :=
  x = NaN \/ exists q n, x = Num q /\ nodata = Some n /\ (q == n)%Q.

(** [dem'] has 0 (sea level) where [dem] has nothing, and agrees with it elsewhere. *)
Definition filled (nodata : option Q) (dem dem' : grid num) : Prop :=
  0 < g_rows dem /\ g_rows dem' = g_rows dem /\ g_cols dem' = g_cols dem /\
  forall r c, in_grid dem r c ->
    (blank nodata (g_at dem r c) /\ g_at dem' r c = Num 0) \/
    (~ blank nodata (g_at dem r c) /\ g_at dem' r c = g_at dem r c).

(** What a raster with blanks gives, against what the filled raster gives:
    nothing at the blanks, the same elsewhere. *)
Definition same_but_blanks (nodata : option Q) (dem : grid num) (x y : res (list (dir * grid num))) : Prop :=
  match x, y with
  | Ok a, Ok b => Forall2 (fun p q => fst p = fst q /\ g_rows (snd p) = g_rows dem /\ g_cols (snd p) = g_cols dem /\
      forall r c, in_grid dem r c ->
        (blank nodata (g_at dem r c) /\ g_at (snd p) r c = NaN) \/
        (~ blank nodata (g_at dem r c) /\ g_at (snd p) r c = g_at (snd q) r c)) a b
  | Err e, Err f => e = f
  | _, _ => False
  end.
