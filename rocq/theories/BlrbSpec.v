(** * Specification vocabulary for grid interpolation. *)
From Verif Require Import Base.
Open Scope Z_scope.

Definition lerp (a b s : Q) : Q := ((1 - s) * a + s * b)%Q.

(** Bilinear value between four corner values; [s] runs down, [t] to the right. *)
Definition bilin (ul ur ll lr s t : Q) : Q := lerp (lerp ul ur t) (lerp ll lr t) s.

(** One bisection of [n] rows (or columns): the two rows between which row [r]
    is interpolated and its position between them as the code computes it. *)
Definition half (n : Z) : Q := (inject_Z n / 2)%Q.
Definition first_row (n r : Z) : Z := if r <? n / 2 then 0 else n / 2.
Definition last_row (n r : Z) : Z := if r <? n / 2 then (n + 1) / 2 else n - 1.
Definition position (n r : Z) : Q :=
  if r <? n / 2 then (inject_Z r / half n)%Q else (inject_Z (r - n / 2) / (half n - 1))%Q.

(** The value the closed form predicts at (r, c). *)
Definition bisected (f : Z -> Z -> Q) (rows cols r c : Z) : Q :=
  bilin (f (first_row rows r) (first_row cols c)) (f (first_row rows r) (last_row cols c))
        (f (last_row rows r) (first_row cols c)) (f (last_row rows r) (last_row cols c))
        (position rows r) (position cols c).

(** The rows at which the function is sampled. *)
Definition node (n r : Z) : Prop := r = 0 \/ r = n / 2 \/ r = n - 1.

(** Sum of a function over all cells of a raster; the mean is this divided by
    the number of cells. *)
Definition cell_sum (h : Z -> Z -> Q) (rows cols : Z) : Q :=
  fold_right Qplus 0%Q (map (fun r => fold_right Qplus 0%Q (map (fun c => h r c) (zrange cols))) (zrange rows)).

(** The pixel sizes a raster ought to get at its sampled cells: [size x y] is
    the size of the pixel in column [x] and row [y]. *)
Definition right_size (size : Z -> Z -> Q * Q) (row col : Z) : Q * Q := size col row.

(** Sum of all cells of a grid, if all of them are numbers. *)
Definition num_sum (g : grid num) : option Q :=
  fold_right (fun x acc => match x, acc with Num v, Some a => Some (v + a)%Q | _, _ => None end) (Some 0%Q) (concat (glist g)).
