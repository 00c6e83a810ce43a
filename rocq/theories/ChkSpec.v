(** * Which tiles are calculated (C101). *)
From Verif Require Import Base ReprModel ConvModel StageModel.
Open Scope Z_scope.

(** f 0 + ... + f (n - 1) *)
Fixpoint sum_below (n : nat) (f : Z -> Z) : Z := match n with O => 0 | S n => sum_below n f + f (Z.of_nat n) end.
(** The prime of the [k]-th pixel. *)
Definition prime_at (k : Z) : Z := nth (Z.to_nat (k mod 11)) [7; 11; 13; 17; 19; 23; 29; 31; 37; 41; 43] 7.
(** The remainders of whole heights by the primes of their pixels, row by row
    (of negative heights: minus the remainder of the absolute value). *)
Definition remainders (rows cols : Z) (h : Z -> Z -> Z) : Z :=
  sum_below (Z.to_nat rows) (fun r => sum_below (Z.to_nat cols) (fun c => Z.rem (h r c) (prime_at (r * cols + c)))).
(** What the cells of a raster say in whole numbers: if they are floating-point numbers, the
    nearest one (of two, the upper) that is at most 2^31 - 1 in size, and the number itself
    otherwise; a cell that is no number counts as - 2^31. *)
Definition whole (t : dtype) (v : num) (h : Z) : Prop :=
  match v with
  | NaN => h = - 2 ^ 31
  | Num q =>
    match t with
    | Float32 | Float64 => exists n, (inject_Z n - (1 # 2) <= q)%Q /\ (q < inject_Z n + (1 # 2))%Q /\ h = Z.max (- (2 ^ 31 - 1)) (Z.min (2 ^ 31 - 1) n)
    | _ => q = inject_Z h
    end
  end.
(** The first band of a file has the whole heights [h] in rows and columns. *)
Definition heights_are (v : file) (rows cols : Z) (h : Z -> Z -> Z) : Prop :=
  0 <= rows /\ 0 <= cols /\ exists b bs, r_bands v = b :: bs /\ g_rows (b_data b) = rows /\ g_cols (b_data b) = cols /\
  forall r c, 0 <= r < rows -> 0 <= c < cols -> whole (m_type (r_geo v)) (g_at (b_data b) r c) (h r c).
