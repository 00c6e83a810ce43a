(** * Base: shared vocabulary of the models.

    Python/numpy facts used everywhere: exceptions as values, Python integer
    ranges, (wrapping) sequence indexing, numpy 2-d arrays, and the numeric
    conversions [int()], [np.ceil], [np.floor], [np.around].

    Numbers: every finite IEEE double is a rational, so finite floats are
    modelled by [Q].  Where an integer index is derived from floats the model
    is parameterised by the rounding function [fl] applied after every float
    operation (see [fl_ok]); elsewhere arithmetic is exact. *)

From Coq Require Export ZArith QArith Qround Qabs Qminmax List Lia Lqa Bool.
Export ListNotations.
Open Scope Z_scope.

(** ** Exceptions as values *)

(** Python exceptions the modelled code can raise.  [NonFinite] is not an
    exception: it marks the numpy operations that would silently produce an
    inf/nan (division by zero on numpy scalars). *)
Inductive exn :=
| IndexError | ZeroDivisionError | ValueError | KeyError | UnboundLocalError
| RuntimeError | OSError | TypeError | AttributeError | SystemExit | NonFinite.

Inductive res (A : Type) :=
| Ok (a : A)
| Err (e : exn).
Arguments Ok {A} _.
Arguments Err {A} _.

Definition bind {A B} (x : res A) (f : A -> res B) : res B :=
  match x with Ok a => f a | Err e => Err e end.

Notation "'let*' x ':=' e 'in' k" := (bind e (fun x => k))
  (at level 200, x pattern, e at level 200, k at level 200, right associativity).

Fixpoint mapM {A B} (f : A -> res B) (l : list A) : res (list B) :=
  match l with
  | [] => Ok []
  | x :: xs => let* y := f x in let* ys := mapM f xs in Ok (y :: ys)
  end.

Fixpoint foldM {A S} (f : S -> A -> res S) (l : list A) (s : S) : res S :=
  match l with
  | [] => Ok s
  | x :: xs => let* s' := f s x in foldM f xs s'
  end.

(** ** Python integers, ranges, indexing *)

(** Python [range(n)]: empty when [n <= 0]. *)
Definition zrange (n : Z) : list Z := map Z.of_nat (seq 0 (Z.to_nat n)).

(** Python [range(a, b)]. *)
Definition range2 (a b : Z) : list Z := map (fun i => a + i) (zrange (b - a)).

(** Python [range(a, b, step)] for [step > 0]. *)
Definition range3 (a b step : Z) : list Z :=
  map (fun i => a + i * step) (zrange ((b - a + step - 1) / step)).

Definition zlen {A} (l : list A) : Z := Z.of_nat (length l).

(** Python/numpy index normalisation: negative indices count from the end. *)
Definition norm_index (n k : Z) : option Z :=
  let k' := if k <? 0 then k + n else k in
  if (0 <=? k') && (k' <? n) then Some k' else None.

(** [l[k]] *)
Definition pyget {A} (l : list A) (k : Z) : res A :=
  match norm_index (zlen l) k with
  | Some i => match nth_error l (Z.to_nat i) with
              | Some a => Ok a | None => Err IndexError end
  | None => Err IndexError
  end.

Fixpoint list_upd {A} (l : list A) (n : nat) (a : A) : list A :=
  match l, n with
  | [], _ => []
  | _ :: xs, O => a :: xs
  | x :: xs, S n' => x :: list_upd xs n' a
  end.

(** [l[k] = a] *)
Definition pyset {A} (l : list A) (k : Z) (a : A) : res (list A) :=
  match norm_index (zlen l) k with
  | Some i => Ok (list_upd l (Z.to_nat i) a)
  | None => Err IndexError
  end.

(** ** 2-d numpy arrays

    Shape plus a cell function; cells outside the shape are not observable:
    they can only be reached through [gget], which raises. *)
Record grid (A : Type) := Grid { g_rows : Z; g_cols : Z; g_at : Z -> Z -> A }.
Arguments Grid {A} _ _ _.
Arguments g_rows {A} _.
Arguments g_cols {A} _.
Arguments g_at {A} _ _ _.

(** [a[r, c]] with numpy's negative-index wrapping and IndexError. *)
Definition gget {A} (g : grid A) (r c : Z) : res A :=
  match norm_index (g_rows g) r, norm_index (g_cols g) c with
  | Some r', Some c' => Ok (g_at g r' c')
  | _, _ => Err IndexError
  end.

Definition in_grid {A} (g : grid A) (r c : Z) : Prop :=
  0 <= r < g_rows g /\ 0 <= c < g_cols g.

Definition gmap {A B} (f : A -> B) (g : grid A) : grid B :=
  Grid (g_rows g) (g_cols g) (fun r c => f (g_at g r c)).

(** Row-major listing of a grid, for examples. *)
Definition glist {A} (g : grid A) : list (list A) :=
  map (fun r => map (fun c => g_at g r c) (zrange (g_cols g))) (zrange (g_rows g)).

(** Floats that may be NaN. *)
Inductive num := NaN | Num (q : Q).

(** ** Numeric conversions *)

Definition Qltb (x y : Q) : bool := negb (Qle_bool y x).
Definition Qleb (x y : Q) : bool := Qle_bool x y.

(** Python [int(x)] on a float: truncation toward zero. *)
Definition py_int (x : Q) : Z := if Qle_bool 0 x then Qfloor x else Qceiling x.

(** [np.around]: to nearest integer, ties to even. *)
Definition np_around (x : Q) : Z :=
  let f := Qfloor x in
  let d := (x - inject_Z f)%Q in
  if Qltb d (1#2) then f
  else if Qltb (1#2) d then f + 1
  else if Z.even f then f else f + 1.

(** ** Floating-point rounding

    What the index computations need to know about the rounding performed by
    each binary64 operation (no overflow/underflow): it is a monotone function
    of the exact result, its relative error is at most 2^-53, it is exact on
    integers up to 2^53, and it is symmetric.  [fl := fun x => x] (exact arithmetic) and
    round-to-nearest-even at 53 bits (file Rounding.v) both satisfy it. *)
Definition u53 : Q := 1 # (2 ^ 53).

Record fl_ok (fl : Q -> Q) : Prop := {
  fl_proper : forall x y, (x == y)%Q -> (fl x == fl y)%Q;
  fl_rel : forall x, (Qabs (fl x - x) <= u53 * Qabs x)%Q;
  fl_mono : forall x y, (x <= y)%Q -> (fl x <= fl y)%Q;
  fl_int : forall n, Z.abs n <= 2 ^ 53 -> (fl (inject_Z n) == inject_Z n)%Q;
  fl_opp : forall x, (fl (- x) == - fl x)%Q
}.
