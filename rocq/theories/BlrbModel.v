(** * Grid interpolation by recursive bisection (utilities/blrb.py) and pixel
    sizes (utilities/get_pixel_size_grid.py).
    Block origins and shapes are Python numbers that may be fractional, because
    subdivide divides with [/]; they are rationals here.  Arithmetic is exact;
    the cast of the result to float32 is not modelled. *)
From Verif Require Import Base.
Open Scope Z_scope.

(** blrb.py:24-56.  [numpy.ogrid[0:n]] has [ceil n] entries; [0 / 0.] is NaN.
    (For [n = 1] the only entry is 0, so no infinity arises.) *)
Definition ogrid_pos (n : Q) (i : Z) : option Q :=
  if Qeq_bool (n - 1) 0 then None else Some (inject_Z i / (n - 1))%Q.
Definition bilinear (sr sc : Q) (f_ul f_ur f_lr f_ll : Q) : grid num :=
  Grid (Qceiling sr) (Qceiling sc) (fun i j =>
    match ogrid_pos sr i, ogrid_pos sc j with
    | Some s, Some t => Num (s * (t * f_lr + (1 - t) * f_ll) + (1 - s) * (t * f_ur + (1 - t) * f_ul))%Q
    | _, _ => NaN
    end).

(** blrb.py:73-74 *)
Definition indices (oi oj sr sc : Q) : Q * Q * Q * Q := (oi, (oi + sr - 1)%Q, oj, (oj + sc - 1)%Q).

(** [grid[i0:i1 + 1, j0:j1 + 1] = b] for non-negative [i0], [j0]: the slice is
    cut at the grid's edge; a block of size 1 along an axis is repeated; any
    other mismatch raises. *)
Definition slice_len (n i0 i1 : Z) : Z := Z.max 0 (Z.min n (i1 + 1) - Z.min n i0).
Definition fits1 (len n : Z) : bool := (len =? n) || (len =? 1).
Definition slice_set (g : grid num) (i0 i1 j0 j1 : Z) (b : grid num) : res (grid num) :=
  let nr := slice_len (g_rows g) i0 i1 in
  let nc := slice_len (g_cols g) j0 j1 in
  if fits1 (g_rows b) nr && fits1 (g_cols b) nc
  then Ok (Grid (g_rows g) (g_cols g) (fun r c =>
         if (i0 <=? r) && (r <=? i1) && ((j0 <=? c) && (c <=? j1))
         then g_at b (if g_rows b =? nr then r - i0 else 0) (if g_cols b =? nc then c - j0 else 0)
         else g_at g r c))
  else Err ValueError.

(** blrb.py:108-150, with a grid argument. *)
Definition interpolate_block (oi oj sr sc : Q) (eval_func : Z -> Z -> Q) (g : grid num) : res (grid num) :=
  let '(i0, i1, j0, j1) := indices oi oj sr sc in
  let i0 := Qfloor i0 in
  let j0 := Qfloor j0 in
  let i1 := Qceiling i1 in
  let j1 := Qceiling j1 in
  let f_ul := eval_func i0 j0 in
  let f_ll := eval_func i1 j0 in
  let f_ur := eval_func i0 j1 in
  let f_lr := eval_func i1 j1 in
  slice_set g i0 i1 j0 j1 (bilinear sr sc f_ul f_ur f_lr f_ll).

(** blrb.py:78-104: for each sub-block its first and last corner, in the order
    of the dictionary: UL, LL, UR, LR. *)
Definition subdivide (oi oj sr sc : Q) : list ((Q * Q) * (Q * Q)) :=
  let '(i0, ie, j0, je) := indices oi oj sr sc in
  let ic := (oi + sr / 2)%Q in
  let jc := (oj + sc / 2)%Q in
  [((i0, j0), (ic, jc)); ((ic, j0), (ie, jc)); ((i0, jc), (ic, je)); ((ic, jc), (ie, je))].

(** blrb.py:154-198 *)
Fixpoint interpolate_grid (depth : nat) (oi oj sr sc : Q) (eval_func : Z -> Z -> Q) (g : grid num) : res (grid num) :=
  match depth with
  | O => interpolate_block oi oj sr sc eval_func g
  | S depth =>
      foldM (fun g b => let '((ui, uj), (li, lj)) := b in
               interpolate_grid depth ui uj (li - ui + 1)%Q (lj - uj + 1)%Q eval_func g)
        (subdivide oi oj sr sc) g
  end.

(** get_pixel_size_grid.py:53-111.  [gt] are the six GDAL coefficients and
    [dist] the length in metres between two points given in the raster's own
    coordinates (coordinate transformation and vinc_dist together). *)
Record geotransform := GT { gt0 : Q; gt1 : Q; gt3 : Q; gt5 : Q }.
Definition get_pixel_size (gt : geotransform) (dist : Q * Q -> Q * Q -> Q) (x y : Z) : Q * Q :=
  let xw := (gt0 gt + inject_Z x * gt1 gt)%Q in
  let yn := (gt3 gt + inject_Z y * gt5 gt)%Q in
  let xc := (gt0 gt + (inject_Z x + (1#2)) * gt1 gt)%Q in
  let yc := (gt3 gt + (inject_Z y + (1#2)) * gt5 gt)%Q in
  let xe := (gt0 gt + (inject_Z x + 1) * gt1 gt)%Q in
  let ys := (gt3 gt + (inject_Z y + 1) * gt5 gt)%Q in
  (dist (xw, yc) (xe, yc), dist (xc, yn) (xc, ys)).

(** get_pixel_size_grid.py:114-155.  [size x y] is get_pixel_size at column [x]
    and row [y] of the data set; interpolate_grid calls its function with the
    row first. *)
Definition get_pixel_size_grids (size : Z -> Z -> Q * Q) (rows cols : Z) : res (grid num * grid num) :=
  let zero := Grid rows cols (fun _ _ => Num 0) in
  let* xg := interpolate_grid 1 0 0 (inject_Z rows) (inject_Z cols) (fun x y => fst (size x y)) zero in
  let* yg := interpolate_grid 1 0 0 (inject_Z rows) (inject_Z cols) (fun x y => snd (size x y)) zero in
  Ok (xg, yg).
