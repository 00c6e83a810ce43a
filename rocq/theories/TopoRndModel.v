(** * The topographic stage with every operation rounded (C94).

    [TopoModel.topo_dir] with the rounding of the arrays: the multipliers are
    an array of doubles ([np.ones], topo_mult.py:92), the elevations an array
    of singles or doubles whose rounding is [elr] (the type of the elevation
    raster, topo_mult.py:63), and the variable written is of singles
    (nctools.py:393, dtype 'f').  Exponents are unbounded. *)
From Verif Require Import Base NameModel TopoModel FloatSpec.
Open Scope Z_scope.

Section Stage.
  Variables dbl elr sgl : Q -> Q.
  (** [signal.convolve] with nine ninths, topo_mult.py:136-137.  SciPy chooses
      between direct sums and Fourier transforms by the size of the array. *)
  Variable conv : grid Q -> grid Q.

  (** topo_mult.py:173-191, per cell.  1.4 and 0.9 are rounded when read. *)
  Definition cons_fl (x : Q) : Q :=
    if Qltb 1 x && Qltb x (dbl (14#10)) then dbl (x * dbl ((125#100) - dbl ((25#100) * x)))
    else if Qleb (dbl (14#10)) x then dbl (x * dbl (9#10))
    else x.

  (** topo_mult.py:156-170, per cell: the factor is computed in the type of the
      elevations, the product in doubles. *)
  Definition tas_fl (x : Q) (dem : num) : Q :=
    match dem with
    | Num e => if Qltb 500 e then dbl (x * elr (1 + elr (elr (15#100000) * e))) else x
    | NaN => x
    end.

  (** topo_mult.py:87-139 and the cast of nctools.py:281. *)
  Definition topo_dir_fl (sqrt2 cellsize x_left y_upper : Q) (elev : grid num) (d : dir) : res (grid num) :=
    let nr := g_rows elev in
    let nc := g_cols elev in
    let data := flat elev in
    let ds := match d with NE | NW | SE | SW => dbl (cellsize * sqrt2)%Q | _ => cellsize end in
    let* mhdata := foldM (topo_line dbl nr nc d ds data) (starts nr nc d) (ones (zlen data)) in
    let mh := gmap cons_fl (unflat nr nc mhdata) in
    let mh := if in_tasmania x_left y_upper
              then Grid nr nc (fun r c => tas_fl (g_at mh r c) (g_at elev r c)) else mh in
    let mhsmooth := conv mh in
    Ok (Grid nr nc (fun r c => match g_at elev r c with NaN => NaN | Num _ => Num (sgl (g_at mhsmooth r c)) end)).
End Stage.

(** The direct sums: products of a value and the double 1/9, added up in the
    order of the kernel. *)
Definition conv_direct (dbl : Q -> Q) (g : grid Q) : grid Q :=
  Grid (g_rows g) (g_cols g) (fun r c =>
    fold_right (fun o s => dbl (dbl (qget g (r + fst o) (c + snd o) * dbl (1 / 9)) + s)%Q) 0%Q
      [(-1, -1); (-1, 0); (-1, 1); (0, -1); (0, 0); (0, 1); (1, -1); (1, 0); (1, 1)]).
