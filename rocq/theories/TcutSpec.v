(** * When cutting a line of elevations leaves the multiplier of a point alone.

    A line is cut down to its points [o .. e]; the question is whether point
    [k] of the cut keeps its multiplier.  Independent of the model. *)
From Verif Require Import Base NameModel TerrSpec TopoSpec.
Open Scope Z_scope.

(** The points [o .. e] of a line. *)
Definition part {A} (o e : Z) (line : list A) : list A := firstn (Z.to_nat (e - o + 1)) (skipn (Z.to_nat o) line).

(** The hill rising from [v] to [r] lies in the part, with the ground behind
    its crest that decides how far its lee reaches. *)
Definition kept (y : list Q) (o e v r : Z) : Prop := o <= v /\ Z.min (last_pt y) (r + (r - v)) <= e.
(** An end of the part lies on its slope. *)
Definition severed (o e v r : Z) : Prop := v < o < r \/ v < e < r.
(** Point [k] is beyond the hill's reach: three times the reach upwind, on the
    lee side (the lee is never longer); and ahead of the hill also beyond
    the reach of what the part leaves of it. *)
Definition beyond (y : list Q) (e v r : Z) (ds : Q) (k : Z) : Prop :=
  (inject_Z (r - k) * ds <= - (3 * hill_reach y v r ds))%Q \/
  ((hill_reach y v r ds <= inject_Z (r - k) * ds)%Q /\ (v < e < r -> (hill_reach y v r ds <= inject_Z (e - k) * ds)%Q)).

(** Every hill of the line is kept, or beyond reach, or negligible; a severed
    negligible hill must be lower than 10 m, since what is left of a gentle
    slope may be steep. *)
Definition enough (y : list Q) (o e : Z) (ds : Q) (k : Z) : Prop :=
  forall v r, rising_run y v r ->
    kept y o e v r \/ beyond y e v r ds k \/
    (negligible y v r ds /\ (severed o e v r -> (elev_at y r - elev_at y v < 10)%Q)).

(** The same for the pixel [p] of an elevation raster of which the rows
    [Y1 .. Y2-1] and columns [X1 .. X2-1] are used, wind from [d]: the pixel is
    not the last of its line in the window, and enough of the line is in it. *)
Definition in_rect (Y1 Y2 X1 X2 : Z) (p : Z * Z) : Prop := Y1 <= fst p < Y2 /\ X1 <= snd p < X2.
Definition line_enough (elev : grid num) (d : dir) (Y1 Y2 X1 X2 : Z) (ds : Q) (p : Z * Z) : Prop :=
  forall r0 c0 n k o e,
    wind_line (g_rows elev) (g_cols elev) d r0 c0 n -> 0 <= o <= k -> k <= e < n -> down_cell d k r0 c0 = p ->
    (forall t, 0 <= t < n -> (o <= t <= e <-> in_rect Y1 Y2 X1 X2 (down_cell d t r0 c0))) ->
    k < e /\ enough (floors (line_profile elev d r0 c0 n)) o e ds k.

(** Heights of an elevation raster, with missing ones marked, and the spacing
    of points on a line: pixel size, times the square root of two on a diagonal. *)
Definition heights (nodata : option Q) (dem : grid num) : grid num :=
  Grid (g_rows dem) (g_cols dem) (fun r c =>
    match g_at dem r c, nodata with
    | Num q, Some n => if Qeq_bool q n then NaN else Num q
    | x, _ => x
    end).
Definition point_step (sqrt2 cellsize : Q) (d : dir) : Q :=
  match d with NE | NW | SE | SW => (cellsize * sqrt2)%Q | _ => cellsize end.

(** Land rising evenly by [s] metres per pixel to the east over [n] pixels,
    then a drop to sea level. *)
Definition ramp (n s : Z) (i : Z) : Q := if i <=? n then inject_Z (i * s) else 0%Q.
