(** * Vocabulary for the rounding of the whole topographic stage (C94). *)
From Verif Require Import Base NameModel TerrSpec TopoSpec TopoFlSpec.
Open Scope Z_scope.

(** The cell is not the last of its wind line, and no rise along that line sits
    on a limit of the formula for it. *)
Definition clear_cell (elev : grid num) (d : dir) (ds : Q) (r c : Z) : Prop :=
  forall r0 c0 n t, wind_line (g_rows elev) (g_cols elev) d r0 c0 n -> 0 <= t < n -> down_cell d t r0 c0 = (r, c) ->
    t < n - 1 /\
    forall v w, rising_run (floors (line_profile elev d r0 c0 n)) v w -> off_limits (floors (line_profile elev d r0 c0 n)) v w ds t.

(** [conv] averages a field over a cell and its neighbours, those outside the
    raster counting as 0, with an error of at most [eta] times the largest
    value of the field. *)
Definition averages (eta : Q) (conv : grid Q -> grid Q) : Prop :=
  forall g b r c, (forall i j, inside (g_rows g) (g_cols g) (i, j) = true -> (Qabs (g_at g i j) <= b)%Q) ->
    inside (g_rows g) (g_cols g) (r, c) = true ->
    (Qabs (g_at (conv g) r c - total (map (fun p => g_at g (fst p) (snd p)) (around (g_rows g) (g_cols g) r c)) / 9) <= eta * b)%Q.

(** [raw] holds, at each cell, the multiplier that [calc] gives for the cell's
    wind line. *)
Definition along_lines (calc : list Q -> res (list Q)) (elev : grid num) (d : dir) (raw : grid Q) : Prop :=
  forall r0 c0 n, wind_line (g_rows elev) (g_cols elev) d r0 c0 n -> exists m,
    calc (line_profile elev d r0 c0 n) = Ok m /\
    forall t, 0 <= t < n -> g_at raw (fst (down_cell d t r0 c0)) (snd (down_cell d t r0 c0)) = nth (Z.to_nat t) m 0%Q.

(** Elevations between -10 km and 10 km. *)
Definition on_earth (elev : grid num) : Prop :=
  forall r c h, inside (g_rows elev) (g_cols elev) (r, c) = true -> g_at elev r c = Num h -> (Qabs h <= 10000)%Q.

(** The distance between neighbours on a wind line: [across] if it runs along
    rows or columns, [diag] if not. *)
Definition neighbour_dist (across diag : Q) (d : dir) : Q := match d with NE | NW | SE | SW => diag | _ => across end.
