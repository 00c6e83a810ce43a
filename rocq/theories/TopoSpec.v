(** * Specification vocabulary for the topographic multiplier.  Independent of
    the model's helpers. *)
From Verif Require Import Base NameModel TerrSpec.
Open Scope Z_scope.

(** Elevation at point [i] of a profile, and the last point. *)
Definition elev_at (y : list Q) (i : Z) : Q := nth (Z.to_nat i) y 0%Q.
Definition last_pt (y : list Q) : Z := zlen y - 1.

(** Elevations of a line cut down to whole metres. *)
Definition floors (line : list Q) : list Q := map (fun q => inject_Z (Qfloor q)) line.

(** The first (last) change of elevation along the profile is a fall. *)
Definition first_falls (y : list Q) : Prop :=
  exists j, 0 <= j < last_pt y /\ (forall k, 0 <= k <= j -> (elev_at y k == elev_at y 0)%Q) /\
            (elev_at y (j + 1) < elev_at y j)%Q.
Definition last_falls (y : list Q) : Prop :=
  exists j, 0 <= j < last_pt y /\ (forall k, j < k <= last_pt y -> (elev_at y k == elev_at y (last_pt y))%Q) /\
            (elev_at y (j + 1) < elev_at y j)%Q.

(** A ridge: reached by a rise and not followed by one; the first point is one
    when the profile first falls. *)
Definition is_ridge (y : list Q) (i : Z) : Prop :=
  (i = 0 /\ first_falls y) \/
  (0 < i <= last_pt y /\ (elev_at y (i - 1) < elev_at y i)%Q /\ (i = last_pt y \/ (elev_at y (i + 1) <= elev_at y i)%Q)).

(** A valley: followed by a rise and not reached by one; the last point is one
    when the profile finally falls. *)
Definition is_valley (y : list Q) (i : Z) : Prop :=
  (i = last_pt y /\ last_falls y) \/
  (0 <= i < last_pt y /\ (elev_at y i < elev_at y (i + 1))%Q /\ (i = 0 \/ (elev_at y i <= elev_at y (i - 1))%Q)).

(** A maximal strictly rising stretch from [v] to [r]. *)
Definition rising_run (y : list Q) (v r : Z) : Prop :=
  0 <= v < r /\ r <= last_pt y /\
  (forall k, v <= k < r -> (elev_at y k < elev_at y (k + 1))%Q) /\
  (v = 0 \/ (elev_at y v <= elev_at y (v - 1))%Q) /\
  (r = last_pt y \/ (elev_at y (r + 1) <= elev_at y r)%Q).

(** Ascending without duplicates. *)
Definition ascending (l : list Z) : Prop := forall i j a b, (i < j)%nat -> nth_error l i = Some a -> nth_error l j = Some b -> a < b.

(** What is assumed of float rounding along a line: monotone, symmetric, exact
    on whole numbers up to [M], at most 1% relative error (binary32 and
    binary64 are far better), and [1 + 0.71 <= 1.71]. *)
Record fl_line (fl : Q -> Q) (M : Z) : Prop := {
  fll_proper : forall x y, (x == y)%Q -> (fl x == fl y)%Q;
  fll_mono : forall x y, (x <= y)%Q -> (fl x <= fl y)%Q;
  fll_int : forall n, Z.abs n <= M -> (fl (inject_Z n) == inject_Z n)%Q;
  fll_opp : forall x, (fl (- x) == - fl x)%Q;
  fll_rel : forall x, (Qabs (fl x - x) <= (1#100) * Qabs x)%Q;
  fll_171 : (fl (1 + fl (fl (71#100))) <= fl (171#100))%Q
}.

(** The windward profile of the wind-loading standard as the code applies it:
    value at signed distance [x] upwind of the crest (negative: downwind), for
    a hill of height [h], length scales [L1] and [L2 = 4 L1], upwind slope
    [sl] and downwind stretch [esc]. *)
Definition capped (v : Q) : Q := Qmin v (171#100).
Definition hill (h L1 L2 sl esc x : Q) : Q :=
  if Qleb 0 x && Qltb x L2 then capped (1 + h / ((35#10) * (10 + L1)) * (1 - x / L2))
  else if Qltb (45#100) sl && Qltb x 0 && Qltb (- h / 4) x && Qltb (Qabs (esc - 1)) (2#10)
       then 1 + (71#100) * (1 - - x / (esc * L2))
  else if Qltb x 0 && Qltb (- (esc * L2)) x then capped (1 + h / ((35#10) * (10 + L1)) * (1 - - x / (esc * L2)))
  else 1.

(** Downwind stretch: compares the fall behind the crest, over the distance of
    the rise (or to the end of the line), with the rise. *)
Definition clamp (lo hi x : Q) : Q := Qmax lo (Qmin hi x).
Definition stretch (y : list Q) (v r : Z) : Q :=
  let b := Z.min (last_pt y) (r + (r - v)) in
  if b =? r then 1
  else clamp (1#2) 3 ((25#10) - (15#10) * ((elev_at y r - elev_at y b) / inject_Z (b - r))
                                        / ((elev_at y r - elev_at y v) / inject_Z (r - v))).

(** A hill too low, too short or too gentle to matter. *)
Definition negligible (y : list Q) (v r : Z) (ds : Q) : Prop :=
  let h := (elev_at y r - elev_at y v)%Q in
  (h < 10)%Q \/ r - v < 2 \/ (h / (inject_Z (r - v) * ds) < 5#100)%Q.

(** Contribution of the hill rising from [v] to [r] at point [k]. *)
Definition hill_at (y : list Q) (v r : Z) (ds : Q) (k : Z) : Q :=
  let h := (elev_at y r - elev_at y v)%Q in
  let L1 := Qmax ((36#100) * (inject_Z (r - v) * ds / 2)) ((4#10) * h) in
  hill h L1 (4 * L1) (h / (inject_Z (r - v) * ds)) (stretch y v r) (inject_Z (r - k) * ds).
(** Its upwind reach. *)
Definition hill_reach (y : list Q) (v r : Z) (ds : Q) : Q :=
  4 * Qmax ((36#100) * (inject_Z (r - v) * ds / 2)) ((4#10) * (elev_at y r - elev_at y v)).

(** Elevation factor of the Tasmanian box. *)
Definition tas_factor (box : bool) (e : num) : Q :=
  match e with Num h => if box && Qltb 500 h then (1 + (15#100000) * h)%Q else 1%Q | NaN => 1%Q end.

(** The raster cells among a cell and its eight neighbours, and the sum of a
    field over them. *)
Definition around (rows cols r c : Z) : list (Z * Z) :=
  filter (fun p => (0 <=? fst p) && (fst p <? rows) && ((0 <=? snd p) && (snd p <? cols)))
    [(r - 1, c - 1); (r - 1, c); (r - 1, c + 1); (r, c - 1); (r, c); (r, c + 1); (r + 1, c - 1); (r + 1, c); (r + 1, c + 1)].
Definition total (l : list Q) : Q := fold_right Qplus 0%Q l.

(** The cells of a raster met when walking downwind from (r0, c0): [n] of them
    before leaving the raster.  (r0, c0) is on the upwind edge. *)
Definition down_cell (d : dir) (t r0 c0 : Z) : Z * Z := up_pixel d (- t) r0 c0.
Definition wind_line (rows cols : Z) (d : dir) (r0 c0 n : Z) : Prop :=
  inside rows cols (r0, c0) = true /\ inside rows cols (up_pixel d 1 r0 c0) = false /\ 1 <= n /\
  (forall t, 0 <= t < n -> inside rows cols (down_cell d t r0 c0) = true) /\
  inside rows cols (down_cell d n r0 c0) = false.

(** Elevations along such a line, missing ones read as sea level. *)
Definition or_sea (x : num) : Q := match x with NaN => 0%Q | Num h => h end.
Definition line_profile (elev : grid num) (d : dir) (r0 c0 n : Z) : list Q :=
  map (fun t => or_sea (g_at elev (fst (down_cell d t r0 c0)) (snd (down_cell d t r0 c0)))) (zrange n).

(** A no-data value or NaN is missing. *)
Definition dem_missing (nodata : option Q) (x : num) : Prop :=
  match x with NaN => True | Num q => match nodata with Some n => (q == n)%Q | None => False end end.
