(** * What the stages of a tile do with its mean pixel size before anything else. *)
From Verif Require Import Base BlrbModel TerrModel ShldModel.
Open Scope Z_scope.

(** np.mean of a grid: NaN if any cell is NaN.  (Single-precision rounding is left out.) *)
Definition np_mean (g : grid num) : num :=
  match fold_left nadd (concat (glist g)) (Num 0) with
  | Num s => Num (s / inject_Z (g_rows g * g_cols g))
  | NaN => NaN
  end.
(** terrain_mult.py:65-66, shield_mult.py:282-283: the mean pixel size of a tile.  [size x y]
    is get_pixel_size (see BlrbModel.v). *)
Definition gridwidth (size : Z -> Z -> Q * Q) (rows cols : Z) : res num :=
  let* (xg, yg) := get_pixel_size_grids size rows cols in
  Ok (match np_mean xg, np_mean yg with Num a, Num b => Num ((1 # 2) * (a + b)) | _, _ => NaN end).

(** int(f(metres / gridwidth)) on NumPy numbers: int of NaN raises ValueError, int of infinity
    OverflowError, here [NonFinite].  Rounding of the quotient is left out. *)
Definition cells_in (f : Q -> Z) (metres : Q) (gw : num) : res Z :=
  match gw with
  | NaN => Err ValueError
  | Num g => if Qeq_bool g 0 then Err NonFinite else Ok (f (metres / g)%Q)
  end.

(** terrain, terrain_mult.py:60-116, up to the widths of each direction.  [land] says whether
    some pixel has a terrain class of the table; if none has, the function returns (line 84-87). *)
Definition terrain_widths (size : Z -> Z -> Q * Q) (rows cols : Z) (land : bool) : res (list (Z * Z)) :=
  let* gw := gridwidth size rows cols in
  if land then
    mapM (fun d =>
      if is_cardinal d then
        let* a := cells_in np_around 500 gw in let* l := cells_in np_around 200 gw in Ok (a, l)
      else
        let* a := cells_in py_int (500 / (1414 # 1000)) gw in let* l := cells_in py_int (200 / (1414 # 1000)) gw in Ok (a, l)) dire
  else Ok [].

(** shield, shield_mult.py:39-60: get_slope_aspect (123) and convo_combine (282-305) up to the
    size of the kernel. *)
Definition shield_kernel (size : Z -> Z -> Q * Q) (rows cols : Z) : res Z :=
  let* _ := get_pixel_size_grids size rows cols in
  let* gw := gridwidth size rows cols in
  cells_in py_int 100 gw.

(** The two stages one after the other, all_multipliers.py:393-412. *)
Definition tile_widths (size : Z -> Z -> Q * Q) (rows cols : Z) (land : bool) : res (list (Z * Z) * Z) :=
  let* w := terrain_widths size rows cols land in
  let* k := shield_kernel size rows cols in
  Ok (w, k).
