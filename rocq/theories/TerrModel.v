(** * Model of the terrain multiplier (terrain/terrain_mult.py, utilities/value_lookup.py).

    Multiplier values are exact rationals (Float32 rounding of sums is left
    out); NaN is represented by [num].  The mean pixel size [gw] in metres is an
    input; the rounding of the two width computations is the parameter [fl]. *)
From Verif Require Import Base NameModel.
Open Scope Z_scope.

(** value_lookup.py:36-52 *)
Definition all_neighb (d : dir) (i jj rows cols lag : Z) : Z :=
  match d with
  | W_ => jj - lag
  | E_ => cols - jj - 1 - lag
  | N_ => i - lag
  | S_ => rows - i - 1 - lag
  | NW => Z.min i jj - lag
  | NE => Z.min i (cols - jj - 1) - lag
  | SW => Z.min (rows - i - 1) jj - lag
  | SE => Z.min (rows - i - 1) (cols - jj - 1) - lag
  end.

(** value_lookup.py:55-63 *)
Definition point_r (d : dir) (i m lag : Z) : Z :=
  match d with
  | W_ | E_ => i
  | N_ | NW | NE => i - m - lag - 1
  | S_ | SW | SE => i + m + lag + 1
  end.

(** value_lookup.py:66-74 *)
Definition point_c (d : dir) (jj m lag : Z) : Z :=
  match d with
  | W_ | NW | SW => jj - m - lag - 1
  | E_ | NE | SE => jj + m + lag + 1
  | N_ | S_ => jj
  end.

(** Python [x / y] on Python floats. *)
Definition py_div (x y : Q) : res Q := if Qeq_bool y 0 then Err ZeroDivisionError else Ok (x / y)%Q.

(** terrain_mult.py:223-247, one pixel. *)
Definition convo_cell (d : dir) (data : grid Q) (avg lag i jj : Z) : res Q :=
  let n := all_neighb d i jj (g_rows data) (g_cols data) lag in
  if 0 <? n then
    let mx := if n <? avg then n else avg in
    let* s := foldM (fun s m =>
                let* v := gget data (point_r d i m lag) (point_c d jj m lag) in Ok (s + v)%Q) (zrange mx) 0%Q in
    py_div s (inject_Z mx)
  else gget data i jj.

(** A loop over all pixels that stops at the first exception. *)
Definition grid_loop {A} (dflt : A) (rows cols : Z) (f : Z -> Z -> res A) : res (grid A) :=
  let* _ := mapM (fun i => mapM (f i) (zrange cols)) (zrange rows) in
  Ok (Grid rows cols (fun i j => match f i j with Ok a => a | Err _ => dflt end)).

(** convo, terrain_mult.py:199-248. *)
Definition convo (d : dir) (data : grid Q) (avg lag : Z) : res (grid Q) :=
  grid_loop 0%Q (g_rows data) (g_cols data) (convo_cell d data avg lag).

(** terrain_class2mz_orig, terrain_mult.py:178-196: the table gives, per row, the
    category and its multiplier (see C27 for the formula); later rows overwrite. *)
Definition class2mz (table : list (Z * num)) (data : grid Z) : grid num :=
  Grid (g_rows data) (g_cols data) (fun r c =>
    fold_left (fun acc row => if g_at data r c =? fst row then snd row else acc) table (Num 0)).

(** np.max over all pixels: NaN propagates. *)
Definition num_max (x y : num) : num :=
  match x, y with Num a, Num b => Num (if Qltb a b then b else a) | _, _ => NaN end.
Definition grid_cells {A} (g : grid A) : list A :=
  flat_map (fun r => map (fun c => g_at g r c) (zrange (g_cols g))) (zrange (g_rows g)).
Definition np_max (g : grid num) : res num :=
  match grid_cells g with [] => Err ValueError | x :: xs => Ok (fold_left num_max xs x) end.
Definition is_zero (x : num) : bool := match x with Num q => Qeq_bool q 0 | NaN => false end.

Definition is_cardinal (d : dir) : bool := match d with W_ | E_ | N_ | S_ => true | _ => false end.

(** terrain_mult.py:103-116. *)
Definition widths (fl : Q -> Q) (gw : Q) (d : dir) : Z * Z :=
  if is_cardinal d then (np_around (fl (500 / gw)%Q), np_around (fl (200 / gw)%Q))
  else let g := fl (gw * fl (1414 # 1000))%Q in (py_int (fl (500 / g)%Q), py_int (fl (200 / g)%Q)).

(** terrain_mult.py:118-129, one direction: [init] is reclassified_array after
    line 91 (NaN where there is no terrain class). *)
Definition fill (init : grid num) : grid Q := gmap (fun x => match x with Num q => q | NaN => 1%Q end) init.
Definition terrain_dir (d : dir) (init : grid num) (avg lag : Z) : res (grid num) :=
  let filled := fill init in
  if g_rows init <? lag then Ok (gmap Num filled)
  else
    let avg' := if g_rows init <? avg + lag then g_rows init - lag else avg in
    let* o := convo d filled avg' lag in
    Ok (Grid (g_rows o) (g_cols o) (fun r c => match g_at init r c with NaN => NaN | Num _ => Num (g_at o r c) end)).

(** Line 91. *)
Definition zero_to_nan (g : grid num) : grid num := gmap (fun x => if is_zero x then NaN else x) g.

Definition dire : list dir := [W_; E_; N_; S_; NW; NE; SE; SW].

(** terrain, terrain_mult.py:82-129: [None] when the tile is skipped,
    otherwise the raster of each direction (before clipping). *)
Definition terrain (fl : Q -> Q) (table : list (Z * num)) (data : grid Z) (gw : Q) : res (option (list (dir * grid num))) :=
  let re := class2mz table data in
  let* mx := np_max re in
  if is_zero mx then Ok None
  else
    let init := zero_to_nan re in
    let* l := mapM (fun d => let '(avg, lag) := widths fl gw d in
                      let* o := terrain_dir d init avg lag in Ok (d, o)) dire in
    Ok (Some l).
