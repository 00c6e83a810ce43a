(** * Topographic multiplier: topographic/{findpeaks,mh,multiplier_calc,make_path,topo_mult}.py

    A profile (elevations along one traversal line) is a [list Q].  In
    mh.py every float operation is followed by the rounding function [fl], and
    literals are rounded too; findpeaks.py only uses the sign of differences,
    which float subtraction preserves, so it is modelled exactly. *)
From Verif Require Import Base NameModel.
Open Scope Z_scope.

(** ** numpy helpers *)

(** [np.diff] on floats and on integers. *)
Fixpoint np_diff (y : list Q) : list Q :=
  match y with a :: ((b :: _) as t) => (b - a)%Q :: np_diff t | _ => [] end.
Fixpoint z_diff (y : list Z) : list Z :=
  match y with a :: ((b :: _) as t) => (b - a) :: z_diff t | _ => [] end.

(** [(cond(l)).nonzero()]: indices, ascending, where the condition holds. *)
Definition np_where (p : Q -> bool) (l : list Q) : list Z :=
  filter (fun i => match nth_error l (Z.to_nat i) with Some q => p q | None => false end) (zrange (zlen l)).

(** [np.intersect1d] of two ascending duplicate-free index lists. *)
Definition np_intersect (a b : list Z) : list Z := filter (fun i => existsb (Z.eqb i) b) a.

(** [np.compress(cond, l)]. *)
Fixpoint np_compress {A} (cond : list bool) (l : list A) : list A :=
  match cond, l with
  | c :: cs, x :: xs => if c then x :: np_compress cs xs else np_compress cs xs
  | _, _ => []
  end.

(** Float division of numpy scalars: a zero divisor gives inf/nan. *)
Definition fdiv (fl : Q -> Q) (x y : Q) : res Q :=
  if Qeq_bool y 0 then Err NonFinite else Ok (fl (x / y)%Q).

(** ** findpeaks.py *)

(** findpeaks.py:44-51: drop index 0 when the profile starts with a plateau
    that first rises. *)
Definition trim_start (dy : list Q) (ind : list Z) : res (list Z) :=
  let* i0 := pyget ind 0 in
  if i0 =? 0 then
    let* d0 := pyget dy 0 in
    if Qeq_bool d0 0 then
      let nz := np_where (fun d => negb (Qeq_bool d 0)) dy in
      let* j := pyget nz 0 in
      let* dj := pyget dy j in
      if Qltb 0 dj then Ok (skipn 1 ind) else Ok ind
    else Ok ind
  else Ok ind.

(** findpeaks.py:53-60. *)
Definition trim_end (n : Z) (dy : list Q) (ind : list Z) : res (list Z) :=
  let* il := pyget ind (-1) in
  if il =? n then
    let* dl := pyget dy (-1) in
    if Qeq_bool dl 0 then
      let nz := np_where (fun d => negb (Qeq_bool d 0)) dy in
      let* j := pyget nz (-1) in
      let* dj := pyget dy j in
      if Qltb dj 0 then Ok (firstn (length ind - 2) ind) else Ok ind
    else Ok ind
  else Ok ind.

(** findpeaks.py:11-66. *)
Definition findpeaks (y : list Q) : res (list Z) :=
  let dy := np_diff y in
  if zlen y =? 0 then Ok []
  else if zlen y =? 1 then Ok [0]
  else
    let dy_z := np_where (fun d => Qeq_bool d 0) dy in
    if zlen dy =? zlen dy_z then Ok []
    else
      let dy_a1 := dy ++ [0%Q] in
      let dy_a2 := 1%Q :: dy in
      let ind_a1 := np_where (fun d => Qleb d 0) dy_a1 in
      let ind_a2 := np_where (fun d => Qltb 0 d) dy_a2 in
      let ind := np_intersect ind_a1 ind_a2 in
      if zlen ind =? 0 then Ok ind
      else
        let* ind := trim_start dy ind in
        let* ind := trim_end (zlen y) dy ind in
        let ind_v := 0 :: z_diff ind in
        Ok (np_compress (map (fun v => negb (v =? 1)) ind_v) ind).

(** findpeaks.py:69-86. *)
Definition findvalleys (y : list Q) : res (list Z) :=
  let y' := map Qopp y in
  let yud := rev y' in
  let* ind := findpeaks yud in
  let valley := map (fun i => zlen y' - i - 1) ind in
  Ok (rev valley).

(** ** mh.py *)

(** mh.py:11-49.  [beta_ind] is a float holding an integer. *)
Definition escarpment_factor (fl : Q -> Q) (profile : list Q) (ridge valley : Z) (ds : Q) : res Q :=
  let max_escarp := 3%Q in
  let min_escarp := (1#2)%Q in
  let nrow := zlen profile in
  let* pr := pyget profile ridge in
  let* pv := pyget profile valley in
  let h := fl (pr - pv)%Q in
  let lu := fl (fl (inject_Z (Z.abs (ridge - valley)) * ds) / 2)%Q in
  let* slope := fdiv fl h (fl (2 * lu)%Q) in
  let* w := fdiv fl (fl (2 * lu)%Q) ds in
  let beta_ind := Z.min (nrow - 1) (Qfloor (fl (inject_Z ridge + w)%Q)) in
  let* pb := pyget profile beta_ind in
  let h_r2beta := fl (pr - pb)%Q in
  let d_r2beta := fl (fl (inject_Z (beta_ind - ridge)) * ds)%Q in
  if Qltb 0 d_r2beta then
    let* slope_r2ml2 := fdiv fl h_r2beta d_r2beta in
    let* t := fdiv fl (fl (fl (15#10) * slope_r2ml2)%Q) slope in
    let e := fl (fl (25#10) - t)%Q in
    if Qltb e min_escarp then Ok min_escarp
    else if Qltb max_escarp e then Ok max_escarp
    else Ok e
  else Ok 1%Q.

(** mh.py:102-131: the value assigned to [m[k]] for a cell at signed distance
    [x] upwind of the ridge, if any. *)
Definition cell_value (fl : Q -> Q) (h l1c l2c slope esc x : Q) : res (option Q) :=
  let cap v := if Qltb (fl (171#100)) v then fl (171#100) else v in
  if Qleb 0 x && Qltb x l2c then
    let* a := fdiv fl h (fl (fl (35#10) * fl (10 + l1c))%Q) in
    let* b := fdiv fl (Qabs x) l2c in
    Ok (Some (cap (fl (1 + fl (a * fl (1 - b)))%Q)))
  else if Qltb (fl (45#100)) slope && Qltb x 0 && Qltb (fl (- h / 4)%Q) x
          && Qltb (Qabs (fl (esc - 1)%Q)) (fl (2#10)) then
    let* b := fdiv fl (Qabs x) (fl (esc * l2c)%Q) in
    Ok (Some (fl (1 + fl (fl (71#100) * fl (1 - b)))%Q))
  else if Qltb x 0 && Qltb (fl (- esc * l2c)%Q) x then
    let* a := fdiv fl h (fl (fl (35#10) * fl (10 + l1c))%Q) in
    let* b := fdiv fl (Qabs x) (fl (esc * l2c)%Q) in
    Ok (Some (cap (fl (1 + fl (a * fl (1 - b)))%Q)))
  else Ok None.

(** [np.ones((n, 1))] *)
Definition ones (n : Z) : list Q := map (fun _ => 1%Q) (zrange n).

(** mh.py:52-133. *)
Definition mh_calc (fl : Q -> Q) (profile : list Q) (ridge valley : Z) (ds : Q) : res (list Q) :=
  let h_threshold := 10%Q in
  let lu_threshold := ds in
  let nrow := zlen profile in
  let m := ones nrow in
  let* pr := pyget profile ridge in
  let* pv := pyget profile valley in
  let h := fl (pr - pv)%Q in
  let lu := fl (fl (inject_Z (Z.abs (ridge - valley)) * ds) / 2)%Q in
  let* slope := fdiv fl h (fl (2 * lu)%Q) in
  let l1c := Qmax (fl (fl (36#100) * lu)%Q) (fl (fl (4#10) * h)%Q) in
  let l2c := fl (4 * l1c)%Q in
  let* esc := escarpment_factor fl profile ridge valley ds in
  let* u := fdiv fl l2c ds in
  let fl2_ind := Qmax 0 (fl (inject_Z ridge - inject_Z (Qfloor u))%Q) in
  if Qltb slope (fl (5#100)) || Qltb h h_threshold || Qltb lu lu_threshold then Ok m
  else
    let l1 := Qfloor fl2_ind - 1 in
    let* w := fdiv fl (fl (esc * l2c)%Q) ds in
    let l2 := Qfloor (fl (Qmin (inject_Z (nrow - 1)) (fl (inject_Z ridge + inject_Z (Qfloor w))%Q) + 1)%Q) in
    foldM (fun m k =>
      let x := fl (inject_Z (ridge - k) * ds)%Q in
      let* v := cell_value fl h l1c l2c slope esc x in
      match v with Some v => pyset m k v | None => Ok m end) (range2 l1 l2) m.

(** ** multiplier_calc.py *)

(** [np.maximum] of two arrays of one shape. *)
Fixpoint maximum (a b : list Q) : list Q :=
  match a, b with x :: xs, y :: ys => Qmax x y :: maximum xs ys | _, _ => [] end.

(** multiplier_calc.py:50-53 and 56-59: one step of the loop. *)
Definition mh_step (fl : Q -> Q) (line : list Q) (ridges valleys : list Z) (ds : Q) (off : Z) (m_array : list Q) (i : Z) : res (list Q) :=
  let* r := pyget ridges i in
  let* v := pyget valleys (i - off) in
  let* m := mh_calc fl line r v ds in
  Ok (maximum m_array m).

(** multiplier_calc.py:16-61. *)
Definition multiplier_calc (fl : Q -> Q) (line : list Q) (ds : Q) : res (list Q) :=
  let m_array := ones (zlen line) in
  let fwd_line := map (fun q => inject_Z (Qfloor q)) line in
  let* ridge_ind := findpeaks fwd_line in
  let* valley_ind := findvalleys fwd_line in
  if zlen ridge_ind =? 0 then Ok m_array
  else
    let* r0 := pyget ridge_ind 0 in
    if (zlen ridge_ind =? 1) && (r0 =? 0) then Ok m_array
    else if r0 =? 0 then
      foldM (mh_step fl fwd_line ridge_ind valley_ind ds 1) (range2 1 (zlen ridge_ind)) m_array
    else
      foldM (mh_step fl fwd_line ridge_ind valley_ind ds 0) (range2 0 (zlen ridge_ind)) m_array.

(** ** make_path.py *)

(** [dire.find('n') >= 0] and so on (make_path.py:34-46, topo_mult.py:95-102). *)
Definition has_n (d : dir) : bool := match d with N_ | NE | NW => true | _ => false end.
Definition has_s (d : dir) : bool := match d with S_ | SE | SW => true | _ => false end.
Definition has_e (d : dir) : bool := match d with E_ | NE | SE => true | _ => false end.
Definition has_w (d : dir) : bool := match d with W_ | NW | SW => true | _ => false end.

Definition i_incr (d : dir) : Z := if has_n d then 1 else if has_s d then -1 else 0.
Definition j_incr (d : dir) : Z := if has_w d then 1 else if has_e d then -1 else 0.

(** make_path.py:50-54, the while loop; [fuel] bounds its iterations. *)
Fixpoint path_loop (fuel : nat) (nr nc i j di dj : Z) : list Z :=
  match fuel with
  | O => []
  | S f =>
    if (i <=? nr) && (1 <=? i) && ((j <=? nc) && (1 <=? j)) then
      (i + (j - 1) * nr - 1) :: path_loop f nr nc (i + di) (j + dj) di dj
    else []
  end.

(** make_path.py:10-56.  The indices are whole numbers held in floats; the
    division on line 29 is exact. *)
Definition make_path (nr nc n : Z) (d : dir) : list Z :=
  let i := n mod nr + 1 in
  let j := (n + 1 - i) / nr + 1 in
  path_loop (Z.to_nat (nr + nc)) nr nc i j (i_incr d) (j_incr d).

(** ** topo_mult.py *)

(** [np.unique]: ascending, without duplicates. *)
Fixpoint insert_unique (x : Z) (l : list Z) : list Z :=
  match l with
  | [] => [x]
  | y :: ys => if x <? y then x :: l else if x =? y then l else y :: insert_unique x ys
  end.
Definition np_unique (l : list Z) : list Z := fold_right insert_unique [] l.

(** topo_mult.py:94-107. *)
Definition starts (nr nc : Z) (d : dir) : list Z :=
  np_unique
    ((if has_n d then range3 0 (nr * nc) nr else []) ++
     (if has_s d then range3 (nr - 1) (nr * nc) nr else []) ++
     (if has_e d then range2 ((nc - 1) * nr) (nr * nc) else []) ++
     (if has_w d then range2 0 nr else [])).

(** topo_mult.py:82 *)
Definition topo_directions : list dir := [N_; S_; E_; W_; NE; NW; SE; SW].

(** topo_mult.py:65-69 on a float raster: no-data becomes NaN.  (Line 69,
    for a raster without a no-data value, changes nothing.) *)
Definition mask_elevation (nodata : option Q) (g : grid num) : grid num :=
  gmap (fun x => match x, nodata with
                 | Num q, Some n => if Qeq_bool q n then NaN else x
                 | _, _ => x end) g.

(** topo_mult.py:71-72: [np.transpose(elevation_array).flatten()]. *)
Definition flat {A} (g : grid A) : list A :=
  map (fun l => g_at g (l mod g_rows g) (l / g_rows g)) (zrange (g_rows g * g_cols g)).

(** topo_mult.py:117: NaN becomes 0. *)
Definition nan_to_zero (x : num) : Q := match x with NaN => 0%Q | Num q => q end.

(** [a[path] = m] for index list [path] and array [m]. *)
Definition fancy_set (a : list Q) (path : list Z) (m : list Q) : res (list Q) :=
  if zlen path =? zlen m then foldM (fun a km => pyset a (fst km) (snd km)) (combine path m) a
  else Err ValueError.

(** topo_mult.py:109-122, one line. *)
Definition topo_line (fl : Q -> Q) (nr nc : Z) (d : dir) (ds : Q) (data : list num) (mhdata : list Q) (idx : Z) : res (list Q) :=
  let path := make_path nr nc idx d in
  let* line := mapM (pyget data) path in
  let* m := multiplier_calc fl (map nan_to_zero line) ds in
  fancy_set mhdata path m.

(** topo_mult.py:125-126: [np.transpose(np.reshape(mhdata, (nc, nr)))]. *)
Definition unflat (nr nc : Z) (a : list Q) : grid Q :=
  Grid nr nc (fun r c => nth (Z.to_nat (c * nr + r)) a 0%Q).

(** topo_mult.py:173-191, per cell. *)
Definition remove_conservatism (x : Q) : Q :=
  if Qltb 1 x && Qltb x (14#10) then (x * ((125#100) - (25#100) * x))%Q
  else if Qleb (14#10) x then (x * (9#10))%Q
  else x.

(** topo_mult.py:156-170, per cell. *)
Definition tasmania (x : Q) (dem : num) : Q :=
  match dem with
  | Num e => if Qltb 500 e then (x * (1 + (15#100000) * e))%Q else x
  | NaN => x
  end.

(** topo_mult.py:132: [x_left > 143.0 and y_upper > 40.0] ([y_upper] is the
    negated northern edge). *)
Definition in_tasmania (x_left y_upper : Q) : bool := Qltb 143 x_left && Qltb 40 y_upper.

(** [signal.convolve(g, np.ones((3, 3)) / 9., mode='same')]: zero padding. *)
Definition qget (g : grid Q) (r c : Z) : Q :=
  if (0 <=? r) && (r <? g_rows g) && ((0 <=? c) && (c <? g_cols g)) then g_at g r c else 0%Q.
Definition smooth (g : grid Q) : grid Q :=
  Grid (g_rows g) (g_cols g) (fun r c =>
    fold_right (fun o s => (qget g (r + fst o) (c + snd o) * (1 / 9) + s)%Q) 0%Q
      [(-1, -1); (-1, 0); (-1, 1); (0, -1); (0, 0); (0, 1); (1, -1); (1, 0); (1, 1)]).

(** topo_mult.py:87-139, one direction, up to the smoothed full-tile array.
    [sqrt2] is [math.sqrt(2)]; [cellsize] is the mean pixel size of lines 74-75. *)
Definition topo_dir (fl : Q -> Q) (sqrt2 cellsize x_left y_upper : Q) (elev : grid num) (d : dir) : res (grid num) :=
  let nr := g_rows elev in
  let nc := g_cols elev in
  let data := flat elev in
  let ds := match d with NE | NW | SE | SW => fl (cellsize * sqrt2)%Q | _ => cellsize end in
  let* mhdata := foldM (topo_line fl nr nc d ds data) (starts nr nc d) (ones (zlen data)) in
  let mh := gmap remove_conservatism (unflat nr nc mhdata) in
  let mh := if in_tasmania x_left y_upper
            then Grid nr nc (fun r c => tasmania (g_at mh r c) (g_at elev r c)) else mh in
  let mhsmooth := smooth mh in
  Ok (Grid nr nc (fun r c => match g_at elev r c with NaN => NaN | Num _ => Num (g_at mhsmooth r c) end)).

(** topo_mult.py:38-153 without files and clipping (see ClipModel.v). *)
Definition topomult (fl : Q -> Q) (sqrt2 cellsize x_left y_upper : Q) (nodata : option Q) (dem : grid num) : res (list (dir * grid num)) :=
  let elev := mask_elevation nodata dem in
  mapM (fun d => let* g := topo_dir fl sqrt2 cellsize x_left y_upper elev d in Ok (d, g)) topo_directions.
