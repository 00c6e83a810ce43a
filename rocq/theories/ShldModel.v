(** * Model of the shielding multiplier (shielding/shield_mult.py).

    Values are exact rationals with NaN (Float32 rounding is left out).  The
    slope in degrees as a function of the two gradients (np.hypot, arctan and a
    division, lines 134-136) is the parameter [slope_fn], the compass aspect
    (lines 142-143) the parameter [aspect_fn]. *)
From Verif Require Import Base NameModel TerrModel.
Open Scope Z_scope.

(** ** Aspect *)

(** [data >= x], [data < x] on a possibly-NaN float: false on NaN. *)
Definition nge (x : num) (q : Q) : bool := match x with Num a => Qleb q a | NaN => false end.
Definition ngt (x : num) (q : Q) : bool := match x with Num a => Qltb q a | NaN => false end.
Definition nlt (x : num) (q : Q) : bool := match x with Num a => Qltb a q | NaN => false end.
Definition nle (x : num) (q : Q) : bool := match x with Num a => Qleb a q | NaN => false end.

(** reclassify_aspect, shield_mult.py:66-86, one pixel. *)
Definition reclassify_aspect (x : num) : Z :=
  let o := 9 in
  let o := if nge x 0 && nlt x (225#10) then 1 else o in
  let o := if nge x (3375#10) && nle x 360 then 1 else o in
  fold_left (fun o i => if nge x ((225#10) + inject_Z (i - 2) * 45)%Q && nlt x ((675#10) + inject_Z (i - 2) * 45)%Q
                        then i else o) (range2 2 9) o.

(** value_lookup.py:25-33 *)
Definition dire_aspect (d : dir) : Z :=
  match d with N_ => 1 | NE => 2 | E_ => 3 | SE => 4 | S_ => 5 | SW => 6 | W_ => 7 | NW => 8 end.

(** ** Slope: scipy.ndimage.sobel (mode 'reflect': index -1 is 0, n is n-1) *)
Definition nadd (x y : num) : num := match x, y with Num a, Num b => Num (a + b) | _, _ => NaN end.
Definition nscale (k : Q) (x : num) : num := match x with Num a => Num (k * a) | NaN => NaN end.
Definition reflect1 (n k : Z) : Z := if k <? 0 then 0 else if n <=? k then n - 1 else k.
Definition gref (g : grid num) (r c : Z) : num := g_at g (reflect1 (g_rows g) r) (reflect1 (g_cols g) c).

(** [sobel(axis=1)]: difference along columns, smoothing along rows; [axis=0] the converse.
    The centre cell of the difference has weight 0 but is read, so NaN there spreads. *)
Definition sobel_x (g : grid num) (r c : Z) : num :=
  let d r := nadd (nscale 0 (gref g r c)) (nadd (gref g r (c + 1)) (nscale (-1) (gref g r (c - 1)))) in
  nadd (nadd (d (reflect1 (g_rows g) (r - 1))) (nscale 2 (d r))) (d (reflect1 (g_rows g) (r + 1))).
Definition sobel_y (g : grid num) (r c : Z) : num :=
  let d c := nadd (nscale 0 (gref g r c)) (nadd (gref g (r + 1) c) (nscale (-1) (gref g (r - 1) c))) in
  nadd (nadd (d (reflect1 (g_cols g) (c - 1))) (nscale 2 (d c))) (d (reflect1 (g_cols g) (c + 1))).

(** shield_mult.py:115-119: the no-data value (if any) becomes NaN. *)
Definition mask_nodata (nodata : option Q) (g : grid num) : grid num :=
  gmap (fun x => match nodata, x with Some n, Num q => if Qeq_bool q n then NaN else x | _, _ => x end) g.

(** get_slope_aspect, shield_mult.py:121-150: [px], [py] pixel size in degrees, [xm], [ym] in metres. *)
Definition get_slope_aspect (slope_fn aspect_fn : Q -> Q -> Q) (nodata : option Q) (dem : grid num) (px py : Q) (xm ym : grid Q)
  : grid num * grid Z :=
  let e := mask_nodata nodata dem in
  let dzdx r c := nscale (px / g_at xm r c) (nscale (1 / (8 * px)) (sobel_x e r c)) in
  let dzdy r c := nscale (py / g_at ym r c) (nscale (1 / (8 * py)) (sobel_y e r c)) in
  let ap (f : Q -> Q -> Q) (a b : num) := match a, b with Num x, Num y => Num (f x y) | _, _ => NaN end in
  (Grid (g_rows e) (g_cols e) (fun r c => match g_at e r c with NaN => NaN | Num _ => ap slope_fn (dzdx r c) (dzdy r c) end),
   Grid (g_rows e) (g_cols e) (fun r c => reclassify_aspect (ap aspect_fn (dzdx r c) (dzdy r c)))).

(** ** Initial shielding: terrain_class2ms_orig, shield_mult.py:192-218.
    [cast] is what storing -99 in the class array's integer type gives: -99
    itself for signed types, 157 for unsigned bytes. *)
Definition class2ms (cast : Z -> Z) (nodata : option Z) (table : list (Z * Q)) (data : grid Z) : grid num :=
  let data' := gmap (fun x => match nodata with Some n => if x =? n then cast (-99) else x | None => x end) data in
  gmap (fun x => if x =? -99 then NaN
                 else fold_left (fun acc row => if x =? fst row then Num (snd row / 100) else acc) table (Num 1)) data'.

(** ** Kernels *)

(** numpy slice assignment [k[a0:a1, b0:b1] = v], non-negative bounds. *)
Definition set_slice {A} (a0 a1 b0 b1 : Z) (v : A) (g : grid A) : grid A :=
  Grid (g_rows g) (g_cols g) (fun a b => if (a0 <=? a) && (a <? a1) && (b0 <=? b) && (b <? b1) then v else g_at g a b).
Definition zeros (n : Z) : grid Q := Grid n n (fun _ _ => 0%Q).
Definition grid_sum (g : grid Q) : Q := fold_right Qplus 0%Q (grid_cells g).
Definition normalise (g : grid Q) : grid Q := gmap (fun x => (x / grid_sum g)%Q) g.

(** init_kern_diag, shield_mult.py:409-415 *)
Definition init_kern_diag (size : Z) : grid Q :=
  normalise (fold_left (fun k i => set_slice (i - 1) size (size + i) (size + i + 1) 1%Q k) (range2 1 (size + 1)) (zeros (2 * size + 1))).

(** init_kern, shield_mult.py:428-436 *)
Definition init_kern (size : Z) : grid Q :=
  let k := fold_left (fun k i => set_slice (i + size) (i + size + 1) size (size + 1) 1%Q k) (range2 1 (size + 1)) (zeros (2 * size + 1)) in
  let k := fold_left (fun k i => set_slice (size + i) (2 * size + 1) (size - 1) (size + 2) 1%Q k) (range2 2 (size + 1)) k in
  normalise k.

(** np.rot90(m, 1), np.flipud, np.fliplr *)
Definition rot90 {A} (g : grid A) : grid A := Grid (g_cols g) (g_rows g) (fun i j => g_at g j (g_cols g - 1 - i)).
Definition flipud {A} (g : grid A) : grid A := Grid (g_rows g) (g_cols g) (fun i j => g_at g (g_rows g - 1 - i) j).
Definition fliplr {A} (g : grid A) : grid A := Grid (g_rows g) (g_cols g) (fun i j => g_at g i (g_cols g - 1 - j)).

(** kern_*, shield_mult.py:439-540 *)
Definition kern (d : dir) (size : Z) : grid Q :=
  match d with
  | W_ => rot90 (init_kern size)
  | E_ => rot90 (rot90 (rot90 (init_kern size)))
  | N_ => init_kern size
  | S_ => rot90 (rot90 (init_kern size))
  | NE => flipud (fliplr (init_kern_diag size))
  | NW => flipud (init_kern_diag size)
  | SW => init_kern_diag size
  | SE => fliplr (init_kern_diag size)
  end.

(** blur_image, shield_mult.py:543-554: scipy.ndimage.convolve with mode
    'constant', cval 1; scipy only visits the kernel's non-zero weights. *)
Definition cval (im : grid num) (r c : Z) : num :=
  if (0 <=? r) && (r <? g_rows im) && (0 <=? c) && (c <? g_cols im) then g_at im r c else Num 1.
Definition kernel_cells (k : grid Q) : list (Z * Z) :=
  filter (fun p => negb (Qeq_bool (g_at k (fst p) (snd p)) 0))
    (flat_map (fun a => map (fun b => (a, b)) (zrange (g_cols k))) (zrange (g_rows k))).
Definition blur (im : grid num) (k : grid Q) : grid num :=
  Grid (g_rows im) (g_cols im) (fun i j =>
    fold_left (fun acc p => nadd acc (nscale (g_at k (fst p) (snd p))
                (cval im (i - (fst p - g_rows k / 2)) (j - (snd p - g_cols k / 2))))) (kernel_cells k) (Num 0)).

(** ** combine, shield_mult.py:350-397, one pixel *)
Definition combine_cell (d : dir) (slope : num) (aspect : Z) (ms : num) : num :=
  let out := match ms with NaN => (-99)%Q | Num v => v end in
  let facing := aspect =? dire_aspect d in
  let up := nge slope (1230#100) && facing in
  let middle := ngt slope (327#100) && nlt slope (1230#100) && facing in
  let out1 := if up then 1%Q else out in
  let out2 := if middle then
      match slope with
      | Num s => ((1 - out1) * (s - (327#100)) / ((1230#100) - (327#100)) + out1)%Q
      | NaN => out1 end
    else out1 in
  let out3 := if Qltb out2 (9#10) then (out2 * (9#10))%Q else (out2 * out2)%Q in
  match ms with NaN => NaN | Num _ => Num out3 end.
Definition combine (d : dir) (slope : grid num) (aspect : grid Z) (ms : grid num) : grid num :=
  Grid (g_rows ms) (g_cols ms) (fun r c => combine_cell d (g_at slope r c) (g_at aspect r c) (g_at ms r c)).

(** ** convo_combine, shield_mult.py:290-330: the loop over directions.  For a
    zero kernel [outdata] is the array [data] itself and [combine] changes it in place. *)
Definition kernel_size (fl : Q -> Q) (gw : Q) : Z := py_int (fl (100 / gw)%Q).
Fixpoint convo_dirs (size : Z) (slope : grid num) (aspect : grid Z) (ds : list dir) (data : grid num) : list (dir * grid num) :=
  match ds with
  | [] => []
  | d :: ds' =>
      if 0 <? size then (d, combine d slope aspect (blur data (kern d size))) :: convo_dirs size slope aspect ds' data
      else let r := combine d slope aspect data in (d, r) :: convo_dirs size slope aspect ds' r
  end.
Definition convo_combine (fl : Q -> Q) (gw : Q) (slope : grid num) (aspect : grid Z) (data : grid num) : list (dir * grid num) :=
  convo_dirs (kernel_size fl gw) slope aspect dire data.

(** shield, shield_mult.py:39-63, on arrays: [gw] is the mean pixel size computed at 282-283. *)
Definition shield (slope_fn aspect_fn : Q -> Q -> Q) (fl : Q -> Q) (cast : Z -> Z) (table : list (Z * Q))
    (terrain_nodata : option Z) (terrain : grid Z) (dem_nodata : option Q) (dem : grid num) (px py : Q) (xm ym : grid Q) (gw : Q)
  : list (dir * grid num) :=
  let '(slope, aspect) := get_slope_aspect slope_fn aspect_fn dem_nodata dem px py xm ym in
  convo_combine fl gw slope aspect (class2ms cast terrain_nodata table terrain).
