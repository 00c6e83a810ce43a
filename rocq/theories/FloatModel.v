(** * Multipliers with the rounding of the arrays they are computed in.

    The functions of [TerrModel] and [ShldModel] again, with every operation
    rounded: [sgl] to single and [dbl] to double precision.  Exponents are
    unbounded (no overflow, no underflow).  NumPy is 1.x, the last to support
    the Python of wmenv.yml: a Python number combined with an array of singles
    gives singles, combined with one element of it gives a double. *)
From Verif Require Import Base NameModel TerrModel ShldModel FloatSpec.
Open Scope Z_scope.

(** Round to nearest, ties to even, [p] bits. *)
Definition pow2 (e : Z) : Q := Qpower 2 e.
Definition expo (x : Q) : Z :=
  let e0 := (Z.log2 (Qnum x) - Z.log2 (Zpos (Qden x)))%Z in
  if Qle_bool (pow2 e0) x then e0 else (e0 - 1)%Z.
Definition rnd_pos (p : Z) (x : Q) : Q :=
  let s := pow2 (expo x - (p - 1)) in (inject_Z (np_around (x / s)) * s)%Q.
Definition rnd (p : Z) (x : Q) : Q :=
  match Qnum x with
  | Z0 => 0%Q
  | Zpos _ => rnd_pos p x
  | Zneg _ => (- rnd_pos p (- x))%Q
  end.

Section Floats.
  (** [acc] rounds the running sum of the terrain average, see below. *)
  Variables acc dbl sgl : Q -> Q.

  (** terrain_mult.py:223-247, one pixel.  [neighbour_sum] starts as the Python
      number 0, so it is a double after the first addition. *)
  Definition convo_cell_fl (d : dir) (data : grid Q) (avg lag i jj : Z) : res Q :=
    let n := all_neighb d i jj (g_rows data) (g_cols data) lag in
    if 0 <? n then
      let mx := if n <? avg then n else avg in
      let* s := foldM (fun s m =>
                  let* v := gget data (point_r d i m lag) (point_c d jj m lag) in Ok (acc (s + v))) (zrange mx) 0%Q in
      let* a := py_div s (inject_Z mx) in Ok (sgl (dbl a))
    else let* v := gget data i jj in Ok (sgl v).
  Definition convo_fl (d : dir) (data : grid Q) (avg lag : Z) : res (grid Q) :=
    grid_loop 0%Q (g_rows data) (g_cols data) (convo_cell_fl d data avg lag).

  (** terrain_mult.py:118-129. *)
  Definition terrain_dir_fl (d : dir) (init : grid num) (avg lag : Z) : res (grid num) :=
    let filled := fill init in
    if g_rows init <? lag then Ok (gmap Num filled)
    else
      let avg' := if g_rows init <? avg + lag then g_rows init - lag else avg in
      let* o := convo_fl d filled avg' lag in
      Ok (Grid (g_rows o) (g_cols o) (fun r c => match g_at init r c with NaN => NaN | Num _ => Num (g_at o r c) end)).

  (** terrain_mult.py:82-129; the reclassified array is of singles (line 188). *)
  Definition terrain_fl (fl : Q -> Q) (table : list (Z * num)) (data : grid Z) (gw : Q) : res (option (list (dir * grid num))) :=
    let re := class2mz (map (fun row => (fst row, nround sgl (snd row))) table) data in
    let* mx := np_max re in
    if is_zero mx then Ok None
    else
      let init := zero_to_nan re in
      let* l := mapM (fun d => let '(avg, lag) := widths fl gw d in
                        let* o := terrain_dir_fl d init avg lag in Ok (d, o)) dire in
      Ok (Some l).

  (** shield_mult.py:206-216: [Ms / 100.] is a double, the array is of singles. *)
  Definition class2ms_fl (cast : Z -> Z) (nodata : option Z) (table : list (Z * Q)) (data : grid Z) : grid num :=
    gmap (nround (fun q => sgl (dbl q))) (class2ms cast nodata table data).

  (** shield_mult.py:400-540: the weights are doubles; turning and flipping move them. *)
  Definition kern_fl (d : dir) (size : Z) : grid Q := gmap dbl (kern d size).

  (** blur_image, shield_mult.py:543-554: scipy.ndimage.convolve adds the products in
      double precision, in the order of the kernel, into an array of singles. *)
  Definition blur_fl (im : grid num) (k : grid Q) : grid num :=
    Grid (g_rows im) (g_cols im) (fun i j =>
      nround sgl (fold_left (fun a p => nround dbl (nadd a (nround dbl (nscale (g_at k (fst p) (snd p))
                (cval im (i - (fst p - g_rows k / 2)) (j - (snd p - g_cols k / 2))))))) (kernel_cells k) (Num 0))).

  (** combine, shield_mult.py:350-397, one pixel: slopes are doubles, shielding
      values singles, and so is [conservatism] where it meets them. *)
  Definition combine_cell_fl (d : dir) (slope : num) (aspect : Z) (ms : num) : num :=
    let out := match ms with NaN => (-99)%Q | Num v => v end in
    let facing := aspect =? dire_aspect d in
    let up_degree := dbl (1230#100) in
    let low_degree := dbl (327#100) in
    let conservatism := sgl (dbl (9#10)) in
    let up := nge slope up_degree && facing in
    let middle := ngt slope low_degree && nlt slope up_degree && facing in
    let out1 := if up then 1%Q else out in
    let out2 := if middle then
        match slope with
        | Num s => sgl (dbl (dbl (dbl (sgl (1 - out1) * dbl (s - low_degree)) / dbl (up_degree - low_degree)) + out1))
        | NaN => out1 end
      else out1 in
    let out3 := if Qltb out2 conservatism then sgl (out2 * conservatism) else sgl (out2 * out2) in
    match ms with NaN => NaN | Num _ => Num out3 end.
  Definition combine_fl (d : dir) (slope : grid num) (aspect : grid Z) (ms : grid num) : grid num :=
    Grid (g_rows ms) (g_cols ms) (fun r c => combine_cell_fl d (g_at slope r c) (g_at aspect r c) (g_at ms r c)).

  (** convo_combine, shield_mult.py:290-330. *)
  Fixpoint convo_dirs_fl (size : Z) (slope : grid num) (aspect : grid Z) (ds : list dir) (data : grid num) : list (dir * grid num) :=
    match ds with
    | [] => []
    | d :: ds' =>
        if 0 <? size then (d, combine_fl d slope aspect (blur_fl data (kern_fl d size))) :: convo_dirs_fl size slope aspect ds' data
        else let r := combine_fl d slope aspect data in (d, r) :: convo_dirs_fl size slope aspect ds' r
    end.

  (** shield, shield_mult.py:39-63, from slope and aspect arrays on. *)
  Definition shield_fl (fl : Q -> Q) (cast : Z -> Z) (table : list (Z * Q)) (nodata : option Z) (terrain : grid Z)
      (slope : grid num) (aspect : grid Z) (gw : Q) : list (dir * grid num) :=
    convo_dirs_fl (kernel_size fl gw) slope aspect dire (class2ms_fl cast nodata table terrain).

  (** convert.py:135: the product of two arrays of singles. *)
  Definition mul_fl (a b : Q) : Q := sgl (a * b).
End Floats.
