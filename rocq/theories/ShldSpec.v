(** * Vocabulary for the shielding properties. *)
From Verif Require Import Base NameModel TerrSpec.
Open Scope Z_scope.

(** Compass bearing, in degrees, of each direction. *)
Definition bearing (d : dir) : Q :=
  match d with N_ => 0 | NE => 45 | E_ => 90 | SE => 135 | S_ => 180 | SW => 225 | W_ => 270 | NW => 315 end%Q.

(** Aspect [a] lies in the 45-degree sector centred on [d] (lower edge included). *)
Definition in_sector (d : dir) (a : Q) : Prop :=
  exists k : Z, (bearing d - (225#10) <= a + 360 * inject_Z k /\ a + 360 * inject_Z k < bearing d + (225#10))%Q.

(** Row/column offsets (from the pixel) of the cells that shield it from wind
    of direction [d], for a reach of [s] pixels.  Cardinal: 1..s steps upwind, plus
    one cell either side from the second step on.  Diagonal: x >= 1 steps along
    one axis and y >= 1 along the other with x + y <= s + 1. *)
Definition is_diagonal (d : dir) : bool := match d with NE | NW | SE | SW => true | _ => false end.
Definition shield_cells (d : dir) (s : Z) : list (Z * Z) :=
  let '(ur, uc) := upwind d in
  if is_diagonal d then
    flat_map (fun x => map (fun y => (y * ur, x * uc)) (range2 1 (s + 2 - x))) (range2 1 (s + 1))
  else
    flat_map (fun k => map (fun t => (k * ur + t * uc, k * uc + t * ur)) (if k =? 1 then [0] else [-1; 0; 1])) (range2 1 (s + 1)).

(** The initial shielding seen at (r, c): cells outside the raster count as 1. *)
Definition seen (im : grid num) (r c : Z) : num :=
  if inside (g_rows im) (g_cols im) (r, c) then g_at im r c else Num 1.

(** Sum of possibly missing values: missing when one is missing. *)
Fixpoint num_sum (l : list num) : option Q :=
  match l with
  | [] => Some 0%Q
  | NaN :: _ => None
  | Num q :: l' => match num_sum l' with Some s => Some (q + s)%Q | None => None end
  end.
(** Equally weighted mean. *)
Definition num_mean (l : list num) : num :=
  match num_sum l with Some s => Num (s / inject_Z (zlen l)) | None => NaN end.

(** The slope correction: weight of the slope (0 up to 3.27 degrees, 1 from 12.30, linear between). *)
Definition slope_weight (s : Q) : Q :=
  if Qleb s (327#100) then 0%Q else if Qleb (1230#100) s then 1%Q else ((s - (327#100)) / (903#100))%Q.
(** Removal of conservatism. *)
Definition less_conservative (v : Q) : Q := if Qltb v (9#10) then ((9#10) * v)%Q else (v * v)%Q.
