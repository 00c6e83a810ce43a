(** * Vocabulary for turning and mirroring rasters (C83). *)
From Verif Require Import Base NameModel TerrSpec ShldSpec.
Open Scope Z_scope.

(** The eight symmetries of a raster: reverse the rows, reverse the columns,
    then exchange rows and columns.  (Both reversals: half a turn; one reversal
    and the exchange: a quarter turn.) *)
Record turn := Turn { rows_reversed : bool; cols_reversed : bool; exchanged : bool }.

(** Where cell (r, c) of a rows x cols raster goes. *)
Definition place (s : turn) (rows cols : Z) (p : Z * Z) : Z * Z :=
  let r := if rows_reversed s then rows - 1 - fst p else fst p in
  let c := if cols_reversed s then cols - 1 - snd p else snd p in
  if exchanged s then (c, r) else (r, c).

(** Raster [g'] is [g] turned: its cells agree with those of [g] they come
    from, in the sense of [R]. *)
Definition turned_by {A} (R : A -> A -> Prop) (s : turn) (g g' : grid A) : Prop :=
  g_rows g' = (if exchanged s then g_cols g else g_rows g) /\ g_cols g' = (if exchanged s then g_rows g else g_cols g) /\
  forall r c, inside (g_rows g) (g_cols g) (r, c) = true ->
    let p := place s (g_rows g) (g_cols g) (r, c) in R (g_at g r c) (g_at g' (fst p) (snd p)).
Definition turned {A} : turn -> grid A -> grid A -> Prop := turned_by (@eq A).

(** Where a wind direction goes. *)
Definition north_for_south (d : dir) : dir :=
  match d with N_ => S_ | S_ => N_ | NE => SE | SE => NE | NW => SW | SW => NW | E_ => E_ | W_ => W_ end.
Definition east_for_west (d : dir) : dir :=
  match d with E_ => W_ | W_ => E_ | NE => NW | NW => NE | SE => SW | SW => SE | N_ => N_ | S_ => S_ end.
Definition north_for_west (d : dir) : dir :=
  match d with N_ => W_ | W_ => N_ | S_ => E_ | E_ => S_ | NE => SW | SW => NE | NW => NW | SE => SE end.
Definition turn_dir (s : turn) (d : dir) : dir :=
  let d := if rows_reversed s then north_for_south d else d in
  let d := if cols_reversed s then east_for_west d else d in
  if exchanged s then north_for_west d else d.

(** The results of the turned inputs are the turned results, each in the
    turned direction. *)
Definition turned_results (s : turn) (l l' : list (dir * grid num)) : Prop :=
  forall d o, In (d, o) l -> exists o', In (turn_dir s d, o') l' /\ turned_by same_num s o o'.

(** What happens to a gradient (along the columns, along the rows). *)
Definition turn_gradient (s : turn) (g : Q * Q) : Q * Q :=
  let x := if cols_reversed s then (- fst g)%Q else fst g in
  let y := if rows_reversed s then (- snd g)%Q else snd g in
  if exchanged s then (y, x) else (x, y).

(** The slope and aspect functions do not favour a direction: the slope of a
    turned gradient is the same, and where it matters (above 3.27 degrees) its
    aspect lies in the turned sector. *)
Definition even_handed (s : turn) (slope_fn aspect_fn : Q -> Q -> Q) : Prop :=
  forall x y x' y', (x' == fst (turn_gradient s (x, y)))%Q -> (y' == snd (turn_gradient s (x, y)))%Q ->
    (slope_fn x' y' == slope_fn x y)%Q /\
    ((327#100 < slope_fn x y)%Q -> (0 <= aspect_fn x y <= 360)%Q /\ (0 <= aspect_fn x' y' <= 360)%Q /\
       forall d, in_sector d (aspect_fn x y) <-> in_sector (turn_dir s d) (aspect_fn x' y')).
