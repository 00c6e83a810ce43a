(** * Vocabulary for the properties of the combined multipliers. *)
From Verif Require Import Base PyStr NameModel PipeSpec ConvModel.
Open Scope Z_scope.

(** Some pixel is a number. *)
Definition has_number (g : grid num) : Prop := exists r c q, in_grid g r c /\ g_at g r c = Num q.

(** GDAL statistics succeed exactly when there is a valid pixel. *)
Definition stats_spec (stats_ok : grid num -> bool) : Prop := forall g, stats_ok g = true <-> has_number g.

(** The file [p] is a raster with [ny] rows and [nx] columns and first-band values [v]. *)
Definition holds {G} (f : rstore G) (p : str) (nx ny : Z) (v : Z -> Z -> num) : Prop :=
  exists ds b rest, f p = Some ds /\ r_bands ds = b :: rest /\
    g_cols (b_data b) = nx /\ g_rows (b_data b) = ny /\
    forall r c, 0 <= r < ny -> 0 <= c < nx -> g_at (b_data b) r c = v r c.

(** A band [b] for direction [d] of size [nx] by [ny] with values [v]. *)
Definition is_band (b : band) (desc : str) (nx ny : Z) (v : Z -> Z -> num) : Prop :=
  b_desc b = desc /\ g_cols (b_data b) = nx /\ g_rows (b_data b) = ny /\
  forall r c, 0 <= r < ny -> 0 <= c < nx -> g_at (b_data b) r c = v r c.

(** Product of three multipliers: missing when one is missing. *)
Definition product3 (mul : Q -> Q -> Q) (x y z : num) : num :=
  match x, y, z with
  | Num a, Num b, Num c => Num (mul (mul a b) c)
  | _, _, _ => NaN
  end.

(** [m] is the maximum of the values [l]: missing if one is missing, otherwise
    the largest value and one of them. *)
Definition is_max (l : list num) (m : num) : Prop :=
  (In NaN l -> m = NaN) /\
  (~ In NaN l -> exists q, m = Num q /\ In (Num q) l /\ forall x, In (Num x) l -> (x <= q)%Q).

(** The order of bands in the output. *)
Definition band_dirs : list dir := [E_; N_; NE; NW; S_; SE; SW; W_].

(** ma.masked_values(_, -9999) would mask this value (default tolerances). *)
Definition sentinel (x : num) : Prop :=
  match x with Num q => (Qabs (q + 9999) <= (1 # 100000000) + (1 # 100000) * 9999)%Q | NaN => False end.
