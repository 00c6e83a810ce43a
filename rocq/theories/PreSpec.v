(** * Specification of the preparation of the land-cover map. *)
From Coq Require Import Qabs Ascii String.
From Verif Require Import Base PyStr UtilModel PreModel.
Open Scope Z_scope.

(** ** Grouping *)
(** The label under which an attribute value is grouped: itself, or "None" when
    there is no value or an empty one. *)
Definition label (v : value) : option str :=
  match v with
  | VNone => Some (lit "None")
  | VStr s => Some (match s with [] => lit "None" | _ => s end)
  | VInt _ => None
  end.
(** The label of a feature; no label if the attribute is missing. *)
Definition flabel {G} (name : str) (f : feature G) : option str :=
  match aget (fst f) name with Ok v => label v | Err _ => None end.
(** The features with a label, in their order. *)
Definition members {G} (name k : str) (l : list (feature G)) : list (feature G) :=
  filter (fun f => match flabel name f with Some k' => str_eqb k' k | None => false end) l.

(** [inside] is a point-set reading of geometries in which unions are unions. *)
Definition union_of_points {G P} (ge : geo G) (inside : G -> P -> Prop) : Prop :=
  forall gs p, inside (g_union ge gs) p <-> exists g, In g gs /\ inside g p.

(** ** Joining *)
Definition touching {G} (ge : geo G) (other : list G) (poly : G) (i : nat) : Prop :=
  exists g, nth_error other i = Some g /\ g_intersects ge poly g = true.
(** The area two geometries share. *)
Definition overlap {G} (ge : geo G) (poly g : G) : Q := g_area ge (g_inter ge poly g).
(** A search tree returns every geometry that intersects, once, in any order,
    and possibly others. *)
Definition tree_ok {G} (ge : geo G) : Prop :=
  forall other poly, NoDup (g_query ge other poly) /\ forall i, touching ge other poly i -> In i (g_query ge other poly).
Definition areas_ok {G} (ge : geo G) : Prop := forall g, (0 <= g_area ge g)%Q.

(** [g], the [c]th of [other], shares the largest area with [poly] among those
    that intersect it. *)
Definition largest {G} (ge : geo G) (other : list G) (poly : G) (c : nat) (g : G) : Prop :=
  nth_error other c = Some g /\ g_intersects ge poly g = true /\
  forall i g', nth_error other i = Some g' -> g_intersects ge poly g' = true -> (overlap ge poly g' <= overlap ge poly g)%Q.

(** What the join does to one feature. *)
Definition joined {G} (ge : geo G) (var : str) (other : list (feature G)) (f f' : feature G) : Prop :=
  snd f' = snd f /\ (forall k, k <> var -> aget (fst f') k = aget (fst f) k) /\
  (((forall i, ~ touching ge (map snd other) (snd f) i) /\ aget (fst f') var = Ok VNone) \/
   exists c o, largest ge (map snd other) (snd f) c (snd o) /\ nth_error other c = Some o /\ aget (fst f') var = aget (fst o) var).

(** ** Categories *)
(** The documented codes. *)
Definition settlement_names : list (Z * str) :=
  [(1, lit "Major CBD"); (2, lit "City"); (3, lit "Urban"); (4, lit "Large Town"); (5, lit "Small Town")].
Definition use_names : list (Z * str) :=
  [(1, lit "Parkland"); (2, lit "Primary Production"); (4, lit "Education"); (5, lit "Residential"); (6, lit "Water"); (7, lit "Other");
   (8, lit "Commercial"); (9, lit "Industrial"); (10, lit "Hospital/Medical"); (11, lit "Transport")].
Fixpoint name_of (m : list (Z * str)) (z : Z) : option str :=
  match m with [] => None | (z', s) :: m' => if z' =? z then Some s else name_of m' z end.
(** Reading a category back: hundreds and remainder. *)
Definition decode (z : Z) : option str * option str := (name_of settlement_names (z / 100), name_of use_names (z mod 100)).
(** A value as a known name, if it is one. *)
Definition known (m : list (Z * str)) (v : value) : option str :=
  match v with VStr s => if existsb (fun p => str_eqb (snd p) s) m then Some s else None | _ => None end.

(** ** The whole preparation *)
(** The settlement class of a feature: its name if it is an authorised one. *)
Definition sclass {G} (name : str) (f : feature G) : option str :=
  match aget (fst f) name with Ok v => known settlement_names v | Err _ => None end.
(** Clipping to the bounding box of the mask, if there is one; geometries
    without area inside are dropped. *)
Definition bbox {G} (ge : geo G) (d : G) : G :=
  let '(x0, y0, x1, y1) := g_bounds ge d in g_box ge [(x0, y0); (x0, y1); (x1, y1); (x1, y0); (x0, y0)].
Definition clip {G} (ge : geo G) (mask : option G) (g : G) : option G :=
  match mask with
  | None => Some g
  | Some d => let g' := g_inter ge (bbox ge d) g in if Qeq_bool (g_area ge g') 0 then None else Some g'
  end.
Definition clip_all {G} (ge : geo G) (mask : option G) (l : list (feature G)) : list (feature G) :=
  flat_map (fun f => match clip ge mask (snd f) with Some g => [(fst f, g)] | None => [] end) l.

Definition same_class (a b : option str) : bool :=
  match a, b with Some x, Some y => str_eqb x y | None, None => true | _, _ => false end.
(** An invalid geometry is replaced by its buffer of width 0 where that is
    valid; every other geometry is left as it is. *)
Definition repaired {G} (ge : geo G) (g r : G) : Prop :=
  (g_valid ge g = false /\ g_valid ge (g_buffer0 ge g) = true /\ r = g_buffer0 ge g) \/
  ((g_valid ge g = true \/ g_valid ge (g_buffer0 ge g) = false) /\ r = g).
(** [g] is the (repaired, clipped) union of the settlement features of a class. *)
Definition class_area {G} (ge : geo G) (mask : option G) (name : str) (l : list (feature G)) (k : option str) (g : G) : Prop :=
  (exists f, In f l /\ sclass name f = k) /\
  exists r, repaired ge (g_union ge (map snd (filter (fun f => same_class (sclass name f) k) l))) r /\ clip ge mask r = Some g.

(** Arithmetic with a relative error of at most [e]: [e] is 0 for exact arithmetic
    and 2^-53 for doubles. *)
Definition within (fl : Q -> Q) (e : Q) : Prop := (0 <= e)%Q /\ forall x, (Qabs (fl x - x) <= e * Qabs x)%Q.
(** The class that settles the code of a land-use geometry: that of the class
    area sharing most of it, if any class area intersects it.  With a relative
    error of [e], one that shares as much as any other up to this error. *)
Definition settled_by {G} (e : Q) (ge : geo G) (mask : option G) (name : str) (l : list (feature G)) (poly : G) (k : option str) : Prop :=
  (k = None /\ forall k' g', class_area ge mask name l k' g' -> g_intersects ge poly g' = false) \/
  (exists g, class_area ge mask name l k g /\ g_intersects ge poly g = true /\
    forall k' g', class_area ge mask name l k' g' -> g_intersects ge poly g' = true -> ((1 - e) * overlap ge poly g' <= (1 + e) * overlap ge poly g)%Q).
