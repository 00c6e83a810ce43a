(** * Model of the preparation of the land-cover map
    (pre_process.py, utilities/shapefiles.py).

    Geometry is a parameter: a type with the operations of shapely the code
    calls.  Reading and writing shapefiles, the schema and logging are not
    modelled; a file is the list of its features. *)
From Coq Require Import Ascii String.
From Verif Require Import Base PyStr UtilModel.
Open Scope Z_scope.

(** Attribute values: None, strings and integers. *)
Inductive value := VNone | VStr (s : str) | VInt (z : Z).
(** A dict in insertion order. *)
Definition attrs := list (str * value).

Fixpoint aget (a : attrs) (k : str) : res value :=
  match a with
  | [] => Err KeyError
  | (k', v) :: a' => if str_eqb k' k then Ok v else aget a' k
  end.
(** d.update({k: v}) *)
Fixpoint aset (a : attrs) (k : str) (v : value) : attrs :=
  match a with
  | [] => [(k, v)]
  | (k', v') :: a' => if str_eqb k' k then (k', v) :: a' else (k', v') :: aset a' k v
  end.

(** The operations of shapely used. [g_query others poly] is the answer of an
    STRtree built on [others], as positions in that list: shapefiles.py:70 and 77
    translate objects to positions through their identities, which are those of
    different objects. *)
Record geo (G : Type) := {
  g_union : list G -> G;
  g_inter : G -> G -> G;
  g_intersects : G -> G -> bool;
  g_area : G -> Q;
  g_bounds : G -> Q * Q * Q * Q;
  g_box : list (Q * Q) -> G;
  g_valid : G -> bool;
  g_buffer0 : G -> G;
  g_query : list G -> G -> list nat
}.
Arguments g_union {G} _ _. Arguments g_inter {G} _ _ _. Arguments g_intersects {G} _ _ _. Arguments g_area {G} _ _.
Arguments g_bounds {G} _ _. Arguments g_box {G} _ _. Arguments g_valid {G} _ _. Arguments g_buffer0 {G} _ _. Arguments g_query {G} _ _ _.

(** A feature: the lists self.attribute and self.geom have the same length
    (shapefiles.py:26-27) and are kept as one list of pairs. *)
Definition feature (G : Type) := (attrs * G)%type.

(** read, shapefiles.py:19-27: features without geometry are dropped. *)
Fixpoint read {G} (l : list (attrs * option G)) : list (feature G) :=
  match l with
  | [] => []
  | (a, Some g) :: l' => (a, g) :: read l'
  | (_, None) :: l' => read l'
  end.

(** Python's order of strings. *)
Fixpoint str_leb (a b : str) : bool :=
  match a, b with
  | [], _ => true
  | _, [] => false
  | x :: a', y :: b' =>
      if Nat.ltb (nat_of_ascii x) (nat_of_ascii y) then true
      else if Nat.ltb (nat_of_ascii y) (nat_of_ascii x) then false else str_leb a' b'
  end.

(** sorted(l, key=...): the stable sort. *)
Fixpoint insert {A} (x : str * A) (l : list (str * A)) : list (str * A) :=
  match l with
  | [] => [x]
  | y :: l' => if str_leb (fst x) (fst y) then x :: l else y :: insert x l'
  end.
Definition sorted {A} (l : list (str * A)) : list (str * A) := fold_right insert [] l.

(** itertools.groupby: runs of equal keys. *)
Fixpoint groupby {A} (l : list (str * A)) : list (str * list A) :=
  match l with
  | [] => []
  | (k, x) :: l' =>
      match groupby l' with
      | (k', xs) :: gs => if str_eqb k k' then (k, x :: xs) :: gs else (k, [x]) :: (k', xs) :: gs
      | [] => [(k, [x])]
      end
  end.

(** The key [k[0][attribute_name] or "None"], shapefiles.py:38, 42.  Integers
    are simplified: they are rejected (Python accepts them when all are). *)
Definition key_of (v : value) : res str :=
  match v with
  | VNone | VStr [] => Ok (lit "None")
  | VStr s => Ok s
  | VInt _ => Err TypeError
  end.

(** A feature with its key. *)
Definition keyed {G} (name : str) (f : feature G) : res (str * feature G) :=
  let* v := aget (fst f) name in let* k := key_of v in Ok (k, f).
(** dissolve, shapefiles.py:36-48. *)
Definition dissolve {G} (ge : geo G) (name : str) (l : list (feature G)) : res (list (feature G)) :=
  let* kl := mapM (keyed name) l in
  mapM (fun g : str * list (feature G) =>
    match snd g with
    | [] => Err ValueError
    | f :: _ => Ok (fst f, g_union ge (map snd (snd g)))
    end) (groupby (sorted kl)).

(** crop, shapefiles.py:50-66. *)
Definition crop {G} (ge : geo G) (polygon : G) (l : list (feature G)) : list (feature G) :=
  let '(b0, b1, b2, b3) := g_bounds ge polygon in
  let polybox := g_box ge [(b0, b1); (b0, b3); (b2, b3); (b2, b1); (b0, b1)] in
  flat_map (fun f : feature G =>
    let result := g_inter ge polybox (snd f) in
    if Qeq_bool (g_area ge result) 0 then [] else [(fst f, result)]) l.

(** numpy.argmax: the first position of the largest element; [i] positions
    have been passed, [b] is the best of them with its value. *)
Fixpoint argmax_from (l : list Q) (i : nat) (b : nat * Q) : nat :=
  match l with
  | [] => fst b
  | x :: l' => argmax_from l' (S i) (if Qltb (snd b) x then (i, x) else b)
  end.
Definition argmax (l : list Q) : res nat :=
  match l with [] => Err ValueError | x :: l' => Ok (argmax_from l' 1 (0%nat, x)) end.

(** process, shapefiles.py:75-89. *)
Definition candidates {G} (ge : geo G) (other : list G) (poly : G) : list nat :=
  filter (fun i => match nth_error other i with Some pt => g_intersects ge poly pt | None => false end) (g_query ge other poly).
Definition process {G} (fl : Q -> Q) (ge : geo G) (other : list G) (poly : G) : res (option nat) :=
  let fids := candidates ge other poly in
  match fids with
  | [] => Ok None
  | [c] => Ok (Some c)
  | _ =>
      let* results := mapM (fun id =>
        match nth_error other id with
        | None => Err IndexError
        | Some o =>
            if Qeq_bool (g_area ge poly) 0 then Err ZeroDivisionError
            else Ok (fl (g_area ge (g_inter ge poly o) / g_area ge poly)%Q)
        end) fids in
      let* m := argmax results in
      match nth_error fids m with None => Err IndexError | Some c => Ok (Some c) end
  end.

(** spatial_join, shapefiles.py:68-99.  The threads of the pool only read, and
    executor.map keeps the order, so they are a plain map. *)
Definition spatial_join {G} (fl : Q -> Q) (ge : geo G) (var : str) (other l : list (feature G)) : res (list (feature G)) :=
  let* r := mapM (fun f : feature G => process fl ge (map snd other) (snd f)) l in
  mapM (fun fr : feature G * option nat =>
    let '(f, c) := fr in
    match c with
    | None => Ok (aset (fst f) var VNone, snd f)
    | Some c =>
        match nth_error other c with
        | None => Err IndexError
        | Some o => let* v := aget (fst o) var in Ok (aset (fst f) var v, snd f)
        end
    end) (combine l r).

(** pre_process.py:110-111 *)
Definition authorised : list str := [lit "City"; lit "Large Town"; lit "Major CBD"; lit "Small Town"; lit "Urban"].
(** pre_process.py:155-160 and 162-172: dicts with default 0. *)
Definition settlement_map : list (str * Z) :=
  [(lit "Major CBD", 1); (lit "City", 2); (lit "Urban", 3); (lit "Large Town", 4); (lit "Small Town", 5)].
Definition local_use_map : list (str * Z) :=
  [(lit "Parkland", 1); (lit "Primary Production", 2); (lit "Education", 4); (lit "Residential", 5); (lit "Water", 6);
   (lit "Other", 7); (lit "Commercial", 8); (lit "Industrial", 9); (lit "Hospital/Medical", 10); (lit "Transport", 11)].
Fixpoint lookup0 (m : list (str * Z)) (s : str) : Z :=
  match m with [] => 0 | (k, z) :: m' => if str_eqb k s then z else lookup0 m' s end.
Definition code_of (m : list (str * Z)) (v : value) : Z := match v with VStr s => lookup0 m s | _ => 0 end.

(** pre_process.py:112-114 *)
Definition is_authorised (v : value) : bool := match v with VStr s => existsb (str_eqb s) authorised | _ => false end.
Definition authorise {G} (name : str) (l : list (feature G)) : res (list (feature G)) :=
  mapM (fun f : feature G => let* v := aget (fst f) name in Ok (if is_authorised v then f else (aset (fst f) name VNone, snd f))) l.

(** pre_process.py:122-130 *)
Definition repair {G} (ge : geo G) (g : G) : G :=
  if g_valid ge g then g else let s := g_buffer0 ge g in if g_valid ge s then s else g.

(** pre_process.py:174-176 *)
Definition categorise (settlement_cat landuse_cat : str) (a : attrs) : res attrs :=
  let* s := aget a settlement_cat in
  let* u := aget a landuse_cat in
  Ok (aset a (lit "CAT") (VInt (code_of settlement_map s * 100 + code_of local_use_map u))).

(** pre_process, pre_process.py:84-181.  The crop mask is None for the file
    name "None". *)
Definition pre_process {G} (fl : Q -> Q) (ge : geo G) (settlement_cat landuse_cat : str)
    (settlement_file landuse_file : list (attrs * option G)) (crop_mask : option (list (attrs * option G))) : res (list (feature G)) :=
  let settlement := read settlement_file in
  let land_use := read landuse_file in
  let* settlement := authorise settlement_cat settlement in
  let* settlement := dissolve ge settlement_cat settlement in
  let settlement := map (fun f => (fst f, repair ge (snd f))) settlement in
  let* (settlement, land_use) :=
    match crop_mask with
    | None => Ok (settlement, land_use)
    | Some domain =>
        match read domain with
        | [] => Err IndexError
        | d :: _ => Ok (crop ge (snd d) settlement, crop ge (snd d) land_use)
        end
    end in
  let* land_use := spatial_join fl ge settlement_cat settlement land_use in
  mapM (fun f : feature G => let* a := categorise settlement_cat landuse_cat (fst f) in Ok (a, snd f)) land_use.
