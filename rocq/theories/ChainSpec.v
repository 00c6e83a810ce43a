(** * Words for the two programs in a row (C104). *)
From Verif Require Import Base PyStr PreModel PreSpec ReprModel ReprSpec RastModel RastSpec.
Open Scope Z_scope.

(** [lc] gives the class of each pixel of the raster [t] by the polygons over its centre: 0
    where there is none, else the code of the last one, which spells out its land use and the
    settlement class [settled] gives it.  [field] is the field of the land use. *)
Definition classes_by {G} (covers : G -> Q * Q -> bool) (tr : str -> str -> Q * Q -> Q * Q) (l : layer G) (t : image)
    (polygons : list (feature G)) (field : str) (settled : G -> option str -> Prop) (lc : grid Z) : Prop :=
  g_rows lc = g_rows (im_cells t) /\ g_cols lc = g_cols (im_cells t) /\
  forall r c, 0 <= r < g_rows lc -> 0 <= c < g_cols lc ->
    let p := point_of tr l t r c in
    (uncovered covers (written polygons) p /\ g_at lc r c = 0) \/
    exists a g u k, topmost covers (written polygons) p a g /\ aget a field = Ok u /\ settled g k /\
      0 <= g_at lc r c <= 511 /\ decode (g_at lc r c) = (k, known use_names u).
