(** * Words used for the rasterised land cover (C78). *)
From Coq Require Import Ascii String.
From Verif Require Import Base PyStr PreModel ReprModel ReprSpec RastModel.
Open Scope Z_scope.

(** The feature with attributes [a] and geometry [g] covers the point, and none after it in the file does. *)
Definition topmost {G} (covers : G -> Q * Q -> bool) (l : list (attrs * option G)) (p : Q * Q) (a : attrs) (g : G) : Prop :=
  exists before after, l = before ++ (a, Some g) :: after /\ covers g p = true /\
    forall a' g', In (a', Some g') after -> covers g' p = false.
(** No feature covers the point. *)
Definition uncovered {G} (covers : G -> Q * Q -> bool) (l : list (attrs * option G)) (p : Q * Q) : Prop :=
  forall a g, In (a, Some g) l -> covers g p = false.

(** The centre of pixel (r, c) of a raster in the coordinates of the layer. *)
Definition point_of {G} (tr : str -> str -> Q * Q -> Q * Q) (l : layer G) (t : image) (r c : Z) : Q * Q :=
  match l_proj l with
  | Some q => tr (im_proj t) q (centre_x t c, centre_y t r)
  | None => (centre_x t c, centre_y t r)
  end.

(** Features as written to the file. *)
Definition written {G} (l : list (feature G)) : list (attrs * option G) := map (fun f => (fst f, Some (snd f))) l.
