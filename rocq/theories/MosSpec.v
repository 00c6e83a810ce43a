(** * Vocabulary for the converter as several processes (C100). *)
From Verif Require Import Base PyStr NameModel.
Open Scope Z_scope.

(** A tile some file of the folder is named after: the text before the first
    underscore. *)
Definition names_tile (l : list str) (t : str) : Prop :=
  exists f, In f l /\ ~ In "_"%char t /\ (f = t \/ exists rest, f = t ++ "_"%char :: rest).
(** The virtual raster in the folder [d]. *)
Definition mosaic (p : str) (d : string) : str := pjoin (pjoin p (lit d)) (lit "wind-multipliers.vrt").
Definition tif (p : str) (d : string) (t : str) : str := pjoin (pjoin p (lit d)) (t ++ lit ".tif").
