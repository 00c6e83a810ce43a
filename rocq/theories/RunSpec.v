(** * Specification of the folders and files of a run. *)
From Coq Require Import Ascii String.
From Verif Require Import Base PyStr NameModel NameSpec RunModel.
Open Scope Z_scope.

(** The root exists and everything that exists lies in a folder. *)
Definition wf (f : fsys) : Prop := f [] = Some DirE /\ forall p x, f (p ++ [x]) <> None -> f p = Some DirE.

(** [p] lies at or below [o]. *)
Definition at_or_below (o p : list str) : Prop := exists q, p = o ++ q.
(** [p] is a proper ancestor of [o]. *)
Definition above (o p : list str) : Prop := exists x q, o = p ++ x :: q.

(** The five folders. *)
Definition stage_folder (o p : list str) : Prop :=
  exists s, p = o ++ [s] /\ In s [lit "terrain"; lit "shielding"; lit "topographic"; lit "M3"; lit "M3_max"].

(** [f'] is [f] with a fresh output tree at [o]. *)
Definition fresh_output (f : fsys) (o : list str) (f' : fsys) : Prop :=
  f' o = Some DirE /\ (forall p, stage_folder o p -> f' p = Some DirE) /\
  (forall p, at_or_below o p -> p <> o -> ~ stage_folder o p -> f' p = None) /\
  (forall p, above o p -> f' p = Some DirE) /\
  (forall p, ~ at_or_below o p -> ~ above o p -> f' p = f p).

(** The result files of a tile below [o]. *)
Definition result_file (o : list str) (t : str) (p : list str) : Prop :=
  exists d, p = o ++ [lit "terrain"; nc_name t (lit "mz") d] \/
            p = o ++ [lit "shielding"; nc_name t (lit "ms") d] \/
            p = o ++ [lit "topographic"; nc_name t (lit "mt") d].

