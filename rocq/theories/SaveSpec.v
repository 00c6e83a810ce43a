(** * Words used for the metadata of multiplier files (C72). *)
From Coq Require Import Ascii String.
From Verif Require Import Base PyStr NcModel.
Open Scope Z_scope.

(** The value of an attribute: the one set last. *)
Fixpoint att (l : atts) (k : string) : option attval :=
  match l with
  | [] => None
  | (k', v) :: l => match att l k with Some w => Some w | None => if String.eqb k' k then Some v else None end
  end.

(** [lo] and [hi] are the smallest and the largest number with the property. *)
Definition range_of (P : Q -> Prop) (lo hi : Q) : Prop :=
  P lo /\ P hi /\ forall q, P q -> (lo <= q <= hi)%Q.

(** The options of a configuration under the names [section_option], with their values. *)
Definition conf_keys (l : list (string * list (string * string))) : list (string * string) :=
  flat_map (fun s => map (fun ov => (fst s ++ "_" ++ fst ov, snd ov)%string) (snd s)) l.

(** The texts for the three multipliers. *)
Definition multipliers : list (string * string) :=
  [("Mz", "terrain multiplier"); ("Ms", "shielding multiplier"); ("Mt", "topographic multiplier")]%string.
