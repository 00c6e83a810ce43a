(** * Words for creating variables (C106). *)
From Coq Require Import Ascii String.
From Verif Require Import Base PyStr NcModel.
Open Scope Z_scope.

(** [f'] is [f] with one variable more. *)
Definition gained (f : ncfile) (w : ncvar) (f' : ncfile) : Prop :=
  nf_dims f' = nf_dims f /\ nf_vars f' = nf_vars f ++ [w] /\ nf_atts f' = nf_atts f /\ nf_open f' = nf_open f.
(** The name is free, and the dimensions are those of the data set, of these lengths. *)
Definition free (f : ncfile) (name : string) : Prop := ~ In name (map nv_name (nf_vars f)).
Definition lengths (f : ncfile) (dims : list string) (shape : list Z) : Prop :=
  NoDup (map fst (nf_dims f)) /\ Forall2 (fun d n => In (d, n) (nf_dims f)) dims shape.
Definition given_atts (a : option atts) : atts := match a with Some l => l | None => [] end.
