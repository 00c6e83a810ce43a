(** * Specification vocabulary for netCDF requests. *)
From Coq Require Import Ascii String.
From Verif Require Import Base PyStr NcModel.
Open Scope Z_scope.

(** All mandatory keys are there. *)
Definition complete_dim (d : dimreq) : Prop :=
  dr_name d <> None /\ dr_values d <> None /\ dr_dtype d <> None /\ dr_atts d <> None.
Definition complete_var (v : varreq) : Prop :=
  vr_name v <> None /\ vr_values v <> None /\ vr_dtype v <> None /\ vr_dims v <> None /\ vr_atts v <> None.

Definition str_or (x : option string) : string := match x with Some s => s | None => EmptyString end.
Definition list_or {A} (x : option (list A)) : list A := match x with Some l => l | None => [] end.
Definition dim_name (d : dimreq) : string := str_or (dr_name d).
Definition dim_len (d : dimreq) : Z := zlen (list_or (dr_values d)).
Definition var_name (v : varreq) : string := str_or (vr_name v).
Definition var_dims (v : varreq) : list string := list_or (vr_dims v).
Definition var_array (v : varreq) : option arr := match vr_values v with Some x => x | None => None end.

Definition good_dims (dims : list dimreq) : Prop := Forall complete_dim dims /\ NoDup (map dim_name dims).

(** The size declared for a dimension name. *)
Definition declared (dims : list dimreq) (n : string) (size : Z) : Prop :=
  exists d, In d dims /\ dim_name d = n /\ dim_len d = size.

(** A variable that can be stored: complete, own name, declared dimensions,
    values of the right number of dimensions and, if they are to be written,
    of the right sizes (a size of 1 is repeated by netCDF4). *)
Definition good_var (writedata : bool) (dims : list dimreq) (v : varreq) : Prop :=
  complete_var v /\ ~ In (var_name v) (map dim_name dims) /\ incl (var_dims v) (map dim_name dims) /\
  match var_array v with
  | None => True
  | Some x => zlen (a_shape x) = zlen (var_dims v) /\
              (writedata = true -> Forall2 (fun n s => exists size, declared dims s size /\ (n = size \/ n = 1)) (a_shape x) (var_dims v))
  end.

(** An index inside a shape. *)
Definition in_shape (sh ix : list Z) : Prop := Forall2 (fun n i => 0 <= i < n) sh ix.
