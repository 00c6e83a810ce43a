(** * nc_create_var with data (utilities/nctools.py:83-123). *)
From Coq Require Import Ascii String.
From Verif Require Import Base PyStr NcModel.
Open Scope Z_scope.

(** The argument [data]: None, a list, or a numpy array. *)
Inductive given := NoData | AList (l : list num) | AnArray (a : arr).
Definition count (shape : list Z) : Z := fold_right Z.mul 1 shape.
(** [if data:], nctools.py:117.  A list is true when it is not empty; an array
    of one element when that is not 0; one without elements is false; of others
    the truth value is ambiguous, a ValueError. *)
Definition truth (d : given) : res bool :=
  match d with
  | NoData => Ok false
  | AList [] => Ok false
  | AList _ => Ok true
  | AnArray a =>
      if count (a_shape a) =? 0 then Ok false
      else if count (a_shape a) =? 1
      then Ok (match a_at a (repeat 0 (length (a_shape a))) with NaN => true | Num q => negb (Qeq_bool q 0) end)
      else Err ValueError
  end.
(** [np.array(data, dtype=dtype)], nctools.py:118. *)
Definition np_array (cast : string -> num -> num) (dtype : string) (d : given) : arr :=
  match d with
  | NoData => Arr [] (fun _ => NaN)
  | AList l => Arr [zlen l] (fun ix => cast dtype (nth (Z.to_nat (hd 0 ix)) l NaN))
  | AnArray a => Arr (a_shape a) (fun ix => cast dtype (a_at a ix))
  end.
(** nctools.py:83-123; [fill]: what the library fills a new variable with
    (keyword fill_value, or its default). *)
Definition nc_create_var (cast : string -> num -> num) (fill : num) (f : ncfile) (name : string) (dims : list string) (dtype : string)
    (data : given) (a : option atts) : ncres :=
  nc_then (create_variable f name dims fill) (fun f =>
  match truth data with
  | Err e => (f, Some e)
  | Ok b =>
      nc_then (if b then assign_all f name (np_array cast dtype data) else (f, None)) (fun f =>
      (match a with Some (x :: l) => set_atts f name (x :: l) | _ => f end, None))
  end).
