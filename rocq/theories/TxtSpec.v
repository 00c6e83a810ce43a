(** * Words for saving and loading arrays (C105). *)
From Coq Require Import Ascii String.
From Verif Require Import Base PyStr TxtModel TerrSpec.
Open Scope Z_scope.

(** A finite double: a whole number below 2^53 in magnitude times a power of two
    between 2^-1074 and 2^971. *)
Definition double (x : Q) : Prop := exists m e : Z, Z.abs m < 2 ^ 53 /\ -1074 <= e <= 971 /\ (x == inject_Z m * 2 ^ e)%Q.
Definition storable (x : num) : Prop := match x with NaN => True | Num q => double q end.

(** A matrix with [c] columns, all of its cells doubles or NaN. *)
Definition matrix (c : nat) (rows : list (list num)) : Prop := forall row, In row rows -> length row = c /\ Forall storable row.
(** Cells that agree in order. *)
Definition same_cells (l l' : list num) : Prop := Forall2 same_num l l'.

(** The delimiter cannot be part of a number, start a comment or end a line. *)
Definition separates (d : ascii) : Prop := ~ In d (lit "0123456789+-.ena%") /\ d <> "010"%char /\ d <> "013"%char.
(** A header is written on this many lines. *)
Definition header_lines (header : str) : nat := match header with [] => O | _ => S (count_occ ascii_dec header "010"%char) end.
(** It has no carriage return. *)
Definition plain (header : str) : Prop := ~ In "013"%char header.
