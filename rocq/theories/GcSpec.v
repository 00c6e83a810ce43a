(** * Units for the points along a great circle (C71). *)
From Coq Require Import Reals.
Local Open Scope R_scope.

(** One degree, in radians. *)
Definition deg : R := PI / 180.
