(** * What the pixel sizes should be (C69), independent of the model. *)
From Coq Require Import Reals.
From Verif Require Import Base VincSpec.
Local Open Scope R_scope.

(** WGS84. *)
Definition wgs84_a : R := 6378137.
Definition wgs84_f : R := (6378137 - 63567523142 / 10000) / 6378137.
(** The constant of the program for pi / 180. *)
Definition degree : R := 1745329251994329576923690768489 / 10 ^ 32.

(** The part of the parallel of latitude [phi] that spans [dlon] (radians): a circle of
    radius a cos(u), u the reduced latitude. *)
Definition parallel_arc (f a phi dlon : R) : R := a * cos (reduced f phi) * dlon.
