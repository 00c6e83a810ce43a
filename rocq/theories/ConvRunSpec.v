(** * Vocabulary for the parallel conversion. *)
From Verif Require Import Base PyStr NameModel NameSpec DistModel ConvModel ConvSpec.
Open Scope Z_scope.

(** [l] is an interleaving of the operation lists of the processes. *)
Inductive interleaving {A} : list (list A) -> list A -> Prop :=
| il_nil parts : Forall (fun p => p = []) parts -> interleaving parts []
| il_cons a b x p l : interleaving (a ++ p :: b) l -> interleaving (a ++ (x :: p) :: b) (x :: l).

Section ConvRunSpec.
  Context {G : Type} (mul : Q -> Q -> Q) (stats_ok : grid num -> bool) (path : str).
  (** The two rasters of tile [t] computed from the files [s0]. *)
  Definition m3_of (s0 : rstore G) (t : str) : option (raster G) :=
    match m3_raster mul stats_ok s0 path t with Ok r => Some r | Err _ => None end.
  Definition m3max_of (s0 : rstore G) (t : str) : option (raster G) :=
    match m3_of s0 t with
    | Some r => match m3max_raster stats_ok (fun _ => Some r) path t with Ok r' => Some r' | Err _ => None end
    | None => None
    end.
End ConvRunSpec.
