(** * Vocabulary for the file helpers (C95). *)
From Verif Require Import Base PyStr.
Open Scope Z_scope.

(** [name] is [base] followed by the extension [ext]: what follows the last
    dot, with that dot, but a name whose only dots are its first characters
    has none. *)
Definition has_ext (name base ext : str) : Prop :=
  name = base ++ ext /\
  ((ext = [] /\ exists a b, name = a ++ b /\ (forall x, In x a -> x = dot) /\ ~ In dot b) \/
   (exists e x, ext = dot :: e /\ ~ In dot e /\ In x base /\ x <> dot)).

(** The absolute path [p] names the file [name] in the directory [d]. *)
Definition file_in (p d name : str) : Prop :=
  p = d ++ slash :: name /\ ~ In slash name /\ (forall d', d <> d' ++ [slash]).
(** A directory in writing: the root is a slash. *)
Definition written (d : str) : str := match d with [] => [slash] | _ => d end.
(** White space of ASCII. *)
Definition blank (x : ascii) : Prop := x = ascii_of_nat 32 \/ exists n, (9 <= n <= 13)%nat /\ x = ascii_of_nat n.
