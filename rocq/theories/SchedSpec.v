(** * Vocabulary for the protocol properties. *)
From Verif Require Import Base SchedModel.
From Coq Require Export Permutation.
Open Scope nat_scope.

Section Spec.
  Context {T St : Type} (cut : T -> St -> St) (work : T -> list (action St)) (tiles : list T) (k : nat).

  (** Reachable in n steps from the initial state with file system [s0]. *)
  Definition reach_n (s0 : St) (n : nat) (s : sys T St) : Prop := steps cut work tiles k n (init k s0) s.
  Definition reach (s0 : St) (s : sys T St) : Prop := exists n, reach_n s0 n s.

  (** Master left its loop and every worker left its loop. *)
  Definition finished (s : sys T St) : Prop :=
    m s = MDone /\ forall d, 1 <= d <= k -> wk s d = WDone.

  (** No message in transit. *)
  Definition quiet (s : sys T St) : Prop := rs s = [] /\ forall d, 1 <= d <= k -> ch s d = [].

  (** No process can do anything. *)
  Definition stuck (s : sys T St) : Prop := forall b s', ~ step cut work tiles k b s s'.

  (** Processing tile [t] never raises. *)
  Definition never_raises (t : T) : Prop := forall a f, In a (work t) -> exists f', a f = Ok f'.
  (** Processing tile [t] always raises, whatever the file system. *)
  Definition always_raises (t : T) : Prop := exists a, In a (work t) /\ forall f, exists e, a f = Err e.
End Spec.

(** File systems: total maps from paths.  [reads t x] / [writes t x]: path [x]
    may be looked at / changed while tile [t] is processed. *)
Section Files.
  Context {T K V : Type} (reads writes : T -> K -> bool).
  Definition store := K -> option V.

  (** Two stores agree on everything tile [t] looks at. *)
  Definition agree (t : T) (f g : store) : Prop := forall x, reads t x = true -> f x = g x.

  (** An operation that changes only what [t] writes and depends only on what
      [t] reads. *)
  Definition local_total (t : T) (op : store -> store) : Prop :=
    (forall f x, writes t x = false -> op f x = f x) /\
    (forall f g, agree t f g -> agree t (op f) (op g)).
  Definition local_action (t : T) (op : action store) : Prop :=
    (forall f f' x, op f = Ok f' -> writes t x = false -> f' x = f x) /\
    (forall f g, agree t f g ->
       match op f, op g with
       | Ok f', Ok g' => agree t f' g'
       | Err e, Err e' => e = e'
       | _, _ => False
       end).

  (** No path written for one tile of the list is read for another one (inputs
      that nobody writes may be read by all). *)
  Definition independent (tiles : list T) : Prop :=
    (forall t x, In t tiles -> writes t x = true -> reads t x = true) /\
    (forall t t' x, In t tiles -> In t' tiles -> writes t x = true -> reads t' x = true -> t = t').
End Files.
