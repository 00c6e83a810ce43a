(** * The Singleton metaclass with constructors that call the class (utilities/meta.py:27-33).
    As in SingModel, but a thread is a stack of calls: the constructor may call its own class
    any number of times before it returns or raises (or catches what such a call raised).
    threading.Lock (line 24) is not re-entrant: it waits even if its own thread holds it. *)
From Verif Require Import Base SingModel.

Record rstate := RSt {
  r_inst : option obj;
  r_lock : option tid;
  r_calls : tid -> list pc;       (* the calls a thread is in, innermost first *)
  r_made : list obj;
  r_rets : list (option obj)
}.
(** meta.py:22-25 *)
Definition rinit : rstate := RSt None None (fun _ => []) [] [].
Definition set_calls (f : tid -> list pc) (t : tid) (k : list pc) : tid -> list pc := fun u => if Nat.eqb u t then k else f u.

(** meta.py:27-33, one step of thread [t]. *)
Inductive rstep (truthy : obj -> bool) (t : tid) : rstate -> rstate -> Prop :=
| rs_call : forall i l p m r, p t = [] -> rstep truthy t (RSt i l p m r) (RSt i l (set_calls p t [Check1]) m r)
| rs_nested : forall i l p m r k, p t = Construct :: k -> rstep truthy t (RSt i l p m r) (RSt i l (set_calls p t (Check1 :: Construct :: k)) m r)
| rs_check1 : forall i l p m r k, p t = Check1 :: k -> rstep truthy t (RSt i l p m r) (RSt i l (set_calls p t ((if is_set truthy i then Fetch else Acquire) :: k)) m r)
| rs_acquire : forall i p m r k, p t = Acquire :: k -> rstep truthy t (RSt i None p m r) (RSt i (Some t) (set_calls p t (Check2 :: k)) m r)
| rs_check2 : forall i l p m r k, p t = Check2 :: k -> rstep truthy t (RSt i l p m r) (RSt i l (set_calls p t ((if is_set truthy i then Release else Construct) :: k)) m r)
| rs_construct : forall i l p m r k, p t = Construct :: k -> rstep truthy t (RSt i l p m r) (RSt i l (set_calls p t (Assign (length m) :: k)) (length m :: m) r)
| rs_raise : forall i l p m r k, p t = Construct :: k -> rstep truthy t (RSt i l p m r) (RSt i l (set_calls p t (ReleaseErr :: k)) m r)
| rs_assign : forall i l p m r o k, p t = Assign o :: k -> rstep truthy t (RSt i l p m r) (RSt (Some o) l (set_calls p t (Release :: k)) m r)
| rs_release : forall i l p m r k, p t = Release :: k -> rstep truthy t (RSt i l p m r) (RSt i None (set_calls p t (Fetch :: k)) m r)
| rs_release_err : forall i l p m r k, p t = ReleaseErr :: k -> rstep truthy t (RSt i l p m r) (RSt i None (set_calls p t k) m r)
| rs_fetch : forall i l p m r k, p t = Fetch :: k -> rstep truthy t (RSt i l p m r) (RSt i l (set_calls p t k) m (i :: r)).

Inductive rsteps (truthy : obj -> bool) : rstate -> rstate -> Prop :=
| rsteps_refl : forall s, rsteps truthy s s
| rsteps_step : forall s t s' s'', rsteps truthy s s' -> rstep truthy t s' s'' -> rsteps truthy s s''.
