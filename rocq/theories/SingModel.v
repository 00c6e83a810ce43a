(** * The Singleton metaclass under concurrent callers (utilities/meta.py).
    Any number of threads, numbered, call the class any number of times; one
    step is one read or write of shared state, so every interleaving is a
    sequence of steps.  Objects are numbered in order of construction and
    [truthy] is their (unchanging) truth value.  The constructor is one step
    that succeeds or raises; constructors that call the class
    themselves are in SingReModel. *)
From Verif Require Import Base.
Open Scope Z_scope.

Definition tid := nat.
Definition obj := nat.

(** Where a thread is in meta.py:27-33. *)
Inductive pc :=
| Idle                 (* not in a call *)
| Check1               (* line 28: before the first test *)
| Acquire              (* line 29: waiting for the lock *)
| Check2               (* line 30: lock held, before the second test *)
| Construct            (* line 32: lock held, about to run the constructor *)
| Assign (o : obj)     (* line 31: constructed, not yet stored *)
| Release              (* end of the with block *)
| ReleaseErr           (* end of the with block after the constructor raised *)
| Fetch.               (* line 33: before reading the value to return *)

Record state := St {
  s_inst : option obj;           (* the class attribute holding the instance *)
  s_lock : option tid;
  s_pc : tid -> pc;
  s_made : list obj;             (* objects constructed, newest first *)
  s_rets : list (option obj)     (* values returned to callers, newest first *)
}.

(** meta.py:22-25 *)
Definition init : state := St None None (fun _ => Idle) [] [].

Definition goto (f : tid -> pc) (t : tid) (p : pc) : tid -> pc := fun u => if Nat.eqb u t then p else f u.

(** [not instance]: None and falsy objects. *)
Definition is_set (truthy : obj -> bool) (i : option obj) : bool := match i with Some o => truthy o | None => false end.

(** meta.py:27-33, one step of thread [t]. *)
Inductive step (truthy : obj -> bool) (t : tid) : state -> state -> Prop :=
| st_call : forall i l p m r, p t = Idle -> step truthy t (St i l p m r) (St i l (goto p t Check1) m r)
| st_check1 : forall i l p m r, p t = Check1 ->
    step truthy t (St i l p m r) (St i l (goto p t (if is_set truthy i then Fetch else Acquire)) m r)
| st_acquire : forall i p m r, p t = Acquire -> step truthy t (St i None p m r) (St i (Some t) (goto p t Check2) m r)
| st_check2 : forall i l p m r, p t = Check2 ->
    step truthy t (St i l p m r) (St i l (goto p t (if is_set truthy i then Release else Construct)) m r)
| st_construct : forall i l p m r, p t = Construct ->
    step truthy t (St i l p m r) (St i l (goto p t (Assign (length m))) (length m :: m) r)
| st_raise : forall i l p m r, p t = Construct -> step truthy t (St i l p m r) (St i l (goto p t ReleaseErr) m r)
| st_assign : forall i l p m r o, p t = Assign o -> step truthy t (St i l p m r) (St (Some o) l (goto p t Release) m r)
| st_release : forall i l p m r, p t = Release -> step truthy t (St i l p m r) (St i None (goto p t Fetch) m r)
| st_release_err : forall i l p m r, p t = ReleaseErr -> step truthy t (St i l p m r) (St i None (goto p t Idle) m r)
| st_fetch : forall i l p m r, p t = Fetch -> step truthy t (St i l p m r) (St i l (goto p t Idle) m (i :: r)).

Inductive steps (truthy : obj -> bool) : state -> state -> Prop :=
| steps_refl : forall s, steps truthy s s
| steps_step : forall s t s' s'', steps truthy s s' -> step truthy t s' s'' -> steps truthy s s''.
