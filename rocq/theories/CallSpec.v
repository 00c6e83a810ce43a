(** * Vocabulary for logged calls (C96). *)
From Verif Require Import Base PyStr.
Open Scope Z_scope.

(** What a function declares: its parameters with their defaults, the name that
    takes further positional arguments, the name that takes further keyword
    arguments. *)
Record signature V := Sig { sg_params : list (str * option V); sg_varargs : option str; sg_varkw : option str }.
Arguments Sig {V}. Arguments sg_params {V}. Arguments sg_varargs {V}. Arguments sg_varkw {V}.
Definition names_of (o : option str) : list str := match o with Some x => [x] | None => [] end.
(** Python refuses definitions with repeated names and calls with repeated keywords. *)
Definition legal {V} (sg : signature V) (named : list (str * V)) : Prop :=
  NoDup (map fst (sg_params sg) ++ names_of (sg_varargs sg) ++ names_of (sg_varkw sg)) /\ NoDup (map fst named).

(** Python runs the call: no positional argument too many, no unknown keyword, no
    parameter given twice, none missing. *)
Definition acceptable {V} (sg : signature V) (pos : list V) (named : list (str * V)) : Prop :=
  (sg_varargs sg = None -> (length pos <= length (sg_params sg))%nat) /\
  (forall k v, In (k, v) named -> In k (map fst (sg_params sg)) \/ sg_varkw sg <> None) /\
  (forall i k d, nth_error (sg_params sg) i = Some (k, d) -> (i < length pos)%nat -> ~ In k (map fst named)) /\
  (forall i k, nth_error (sg_params sg) i = Some (k, None) -> (length pos <= i)%nat -> In k (map fst named)).

(** What the body finds under a name. *)
Inductive value V := One (v : V) | Many (l : list V) | Keys (l : list (str * V)).
Arguments One {V}. Arguments Many {V}. Arguments Keys {V}.
Definition receives {V} (sg : signature V) (pos : list V) (named : list (str * V)) (x : str) (v : value V) : Prop :=
  (exists i d a, nth_error (sg_params sg) i = Some (x, d) /\ v = One a /\
     (nth_error pos i = Some a \/
      (length pos <= i)%nat /\ In (x, a) named \/
      (length pos <= i)%nat /\ ~ In x (map fst named) /\ d = Some a)) \/
  (sg_varargs sg = Some x /\ v = Many (skipn (length (sg_params sg)) pos)) \/
  (sg_varkw sg = Some x /\ v = Keys (filter (fun e => if in_dec (list_eq_dec ascii_dec) (fst e) (map fst (sg_params sg)) then false else true) named)).

(** Entries in writing: [a=1,\n\tb=2]. *)
Definition nl : ascii := ascii_of_nat 10.
Definition tab : ascii := ascii_of_nat 9.
Fixpoint entries_text {A} (text : A -> str) (l : list (str * A)) : str :=
  match l with
  | [] => []
  | [(k, v)] => k ++ "="%char :: text v
  | (k, v) :: r => k ++ "="%char :: text v ++ ","%char :: nl :: tab :: entries_text text r
  end.
(** The message before a call and the one after it. *)
Definition before {A} (text : A -> str) (md fn : str) (l : list (str * A)) : str :=
  nl :: lit "calling " ++ md ++ lit "." ++ fn ++ lit "(" ++ nl :: tab :: entries_text text l ++ nl :: lit ")" ++ [nl].
Definition after : str := lit "SUCCESS!".

(** Messages of calls that have all returned, and of [n] calls. *)
Inductive finished : nat -> list str -> Prop :=
| f_none : finished 0 []
| f_call md fn t n m w w' : finished n w -> finished m w' ->
    finished (S (n + m)) ((nl :: lit "calling " ++ md ++ lit "." ++ fn ++ lit "(" ++ t) :: w ++ after :: w').
(** Messages of calls of which the last [n], one inside the other, have not returned. *)
Inductive unfinished : nat -> list str -> Prop :=
| u_none k w : finished k w -> unfinished 0 w
| u_call k w md fn t n w' : finished k w -> unfinished n w' ->
    unfinished (S n) (w ++ (nl :: lit "calling " ++ md ++ lit "." ++ fn ++ lit "(" ++ t) :: w').
