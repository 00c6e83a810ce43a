(** * Logged calls (utilities/meta.py:36-88) and the logged interpolation
    (utilities/blrb.py).  Functions without keyword-only parameters. *)
From Verif Require Import Base PyStr CallSpec BlrbModel.
Open Scope Z_scope.

Definition mem (x : str) (l : list str) : bool := if in_dec (list_eq_dec ascii_dec) x l then true else false.

Section Call.
  Context {V : Type}.
  Implicit Types (sg : signature V) (d : list (str * value V)).

  (** inspect.getcallargs (CPython 3).  Dictionaries are lists in the order of
      insertion.  [add_key]: [arg2value[varkw][kw] = value]. *)
  Definition add_key (w k : str) (v : V) d : list (str * value V) :=
    map (fun e => if mem (fst e) [w] then (fst e, match snd e with Keys l => Keys (l ++ [(k, v)]) | x => x end) else e) d.
  Fixpoint bind_named (possible : list str) (varkw : option str) (named : list (str * V)) d : res (list (str * value V)) :=
    match named with
    | [] => Ok d
    | (k, v) :: r =>
        if negb (mem k possible)
        then match varkw with None => Err TypeError | Some w => bind_named possible varkw r (add_key w k v d) end
        else if mem k (map fst d) then Err TypeError
        else bind_named possible varkw r (d ++ [(k, One v)])
    end.
  Definition bind_default d (p : str * option V) : res (list (str * value V)) :=
    if mem (fst p) (map fst d) then Ok d
    else match snd p with None => Err TypeError | Some v => Ok (d ++ [(fst p, One v)]) end.
  Definition getcallargs sg (pos : list V) (named : list (str * V)) : res (list (str * value V)) :=
    let args := map fst (sg_params sg) in
    let n := Nat.min (length pos) (length args) in
    let d := combine (firstn n args) (map One pos) in
    let d := d ++ match sg_varargs sg with Some a => [(a, Many (skipn n pos))] | None => [] end in
    let d := d ++ match sg_varkw sg with Some w => [(w, Keys [])] | None => [] end in
    let* d := bind_named args (sg_varkw sg) named d in
    if ((length args <? length pos)%nat && match sg_varargs sg with None => true | Some _ => false end)%bool then Err TypeError
    else if (length pos <? length args)%nat then foldM bind_default (sg_params sg) d
    else Ok d.

  (** meta.py:36-49.  [show] is str() of a value. *)
  Fixpoint join (sep : str) (l : list str) : str :=
    match l with [] => [] | [x] => x | x :: r => x ++ sep ++ join sep r end.
  Definition create_arg_string (show : value V -> res str) sg pos named : res str :=
    if mem (lit "func") (map fst named) then Err TypeError else
    let* d := getcallargs sg pos named in
    let* l := mapM (fun e => let* s := show (snd e) in Ok (join (lit "=") [fst e; s])) d in
    Ok (join (lit "," ++ [nl; tab]) l).

  (** meta.py:52-88.  [logger] None is a false logger.  A function is what it does
      to the state of the process, given the arguments. *)
  Definition fn W A := list V -> list (str * V) -> W -> W * res A.
  Definition print_call {W A} (sphinx : bool) (logger : option (str -> W -> W * res unit)) (show : value V -> res str)
      (md name : str) sg (func : fn W A) : fn W A :=
    match sphinx, logger with
    | false, Some log => fun pos named w =>
        match create_arg_string show sg pos named with
        | Err e => (w, Err e)
        | Ok arg_str =>
            match log (nl :: lit "calling " ++ md ++ lit "." ++ name ++ lit "(" ++ [nl; tab] ++ arg_str ++ [nl] ++ lit ")" ++ [nl]) w with
            | (w, Err e) => (w, Err e)
            | (w, Ok _) =>
                match func pos named w with
                | (w, Err e) => (w, Err e)
                | (w, Ok r) => match log (lit "SUCCESS!") w with (w, Err e) => (w, Err e) | (w, Ok _) => (w, Ok r) end
                end
            end
        end
    | _, _ => func
    end.
End Call.

(** ** The five functions of blrb.py with their decorators.  The log is a list of
    messages; [text] prints arguments. *)
Inductive pyv := Number (q : Q) | Pair (a b : Q) | Function | Array (g : grid num) | Float64 | Nothing.
Definition L A := list str -> list str * res A.
Definition retL {A} (r : res A) : L A := fun l => (l, r).
Definition bindL {A B} (m : L A) (f : A -> L B) : L B :=
  fun l => match m l with (l, Ok a) => f a l | (l, Err e) => (l, Err e) end.
Fixpoint foldL {A S} (f : S -> A -> L S) (xs : list A) (s : S) : L S :=
  match xs with [] => retL (Ok s) | x :: r => bindL (f s x) (foldL f r) end.

Section Blrb.
  Variable text : value pyv -> str.
  Definition debug (m : str) (l : list str) : list str * res unit := (l ++ [m], Ok tt).
  Definition logged {A} (name : string) (params : list (str * option pyv)) (body : L A) (pos : list pyv) (named : list (str * pyv)) : L A :=
    print_call false (Some debug) (fun v => Ok (text v)) (lit "utilities.blrb") (lit name) (Sig params None None) (fun _ _ => body) pos named.
  Definition p_origin : str * option pyv := (lit "origin", Some (Pair 0 0)).
  Definition p_shape : str * option pyv := (lit "shape", Some (Pair 8 8)).

  (** blrb.py:23-56 *)
  Definition bilinear_l (sr sc f_ul f_ur f_lr f_ll : Q) : L (grid num) :=
    logged "bilinear" [(lit "shape", None); (lit "f_ul", None); (lit "f_ur", None); (lit "f_lr", None); (lit "f_ll", None); (lit "dtype", Some Float64)]
      (retL (Ok (bilinear sr sc f_ul f_ur f_lr f_ll))) [Pair sr sc; Number f_ul; Number f_ur; Number f_lr; Number f_ll] [].
  (** blrb.py:59-74 *)
  Definition indices_l (oi oj sr sc : Q) : L (Q * Q * Q * Q) :=
    logged "indices" [p_origin; p_shape] (retL (Ok (indices oi oj sr sc))) [Pair oi oj; Pair sr sc] [].
  (** blrb.py:77-104 *)
  Definition subdivide_l (oi oj sr sc : Q) : L (list ((Q * Q) * (Q * Q))) :=
    logged "subdivide" [p_origin; p_shape]
      (bindL (indices_l oi oj sr sc) (fun '(i0, ie, j0, je) =>
         let ic := (oi + sr / 2)%Q in
         let jc := (oj + sc / 2)%Q in
         retL (Ok [((i0, j0), (ic, jc)); ((ic, j0), (ie, jc)); ((i0, jc), (ic, je)); ((ic, jc), (ie, je))])))
      [Pair oi oj; Pair sr sc] [].
  (** blrb.py:107-150, with a grid argument. *)
  Definition interpolate_block_l (oi oj sr sc : Q) (eval_func : Z -> Z -> Q) (g : grid num) : L (grid num) :=
    logged "interpolate_block" [p_origin; p_shape; (lit "eval_func", Some Nothing); (lit "grid", Some Nothing)]
      (bindL (indices_l oi oj sr sc) (fun '(i0, i1, j0, j1) =>
         let i0 := Qfloor i0 in
         let j0 := Qfloor j0 in
         let i1 := Qceiling i1 in
         let j1 := Qceiling j1 in
         let f_ul := eval_func i0 j0 in
         let f_ll := eval_func i1 j0 in
         let f_ur := eval_func i0 j1 in
         let f_lr := eval_func i1 j1 in
         bindL (bilinear_l sr sc f_ul f_ur f_lr f_ll) (fun b => retL (slice_set g i0 i1 j0 j1 b))))
      [Pair oi oj; Pair sr sc; Function; Array g] [].
  (** blrb.py:153-198: the body, and a call with positional or with the given
      keyword arguments.  The body tests for missing functions and grids first;
      here they are always given. *)
  Definition grid_call (depth : nat) (oi oj sr sc : Q) (g : grid num) (body : L (grid num)) : L (grid num) :=
    logged "interpolate_grid" [(lit "depth", Some (Number 0)); p_origin; p_shape; (lit "eval_func", Some Nothing); (lit "grid", Some Nothing)] body
      [Number (inject_Z (Z.of_nat depth)); Pair oi oj; Pair sr sc; Function; Array g] [].
  Fixpoint grid_body (depth : nat) (oi oj sr sc : Q) (eval_func : Z -> Z -> Q) (g : grid num) : L (grid num) :=
    match depth with
    | O => interpolate_block_l oi oj sr sc eval_func g
    | S depth =>
        bindL (subdivide_l oi oj sr sc)
          (fun blocks => foldL (fun g b => let '((ui, uj), (li, lj)) := b in
             grid_call depth ui uj (li - ui + 1)%Q (lj - uj + 1)%Q g
               (grid_body depth ui uj (li - ui + 1)%Q (lj - uj + 1)%Q eval_func g)) blocks g)
    end.
  Definition interpolate_grid_l depth oi oj sr sc eval_func g : L (grid num) :=
    grid_call depth oi oj sr sc g (grid_body depth oi oj sr sc eval_func g).
  (** get_pixel_size_grid.py:139-155: called by keyword, without an origin. *)
  Definition grid_by_keyword (depth : nat) (sr sc : Q) (eval_func : Z -> Z -> Q) (g : grid num) : L (grid num) :=
    logged "interpolate_grid" [(lit "depth", Some (Number 0)); p_origin; p_shape; (lit "eval_func", Some Nothing); (lit "grid", Some Nothing)]
      (grid_body depth 0 0 sr sc eval_func g) []
      [(lit "depth", Number (inject_Z (Z.of_nat depth))); (lit "shape", Pair sr sc); (lit "eval_func", Function); (lit "grid", Array g)].
  Definition get_pixel_size_grids_l (size : Z -> Z -> Q * Q) (rows cols : Z) : L (grid num * grid num) :=
    let zero := Grid rows cols (fun _ _ => Num 0) in
    bindL (grid_by_keyword 1 (inject_Z rows) (inject_Z cols) (fun x y => fst (size x y)) zero) (fun xg =>
    bindL (grid_by_keyword 1 (inject_Z rows) (inject_Z cols) (fun x y => snd (size x y)) zero) (fun yg =>
    retL (Ok (xg, yg)))).
End Blrb.
