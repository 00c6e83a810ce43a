(** * C96: logged calls. *)
From Verif Require Import Base BaseLemmas PyStr CallSpec BlrbModel CallModel CallProofs.
Open Scope Z_scope.

(** What the log says of the arguments is what the function receives: every
    parameter once, whether given by position, by keyword or by default. *)
Theorem C96_binding {V} (sg : signature V) pos named : legal sg named ->
  (acceptable sg pos named -> exists entries, getcallargs sg pos named = Ok entries /\ NoDup (map fst entries) /\ forall x v, In (x, v) entries <-> receives sg pos named x v) /\
  (~ acceptable sg pos named -> getcallargs sg pos named = Err TypeError).
Proof.
  intros H. pose proof (getcallargs_spec sg pos named H) as G. destruct (getcallargs sg pos named) as [d|e].
  - destruct G as (A & N & R). split; [intros _; exists d; auto|tauto].
  - destruct G as [-> A]. split; [tauto|reflexivity].
Qed.
Print Assumptions C96_binding.

(** A decorated function logs the call with these arguments, runs, and logs
    [SUCCESS!] exactly when it returns. *)
Theorem C96_logged {V S A} (text : value V -> str) md name sg (func : fn (S * list str) A) pos named s l :
  legal sg named -> acceptable sg pos named -> ~ In (lit "func") (map fst named) ->
  exists entries, NoDup (map fst entries) /\ (forall x v, In (x, v) entries <-> receives sg pos named x v) /\
    print_call false (Some (fun m w => ((fst w, snd w ++ [m]), Ok tt))) (fun v => Ok (text v)) md name sg func pos named (s, l) =
    match func pos named (s, l ++ [before text md name entries]) with
    | ((s', l'), Ok r) => ((s', l' ++ [after]), Ok r)
    | (w, Err e) => (w, Err e)
    end.
Proof.
  intros H A0 F. destruct (proj1 (C96_binding sg pos named H) A0) as (d & E & N & R). exists d. split; [exact N|]. split; [exact R|].
  unfold print_call. rewrite (arg_string text sg pos named d F E). cbv beta iota. cbn [fst snd].
  assert (M : (nl :: lit "calling " ++ md ++ lit "." ++ name ++ lit "(" ++ [nl; tab] ++ entries_text text d ++ [nl] ++ lit ")" ++ [nl]) = before text md name d) by reflexivity.
  rewrite M. destruct (func pos named (s, l ++ [before text md name d])) as [[s' l'] [r|e]]; reflexivity.
Qed.
Print Assumptions C96_logged.

(** Apart from the log nothing changes, for a function that only adds to it. *)
Theorem C96_transparent {V S A} (text : value V -> str) md name sg (func : fn (S * list str) A) pos named s s' w r :
  legal sg named -> acceptable sg pos named -> ~ In (lit "func") (map fst named) ->
  (forall l, func pos named (s, l) = ((s', l ++ w), r)) ->
  forall l, exists l', print_call false (Some (fun m w => ((fst w, snd w ++ [m]), Ok tt))) (fun v => Ok (text v)) md name sg func pos named (s, l) = ((s', l ++ l'), r).
Proof.
  intros H A0 F P l. destruct (C96_logged text md name sg func pos named s l H A0 F) as (d & _ & _ & E). rewrite E, P. destruct r as [r|e].
  - eexists. rewrite <- !app_assoc. reflexivity.
  - eexists. rewrite <- app_assoc. reflexivity.
Qed.
Print Assumptions C96_transparent.

(** Without a logger, or while the documentation is built, the function is left
    as it is. *)
Theorem C96_off {V W A} sphinx logger show md name sg (func : @fn V W A) : sphinx = true \/ logger = None ->
  print_call sphinx logger show md name sg func = func.
Proof. intros [-> | ->]; [reflexivity|]. destruct sphinx; reflexivity. Qed.
Print Assumptions C96_off.

(** Calls Python refuses raise TypeError and leave no trace; a call with an
    argument that cannot be printed does not run either. *)
Theorem C96_not_run {V W A} log show md name sg (func : @fn V W A) pos named w : legal sg named ->
  (~ acceptable sg pos named -> print_call false (Some log) show md name sg func pos named w = (w, Err TypeError)) /\
  ((exists x v e, receives sg pos named x v /\ show v = Err e) -> exists e, print_call false (Some log) show md name sg func pos named w = (w, Err e)).
Proof.
  intros H. unfold print_call, create_arg_string. destruct (mem (lit "func") (map fst named)); [split; [reflexivity|intros _; exists TypeError; reflexivity]|].
  pose proof (getcallargs_spec sg pos named H) as G. destruct (getcallargs sg pos named) as [d|e]; cbn [bind].
  - destruct G as (A0 & N & R). split; [tauto|]. intros (x & v & e & Rx & E). apply R in Rx. clear - Rx E.
    assert (M : exists e', mapM (fun e => let* s := show (snd e) in Ok (join (lit "=") [fst e; s])) d = Err e').
    { induction d as [|[y u] d IH]; [destruct Rx|]. cbn [mapM snd fst]. destruct (show u) as [su|eu] eqn:Eu; cbn [bind]; [|exists eu; reflexivity].
      destruct Rx as [Rx|Rx]; [injection Rx as -> ->; congruence|]. destruct (IH Rx) as [e' ->]. exists e'. reflexivity. }
    destruct M as [e' ->]. exists e'. reflexivity.
  - destruct G as [-> _]. split; [reflexivity|]. intros _. exists TypeError. reflexivity.
Qed.
Print Assumptions C96_not_run.

(** Refuted: a decorated function cannot be given an argument by the keyword
    [func], though Python would accept the call. *)
Theorem C96_func_refuted {V W A} (v : V) log show md name : let sg := Sig [(lit "func", None)] None None in
  legal sg [(lit "func", v)] /\ acceptable sg [] [(lit "func", v)] /\
  forall (func : @fn V W A) w, print_call false (Some log) show md name sg func [] [(lit "func", v)] w = (w, Err TypeError).
Proof.
  cbv zeta. split; [|split].
  - split; cbn; repeat constructor; intros [].
  - split; [|split; [|split]]; cbn [sg_params sg_varargs sg_varkw map fst length].
    + intros _. lia.
    + intros k u [E|[]]. injection E as <- _. left. left. reflexivity.
    + intros i k d _ Hi. lia.
    + intros [|[|i]] k E _; cbn in E; try discriminate. injection E as <-. left. reflexivity.
  - intros func w. reflexivity.
Qed.
Print Assumptions C96_func_refuted.
(** It is the only keyword so lost. *)
Theorem C96_only_func {V S A} (text : value V -> str) md name sg (func : fn (S * list str) A) pos named s l :
  legal sg named -> acceptable sg pos named -> (forall w, exists w' r, func pos named w = (w', Ok r)) ->
  ((exists w' r, print_call false (Some (fun m w => ((fst w, snd w ++ [m]), Ok tt))) (fun v => Ok (text v)) md name sg func pos named (s, l) = (w', Ok r)) <->
   ~ In (lit "func") (map fst named)).
Proof.
  intros H A0 T. split.
  - intros (w' & r & E) I. unfold print_call, create_arg_string in E. rewrite (proj2 (mem_in _ _) I) in E. discriminate.
  - intros F. destruct (C96_logged text md name sg func pos named s l H A0 F) as (d & _ & _ & E). rewrite E.
    destruct (T (s, l ++ [before text md name d])) as ([s' l'] & r & ->). exists (s', l' ++ [after]), r. reflexivity.
Qed.
Print Assumptions C96_only_func.

(** The interpolation computes what it computes without logging, in every depth.
    It logs [5 * 4 ^ depth - 1] calls, properly nested and all with their
    [SUCCESS!]; if it fails, the last [depth + 2] are the ones left open. *)
Theorem C96_interpolation text depth oi oj sr sc f g l : exists w,
  interpolate_grid_l text depth oi oj sr sc f g l = (l ++ w, interpolate_grid depth oi oj sr sc f g) /\
  match interpolate_grid depth oi oj sr sc f g with Ok _ => finished (5 * 4 ^ depth - 1) w | Err _ => unfinished (depth + 2) w end.
Proof. exact (good_grid text f depth oi oj sr sc g l). Qed.
Print Assumptions C96_interpolation.
(** The pixel sizes take 38 logged calls. *)
Theorem C96_pixel_sizes text size rows cols l : exists w,
  get_pixel_size_grids_l text size rows cols l = (l ++ w, get_pixel_size_grids size rows cols) /\
  match get_pixel_size_grids size rows cols with Ok _ => finished 38 w | Err _ => unfinished 3 w end.
Proof. exact (good_pixel_sizes text size rows cols l). Qed.
Print Assumptions C96_pixel_sizes.
(** A finished log of [n] calls has [n] opening messages and [n] [SUCCESS!]. *)
Theorem C96_finished_count n w : finished n w -> length w = (2 * n)%nat /\ count_occ (list_eq_dec ascii_dec) w after = n.
Proof.
  induction 1 as [|md fn t n m w w' _ [L1 C1] _ [L2 C2]]; [split; reflexivity|]. split.
  - cbn [length]. rewrite app_length. cbn [length]. lia.
  - rewrite count_occ_cons_neq by discriminate. rewrite count_occ_app. rewrite count_occ_cons_eq by reflexivity. transitivity (n + S m)%nat; [apply f_equal2; [exact C1|apply f_equal; exact C2]|lia].
Qed.
Print Assumptions C96_finished_count.

(** [def f(a, b=2, *c, **d)] called as [f(1, z=5)]; and the first message of an
    interpolation. *)
Example C96_ex : let sg := Sig [(lit "a", None); (lit "b", Some 2)] (Some (lit "c")) (Some (lit "d")) in
  legal sg [(lit "z", 5)] /\ acceptable sg [1] [(lit "z", 5)] /\
  getcallargs sg [1] [(lit "z", 5)] = Ok [(lit "a", One 1); (lit "c", Many []); (lit "d", Keys [(lit "z", 5)]); (lit "b", One 2)] /\
  (let text v := match v with One (Number _) => lit "0" | One (Pair _ _) => lit "(3, 3)" | One Function => lit "<f>" | _ => lit "[]" end in
   let run := interpolate_grid_l text 0 0 0 3 3 (fun _ _ => 1%Q) (Grid 3 3 (fun _ _ => Num 0)) [] in
   hd [] (fst run) = nl :: lit "calling utilities.blrb.interpolate_grid(" ++ [nl; tab] ++ lit "depth=0," ++ [nl; tab] ++ lit "origin=(3, 3)," ++ [nl; tab] ++ lit "shape=(3, 3)," ++ [nl; tab] ++ lit "eval_func=<f>," ++ [nl; tab] ++ lit "grid=[]" ++ [nl] ++ lit ")" ++ [nl] /\
   length (fst run) = 8%nat).
Proof.
  cbv zeta. split; [|split; [|split; [reflexivity|split; reflexivity]]].
  - split; cbn; repeat constructor; cbn; intuition discriminate.
  - split; [|split; [|split]]; cbn [sg_params sg_varargs sg_varkw map fst length].
    + discriminate.
    + intros k v _. right. discriminate.
    + intros i k d E _ [H|[]]. subst k. destruct i as [|[|[|i]]]; discriminate.
    + intros [|[|[|i]]] k E Hi; cbn in E; try discriminate. lia.
Qed.
