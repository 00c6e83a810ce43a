(** * Command lines with options that take values (argparse of Python 3.7), and
    rasterize.py:10-54 from its command line.

    As CmdModel, for any table of such options: no flags but [-h], no positional
    arguments.  An option is known by its letter; "h" is help. *)
From Verif Require Import Base PyStr UtilModel IniModel RunModel StartModel CmdModel PreModel RastModel ReprModel ArgSpec.
Open Scope Z_scope.

Section Arg.
  Variable table : options.
  (** The option strings in the order of their declaration. *)
  Definition strings : list (str * ascii) :=
    flat_map (fun o : ascii * str => [([dash; fst o], fst o); (dash :: dash :: snd o, fst o)]) (("h"%char, lit "help") :: table).
  Definition find_string (s : str) : option ascii :=
    match find (fun o => str_eqb s (fst o)) strings with Some o => Some (snd o) | None => None end.

  (** ArgumentParser._get_option_tuples *)
  Definition tuples (w : str) : list (ascii * str * option str) :=
    match w with
    | a :: b :: r =>
      if Ascii.eqb b dash then
        let '(p, e) := match split_eq w with Some (p, e) => (p, Some e) | None => (w, None) end in
        flat_map (fun o => if startswith (fst o) p then [(snd o, fst o, e)] else []) strings
      else
        flat_map (fun o => if str_eqb (fst o) [a; b] then [(snd o, fst o, Some r)]
                           else if startswith (fst o) w then [(snd o, fst o, None)] else []) strings
    | _ => []
    end.

  (** ArgumentParser._parse_optional *)
  Inductive kind := Value | Opt (o : option (ascii * str * option str)).
  Definition parse_word (w : str) : kind + stop :=
    match w with
    | [] => inl Value
    | c :: r =>
      if negb (Ascii.eqb c dash) then inl Value else
      match find_string w with
      | Some a => inl (Opt (Some (a, w, None)))
      | None =>
        match r with
        | [] => inl Value
        | _ =>
          match (match split_eq w with Some (p, e) => match find_string p with Some a => Some (a, p, Some e) | None => None end | None => None end) with
          | Some t => inl (Opt (Some t))
          | None =>
            match tuples w with
            | _ :: _ :: _ => inr Usage
            | [t] => inl (Opt (Some t))
            | [] => if negative_number w then inl Value
                    else if has_char " " w then inl Value
                    else inl (Opt None)
            end
          end
        end
      end
    end.

  (** ArgumentParser._parse_known_args, first loop *)
  Fixpoint kinds (ws : list str) : list (str * kind) + stop :=
    match ws with
    | [] => inl []
    | w :: ws =>
      if str_eqb w (lit "--") then inl ((w, Opt None) :: map (fun w => (w, Value)) ws)
      else match parse_word w with
           | inr s => inr s
           | inl c => match kinds ws with inl cs => inl ((w, c) :: cs) | inr s => inr s end
           end
    end.

  (** consume_optional: whether help is asked for in the word, and what follows. *)
  Inductive want := Done | Wants (x : ascii) | Has (x : ascii) (v : str).
  Definition last_one (a : ascii) : bool * want := if Ascii.eqb a "h" then (true, Done) else (false, Wants a).
  Fixpoint letters (a : ascii) (e : str) {struct e} : (bool * want) + stop :=
    if negb (Ascii.eqb a "h") then inl (false, Has a e) else
    match e with
    | [] => inr (Raised IndexError)
    | c :: e =>
      match find_string [dash; c] with
      | None => inr Usage
      | Some b =>
        match e with
        | [] => inl (true, snd (last_one b))
        | _ => match letters b e with inl (_, t) => inl (true, t) | inr s => inr s end
        end
      end
    end.
  Definition consume_word (t : ascii * str * option str) : (bool * want) + stop :=
    let '(a, n, e) := t in
    match e with
    | None => inl (last_one a)
    | Some e =>
      if negb (Ascii.eqb a "h") then inl (false, Has a e) else
      match n with
      | _ :: b :: _ => if Ascii.eqb b dash then inr Usage else letters a e
      | _ => inr Usage
      end
    end.

  (** The main loop of _parse_known_args: the values in the order given. *)
  Fixpoint take_values (cs : list (str * kind)) (left : bool) : list (ascii * str) + stop :=
    match cs with
    | [] => if left then inr Usage else inl []
    | (w, Value) :: cs => take_values cs true
    | (w, Opt None) :: cs => take_values cs true
    | (w, Opt (Some t)) :: cs =>
      match consume_word t with
      | inr s => inr s
      | inl (help, Done) => if help then inr Help else take_values cs left
      | inl (help, Has x v) =>
        if help then inr Help else
        match value_of v with
        | inl v => match take_values cs left with inl l => inl ((x, v) :: l) | inr s => inr s end
        | inr s => inr s
        end
      | inl (help, Wants x) =>
        match cs with
        | (v, Value) :: cs =>
          if help then inr Help else
          match value_of v with
          | inl v => match take_values cs left with inl l => inl ((x, v) :: l) | inr s => inr s end
          | inr s => inr s
          end
        | _ => inr Usage
        end
      end
    end.
  Definition parse_values (argv : list str) : list (ascii * str) + stop :=
    match kinds argv with inl cs => take_values cs false | inr s => inr s end.
End Arg.

(** rasterize.py:18-25; -i and -t are required. *)
Definition rasterize_options : options := [("i"%char, lit "input"); ("a"%char, lit "attribute"); ("t"%char, lit "topography"); ("c"%char, lit "crop")].
Fixpoint namespace (x : ascii) (l : list (ascii * str)) (v : option str) : option str :=
  match l with [] => v | (y, w) :: l => namespace x l (if Ascii.eqb y x then Some w else v) end.
Record rasterize_args := RArgs { r_input : str; r_attribute : str; r_topography : str; r_crop : option str }.
Definition cmdline (argv : list str) : rasterize_args + stop :=
  match parse_values rasterize_options argv with
  | inr s => inr s
  | inl l =>
    match namespace "i" l None, namespace "t" l None with
    | Some i, Some t => inl (RArgs i (match namespace "a" l (Some (lit "CAT")) with Some a => a | None => [] end) t (namespace "c" l None))
    | _, _ => inr Usage
    end
  end.
(** rasterize.py:29-54: an empty name of a mask is as good as none.  What a run
    that raises has written is left out. *)
Inductive rasterize_end := RStopped (s : stop) | RRaised (e : exn) | RWrote (ras : str -> option image).
Definition rasterize_py {G} (covers : G -> Q * Q -> bool) tr atof (cut : image -> str -> option image)
    (vec : str -> option (layer G)) (ras : str -> option image) (argv : list str) : rasterize_end :=
  match cmdline argv with
  | inr s => RStopped s
  | inl a =>
    match script covers tr atof cut vec ras (r_input a) (r_attribute a) (r_topography a)
        (match r_crop a with Some [] => None | c => c end) with
    | Ok ras => RWrote ras
    | Err e => RRaised e
    end
  end.
(** mpi_runner.py:58-62 *)
Definition mpi_options : options := [("p"%char, lit "path")].
Definition mpi_path (argv : list str) : option str + stop :=
  match parse_values mpi_options argv with inr s => inr s | inl l => inl (namespace "p" l None) end.
