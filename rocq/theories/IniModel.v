(** * The text of a configuration file (RawConfigParser._read of the standard
    library, python 3.7, which utilities/config.py:41 reaches through
    [self.read]), in front of the sections and options of UtilModel.

    ASCII text; characters above 127 count as ordinary letters.  The errors
    MissingSectionHeaderError and ParsingError are [ValueError] here, like the
    errors for duplicates in UtilModel.  A ParsingError is raised at the end of
    the file in the program and at the bad line here: either way the read raises
    and the program does not catch it. *)
From Coq Require Import Ascii String.
From Verif Require Import Base PyStr UtilModel.
Open Scope Z_scope.

(** Characters that str.strip and the regular expression \s remove: tab to
    carriage return, the four separators 28 to 31, space. *)
Definition white (c : ascii) : bool :=
  let n := Z.of_nat (nat_of_ascii c) in
  ((9 <=? n) && (n <=? 13) || (28 <=? n) && (n <=? 32))%bool.
Fixpoint lstrip (s : str) : str := match s with c :: s' => if white c then lstrip s' else s | [] => [] end.
Definition rstrip (s : str) : str := rev (lstrip (rev s)).
Definition strip (s : str) : str := lstrip (rstrip s).

(** NONSPACECRE.search(line).start(): the column of the first visible character. *)
Fixpoint indent_of (s : str) : Z := match s with c :: s' => if white c then 1 + indent_of s' else 0 | [] => 0 end.

Definition nl : ascii := "010"%char.
Definition cr : ascii := "013"%char.
(** Text mode: carriage return, alone or before a newline, is a newline. *)
Fixpoint universal (s : str) : str :=
  match s with
  | [] => []
  | c :: s' => if Ascii.eqb c cr then nl :: match s' with
                                             | d :: s'' => if Ascii.eqb d nl then universal s'' else universal s'
                                             | [] => []
                                             end
               else c :: universal s'
  end.
(** Iterating over a file: its lines, without the newline that ends them. *)
Fixpoint lines_from (s cur : str) : list str :=
  match s with
  | [] => match cur with [] => [] | _ => [rev cur] end
  | c :: s' => if Ascii.eqb c nl then rev cur :: lines_from s' [] else lines_from s' (c :: cur)
  end.
Definition lines (s : str) : list str := lines_from s [].

(** Full-line comment: the prefixes are # and ;, and the defaults have no inline comments. *)
Definition is_comment (v : str) : bool :=
  match v with c :: _ => (Ascii.eqb c "#" || Ascii.eqb c ";")%bool | [] => false end.

(** SECTCRE.match: an opening bracket, one or more characters other than the
    closing one, a closing bracket; what follows is ignored. *)
Fixpoint until_bracket (s : str) : option str :=
  match s with
  | [] => None
  | c :: s' => if Ascii.eqb c "]" then Some [] else match until_bracket s' with Some h => Some (c :: h) | None => None end
  end.
Definition header_of (v : str) : option str :=
  match v with
  | c :: s => if Ascii.eqb c "[" then match until_bracket s with Some (x :: h) => Some (x :: h) | _ => None end else None
  | [] => None
  end.

(** OPTCRE.match: the text before the first = or :, and the text after it. *)
Fixpoint at_delimiter (s : str) : option (str * str) :=
  match s with
  | [] => None
  | c :: s' => if (Ascii.eqb c "=" || Ascii.eqb c ":")%bool then Some ([], s')
               else match at_delimiter s' with Some (a, b) => Some (c :: a, b) | None => None end
  end.

(** The variables of the loop: the sections so far with their options so far
    and the lines of their values, latest first ([cursect] is the head);
    whether [optname] is set (it then names the head of the head); [indent_level]. *)
Record scan := Scan { sc_sections : list (str * list (str * list str)); sc_open : bool; sc_indent : Z }.
Definition add_line (l : str) (ss : list (str * list (str * list str))) : list (str * list (str * list str)) :=
  match ss with
  | (s, (o, v) :: os) :: ss => (s, (o, l :: v) :: os) :: ss
  | _ => ss
  end.
Definition scan_line (st : scan) (line : str) : res scan :=
  let v := strip line in
  if is_comment v then Ok st
  else match v with
  | [] => Ok (if sc_open st then Scan (add_line [] (sc_sections st)) true (sc_indent st) else st)
  | _ =>
    let cur := indent_of line in
    if (sc_open st && (sc_indent st <? cur))%bool then Ok (Scan (add_line v (sc_sections st)) true (sc_indent st))
    else match header_of v with
    | Some h => Ok (Scan ((h, []) :: sc_sections st) false cur)
    | None =>
      match sc_sections st with
      | [] => Err ValueError
      | (s, os) :: ss =>
        match at_delimiter v with
        | Some (o, x) =>
            match rstrip o with
            | [] => Err ValueError
            | o => Ok (Scan ((s, (o, [strip x]) :: os) :: ss) true cur)
            end
        | None => Err ValueError
        end
      end
    end
  end.

(** _join_multiline_values: the lines of a value joined by newlines, trailing space removed. *)
Fixpoint join_lines (ls : list str) : str :=
  match ls with [] => [] | [l] => l | l :: ls => l ++ nl :: join_lines ls end.
Definition finish (ss : list (str * list (str * list str))) : cfgfile :=
  rev (map (fun e => (fst e, rev (map (fun p => (fst p, rstrip (join_lines (rev (snd p))))) (snd e)))) ss).

Definition ini_file (text : str) : res cfgfile :=
  let* st := foldM scan_line (lines (universal text)) (Scan [] false 0) in
  Ok (finish (sc_sections st)).

(** RawConfigParser.read of a file, starting from its text; a missing file is skipped. *)
Definition load_text (disk : str -> option str) (name : str) (p : parser) : res parser :=
  match disk name with
  | None => set_config_file (fun _ => None) name p
  | Some t => let* f := ini_file t in set_config_file (fun _ => Some f) name p
  end.
