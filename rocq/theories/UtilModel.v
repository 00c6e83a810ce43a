(** * Configuration (utilities/config.py), elapsed time (all_multipliers.py),
    file checksum (utilities/files.py). *)
From Coq Require Import Ascii String.
From Verif Require Import Base PyStr.
Open Scope Z_scope.

(** ** Configuration *)

(** A configuration file as the parser of the standard library sees it: its
    section headers in order, each with its options in order.  How the parser
    gets there from the characters of the file is in IniModel. *)
Definition cfgfile := list (str * list (str * str)).

(** The state of RawConfigParser: the sections that exist (the DEFAULT section
    is not one of them) and the stored values. *)
Record conf := Conf { c_sections : list str; c_value : str -> str -> option str }.
Definition empty_conf : conf := Conf [] (fun _ _ => None).

Definition str_eqb (a b : str) : bool := if list_eq_dec ascii_dec a b then true else false.
Definition default_section : str := lit "DEFAULT".

(** RawConfigParser.optionxform: ASCII lower case. *)
Definition lower_char (c : ascii) : ascii :=
  let n := nat_of_ascii c in
  if ((65 <=? Z.of_nat n) && (Z.of_nat n <=? 90))%bool then ascii_of_nat (n + 32) else c.
Definition optionxform (s : str) : str := map lower_char s.

Definition set_value (c : conf) (s o v : str) : conf :=
  Conf (c_sections c) (fun s' o' => if (str_eqb s s' && str_eqb o o')%bool then Some v else c_value c s' o').
Definition add_section (c : conf) (s : str) : conf :=
  if str_eqb s default_section then c else if existsb (str_eqb s) (c_sections c) then c else Conf (c_sections c ++ [s]) (c_value c).

(** RawConfigParser._read with strict=True (the default): an option or section
    given twice in one file raises. *)
Fixpoint read_options (s : str) (opts : list (str * str)) (seen : list (str * str)) (c : conf) : res (list (str * str) * conf) :=
  match opts with
  | [] => Ok (seen, c)
  | (o, v) :: opts =>
      let o := optionxform o in
      if existsb (fun p => str_eqb s (fst p) && str_eqb o (snd p))%bool seen then Err ValueError
      else read_options s opts ((s, o) :: seen) (set_value c s o v)
  end.
Fixpoint read_sections (f : cfgfile) (seen_s : list str) (seen_o : list (str * str)) (c : conf) : res conf :=
  match f with
  | [] => Ok c
  | (s, opts) :: f =>
      if (negb (str_eqb s default_section) && existsb (str_eqb s) seen_s)%bool then Err ValueError
      else
        let* r := read_options s opts seen_o (add_section c s) in
        read_sections f (s :: seen_s) (fst r) (snd r)
  end.

(** RawConfigParser.read of one file name: a file that cannot be opened is skipped. *)
Definition cfg_read (disk : str -> option cfgfile) (name : str) (c : conf) : res conf :=
  match disk name with
  | None => Ok c
  | Some f => read_sections f [] [] c
  end.

(** config.py:32-38, 40-46, 48-54 *)
Record parser := Parser { p_conf : conf; p_readonce : bool; p_file : str }.
Definition read_file (disk : str -> option cfgfile) (p : parser) : res parser :=
  if p_readonce p then Ok p
  else let* c := cfg_read disk (p_file p) (p_conf p) in Ok (Parser c true (p_file p)).
Definition set_config_file (disk : str -> option cfgfile) (name : str) (p : parser) : res parser :=
  read_file disk (Parser (p_conf p) false name).
Definition new_parser (disk : str -> option cfgfile) (default_file : str) : res parser :=
  let p := Parser empty_conf false default_file in
  match disk default_file with
  | Some _ => read_file disk p
  | None => Ok p
  end.

(** RawConfigParser.get without fallback: the option in the section, else in
    the DEFAULT section; NoSectionError and NoOptionError are [KeyError] here. *)
Definition cfg_get (c : conf) (s o : str) : res str :=
  if (str_eqb s default_section || existsb (str_eqb s) (c_sections c))%bool then
    let o := optionxform o in
    match c_value c s o with
    | Some v => Ok v
    | None => match c_value c default_section o with Some v => Ok v | None => Err KeyError end
    end
  else Err KeyError.

(** ** Elapsed time *)

(** Python's divmod of floats (CPython float_divmod) for a positive divisor;
    C fmod is exact. *)
Definition fmod (v w : Q) : Q := (v - w * inject_Z (py_int (v / w)))%Q.
Definition py_divmod (fl : Q -> Q) (v w : Q) : Q * Q :=
  let m := fmod v w in
  let d := fl (fl (v - m) / w)%Q in
  let '(d, m) := if Qltb m 0 then (fl (d - 1)%Q, fl (m + w)%Q) else (d, m) in
  let f := inject_Z (Qfloor d) in
  let f := if Qltb (1#2) (fl (d - f)%Q) then (f + 1)%Q else f in
  (f, m).

(** Decimal digits, and the format %02d of a float (truncated to an integer). *)
Definition digit_chr (n : Z) : ascii := ascii_of_nat (Z.to_nat (48 + n)).
Fixpoint dec_digits (fuel : nat) (n : Z) : str :=
  match fuel with
  | O => []
  | S f => if n <? 10 then [digit_chr n] else dec_digits f (n / 10) ++ [digit_chr (n mod 10)]
  end.
Definition dec (n : Z) : str := dec_digits (S (Z.to_nat (Z.log2 n))) n.
Definition fmt_02d (x : Q) : str :=
  let n := py_int x in
  if n <? 0 then lit "-" ++ dec (- n)
  else if n <? 10 then lit "0" ++ dec n else dec n.

(** all_multipliers.py:545-548 *)
Definition elapsed (fl : Q -> Q) (tottime : Q) : str :=
  let '(q, s) := py_divmod fl tottime 60 in
  let '(h, m) := py_divmod fl q 60 in
  fmt_02d h ++ lit ":" ++ fmt_02d m ++ lit ":" ++ fmt_02d s ++ lit " ".

(** all_multipliers.py:537-551: the value returned and the message logged. *)
Definition timed {A} (fl : Q -> Q) (t1 t2 : Q) (r : res A) : res A * option str :=
  match r with
  | Ok a => (Ok a, Some (elapsed fl (fl (t2 - t1)%Q)))
  | Err e => (Err e, None)
  end.

(** ** Checksum *)

(** A read of [n] bytes from a buffered binary file: all remaining bytes for
    negative [n], otherwise at most [n]. *)
Definition file_read (n : Z) (rest : str) : str * str :=
  if n <? 0 then (rest, []) else (firstn (Z.to_nat n) rest, skipn (Z.to_nat n) rest).

(** files.py:172-180 for a hash object with operations [new], [update] and
    [hexdigest].  The loop ends at the first empty read; [fuel] bounds the
    number of reads ([checksum] supplies one more than the file has bytes). *)
Fixpoint hash_loop {H} (update : H -> str -> H) (chunk : Z) (fuel : nat) (m : H) (rest : str) : H :=
  match fuel with
  | O => m
  | S fuel => let '(c, rest) := file_read chunk rest in
              match c with [] => m | _ => hash_loop update chunk fuel (update m c) rest end
  end.
Definition checksum {H D} (new : H) (update : H -> str -> H) (hexdigest : H -> D) (chunk : Z) (content : str) : D :=
  hexdigest (hash_loop update chunk (S (length content)) new content).
