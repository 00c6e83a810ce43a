(** * Saving arrays as text and loading them: fl_save_file and fl_load_file of
    utilities/files.py, with numpy.savetxt and numpy.genfromtxt as their
    documentation and source describe them.

    Numbers are finite; -0.0 is 0.  Infinities, underscores between digits and
    blanks around a number are left out (a field with them is read as NaN here). *)
From Coq Require Import Ascii String Qround.
From Verif Require Import Base PyStr Rounding UtilModel.
Open Scope Z_scope.

(** ** Writing a number: Python's '%.{p}e', p > 0 (the format of files.py:108, p = 18 there) *)
(** The last [k] decimal digits. *)
Fixpoint digits (k : nat) (n : Z) : str := match k with O => [] | S k' => digits k' (n / 10) ++ [digit_chr (n mod 10)] end.
(** The number of decimal digits less one. *)
Fixpoint ilog (fuel : nat) (n : Z) : Z := match fuel with O => 0 | S f => if n <? 10 then 0 else 1 + ilog f (n / 10) end.
Definition log10 (n : Z) : Z := ilog (Z.to_nat (Z.log2 n)) n.
Definition p10 (e : Z) : Q := Qpower 10 e.
(** The decimal exponent of a positive number: 10^k <= x < 10^(k+1). *)
Definition dexp (x : Q) : Z :=
  let k := log10 (Qnum x) - log10 (Zpos (Qden x)) in if Qleb (p10 k) x then k else k - 1.
(** The digits as a whole number, and the exponent: the nearest number with p + 1
    digits, to even if there are two. *)
Definition sci (p : nat) (x : Q) : Z * Z :=
  let k := dexp x in
  let n := np_around (x * p10 (Z.of_nat p - k))%Q in
  if n <? 10 ^ Z.of_nat (S p) then (n, k) else (10 ^ Z.of_nat p, k + 1).
Definition show_sci (p : nat) (n k : Z) : str :=
  digits 1 (n / 10 ^ Z.of_nat p) ++ lit "." ++ digits p n ++ lit "e" ++ (if k <? 0 then lit "-" else lit "+")
  ++ digits (Z.to_nat (Z.max 2 (log10 (Z.abs k) + 1))) (Z.abs k).
Definition show_e (p : nat) (x : Q) : str :=
  if Qeq_bool x 0 then show_sci p 0 0
  else if Qltb x 0 then lit "-" ++ show_sci p (fst (sci p (- x))) (snd (sci p (- x)))
  else show_sci p (fst (sci p x)) (snd (sci p x)).
Definition show (p : nat) (x : num) : str := match x with NaN => lit "nan" | Num q => show_e p q end.

(** ** numpy.savetxt (files.py:128-129): [fmt] is '%.{p}e', comments '%' *)
(** A vector, or a matrix by its rows.  (For anything else savetxt raises ValueError.) *)
Inductive table := Vec (l : list num) | Mat (rows : list (list num)).
Definition rows_of (a : table) : list (list num) := match a with Vec l => map (fun x => [x]) l | Mat rows => rows end.
Definition lf : ascii := "010"%char.
Definition cr : ascii := "013"%char.
Definition percent : ascii := "%"%char.
Fixpoint joined (d : ascii) (l : list str) : str :=
  match l with [] => [] | [x] => x | x :: l' => x ++ d :: joined d l' end.
Definition comment (header : str) : str :=
  match header with [] => [] | _ => percent :: flat_map (fun c => if Ascii.eqb c lf then [lf; percent] else [c]) header ++ [lf] end.
Definition savetxt (p : nat) (d : ascii) (header : str) (a : table) : str :=
  comment header ++ flat_map (fun row => joined d (map (show p) row) ++ [lf]) (rows_of a).

(** ** Reading a number: Python's float(), NaN if it raises (StringConverter._loose_call; files.py:104-105) *)
Definition is_digit (c : ascii) : bool := let n := Z.of_nat (nat_of_ascii c) in (48 <=? n) && (n <=? 57).
Fixpoint span (s : str) : str * str :=
  match s with c :: s' => if is_digit c then let '(a, b) := span s' in (c :: a, b) else ([], s) | [] => ([], []) end.
Definition value (s : str) : Z := fold_left (fun a c => 10 * a + (Z.of_nat (nat_of_ascii c) - 48)) s 0.
Definition signed (s : str) : bool * str :=
  match s with "-"%char :: s' => (true, s') | "+"%char :: s' => (false, s') | _ => (false, s) end.
Definition exponent (s : str) : option Z :=
  match s with
  | [] => Some 0
  | "e"%char :: s' | "E"%char :: s' =>
      let '(neg, s1) := signed s' in
      match span s1 with (c :: ds, []) => Some (if neg : bool then - value (c :: ds) else value (c :: ds)) | _ => None end
  | _ => None
  end.
(** The double nearest to a number, of two the one with the even significand; no
    exponent is below -1074. *)
Definition to_double (y : Q) : Q :=
  if Qeq_bool y 0 then 0%Q
  else let e := Z.max (qexp (Qabs.Qabs y) - 52) (-1074) in (inject_Z (np_around (y / p2 e)) * p2 e)%Q.
Definition read_float (s : str) : num :=
  let '(neg, s1) := signed s in
  let '(a, s2) := span s1 in
  let '(b, s3) := match s2 with "."%char :: s' => span s' | _ => ([], s2) end in
  match a ++ b, exponent s3 with
  | c :: ds, Some e =>
      let v := (inject_Z (value (c :: ds)) * p10 (e - zlen b))%Q in Num (to_double (if neg : bool then - v else v)%Q)
  | _, _ => NaN
  end.

(** ** numpy.genfromtxt (files.py:104-105): comments '%' *)
(** The lines of a text file: \n, \r and \r\n end one.  (What follows the last
    end of a line counts as a line here; if it is empty, genfromtxt ignores it.) *)
Fixpoint text_lines (s : str) : list str :=
  match s with
  | [] => [[]]
  | c :: s' =>
      if Ascii.eqb c lf then [] :: text_lines s'
      else if Ascii.eqb c cr then
        match s' with c' :: s'' => if Ascii.eqb c' lf then [] :: text_lines s'' else [] :: text_lines s' | [] => [] :: text_lines s' end
      else match text_lines s' with l :: ls => (c :: l) :: ls | [] => [[c]] end
  end.
(** line.strip(" \r\n") *)
Definition blank (c : ascii) : bool := Ascii.eqb c " "%char || Ascii.eqb c cr || Ascii.eqb c lf.
Fixpoint trim_left (s : str) : str := match s with c :: s' => if blank c then trim_left s' else s | [] => [] end.
Definition trim (s : str) : str := rev (trim_left (rev (trim_left s))).
Fixpoint split_at (d : ascii) (s : str) : list str :=
  match s with
  | [] => [[]]
  | c :: s' => if Ascii.eqb c d then [] :: split_at d s' else match split_at d s' with l :: ls => (c :: l) :: ls | [] => [[c]] end
  end.
Definition fields (d : ascii) (line : str) : list str :=
  match trim (split_head percent line) with [] => [] | s => split_at d s end.

(** An array: the lengths of its dimensions, and its cells in row-major order. *)
Record arr := Arr { shape : list nat; cells : list num }.
Definition squeeze (dims : list nat) : list nat := filter (fun n => negb (Nat.eqb n 1)) dims.
Definition genfromtxt (d : ascii) (skip : nat) (text : str) : res arr :=
  let rows := filter (fun r => match r with [] => false | _ => true end) (map (fields d) (skipn skip (text_lines text))) in
  match rows with
  | [] => Ok (Arr [O] [])
  | r0 :: _ =>
      if forallb (fun r => Nat.eqb (length r) (length r0)) rows
      then Ok (Arr (squeeze [length rows; length r0]) (concat (map (map read_float) rows)))
      else Err ValueError
  end.

(** fl_load_file, files.py:91-105. *)
Definition load_file (disk : str -> option str) (d : ascii) (skip : nat) (filename : str) : res arr :=
  match disk filename with Some t => genfromtxt d skip t | None => Err OSError end.
