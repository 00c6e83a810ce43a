(** * Vocabulary for the terrain table: how a table is written down. *)
From Verif Require Import Base PyStr.
Open Scope Z_scope.

(** The characters that matter in the file. *)
Definition nl : ascii := "010"%char.
Definition ret : ascii := "013"%char.
Definition sep : ascii := ","%char.
Definition dq : ascii := """"%char.
Definition sharp : ascii := "#"%char.
Definition blank (c : ascii) : Prop := c = " "%char \/ c = "009"%char.

(** A field as the author of the file writes it: bare, or between double
    quotes with every double quote inside it doubled. *)
Inductive cell := Plain (s : str) | Quoted (s : str).
Definition contents (c : cell) : str := match c with Plain s => s | Quoted s => s end.
Definition doubled (s : str) : str := flat_map (fun c => if Ascii.eqb c dq then [dq; dq] else [c]) s.
Definition written (c : cell) : str := match c with Plain s => s | Quoted s => dq :: doubled s ++ [dq] end.
Definition cell_ok (c : cell) : Prop :=
  match c with
  | Plain s => ~ In sep s /\ ~ In sharp s /\ ~ In nl s /\ ~ In ret s /\ (forall s', s <> dq :: s')
  | Quoted _ => True
  end.

(** A line: a row of fields, possibly followed by a remark; a blank line; a
    line holding only a remark. *)
Inductive line := Row (c : cell) (cs : list cell) (remark : option str) | Blank (s : str) | Comment (s : str).
Definition write_cells (c : cell) (cs : list cell) : str := written c ++ flat_map (fun x => sep :: written x) cs.
Definition write_line (l : line) : str :=
  match l with
  | Row c cs None => write_cells c cs
  | Row c cs (Some n) => write_cells c cs ++ sharp :: n
  | Blank s => s
  | Comment s => sharp :: s
  end.
(** A row is not blank; a remark follows a bare field. *)
Definition line_ok (l : line) : Prop :=
  match l with
  | Row c cs rem =>
      Forall cell_ok (c :: cs) /\
      (cs = [] -> match c with Plain s => exists x, In x s /\ ~ blank x | Quoted _ => True end) /\
      match rem with
      | None => True
      | Some n => ~ In nl n /\ ~ In ret n /\ match last (c :: cs) c with Plain _ => True | Quoted _ => False end
      end
  | Blank s => forall x, In x s -> blank x
  | Comment s => ~ In nl s /\ ~ In ret s
  end.
Definition line_row (l : line) : list (list str) := match l with Row c cs _ => [map contents (c :: cs)] | _ => [] end.

(** A file: its lines, each ended by a newline or by a carriage return and a
    newline, and possibly a last line without an end. *)
Inductive line_end := Newline | ReturnNewline.
Definition write_end (e : line_end) : str := match e with Newline => [nl] | ReturnNewline => [ret; nl] end.
Definition write_file (doc : list (line * line_end)) (unended : option line) : str :=
  flat_map (fun l => write_line (fst l) ++ write_end (snd l)) doc ++ match unended with Some l => write_line l | None => [] end.
Definition all_lines (doc : list (line * line_end)) (unended : option line) : list line :=
  map fst doc ++ match unended with Some l => [l] | None => [] end.
Definition file_rows (doc : list (line * line_end)) (unended : option line) : list (list str) := flat_map line_row (all_lines doc unended).

(** The file holds a table with header [h] and data rows [ds]. *)
Definition holds (text : str) (h : list str) (ds : list (list str)) : Prop :=
  exists doc unended, text = write_file doc unended /\ (forall l, In l (all_lines doc unended) -> line_ok l) /\
    file_rows doc unended = h :: ds.

(** No data row has more fields than the header and the first data row. *)
Definition within (h : list str) (ds : list (list str)) : Prop :=
  match ds with [] => True | d0 :: _ => forall d, In d ds -> (length d <= length h \/ length d <= length d0)%nat end.

(** Column [i] is the first one named [name]. *)
Definition headed (h : list str) (name : string) (i : nat) : Prop :=
  nth_error h i = Some (lit name) /\ forall j, (j < i)%nat -> nth_error h j <> Some (lit name).
Definition field (i : nat) (d : list str) : str := nth i d [].

(** Every data row has a number (or an empty field) in column [i]. *)
Definition numeric (num_of : str -> option num) (i : nat) (ds : list (list str)) : Prop :=
  forall d, In d ds -> exists x, num_of (field i d) = Some x.

(** Row [d] is about land-cover class [z]; [d] is the last such row. *)
Definition about (num_of : str -> option num) (i : nat) (z : Z) (d : list str) : Prop :=
  exists q, num_of (field i d) = Some (Num q) /\ (q == inject_Z z)%Q.
Definition last_about (num_of : str -> option num) (i : nat) (z : Z) (ds : list (list str)) (d : list str) : Prop :=
  exists l1 l2, ds = l1 ++ d :: l2 /\ about num_of i z d /\ forall d', In d' l2 -> ~ about num_of i z d'.

(** The table the project's documentation gives as its example
    (docs/run_instructions.rst:98-111; the remarks after it left out). *)
Definition eol : str := [nl].
Definition documented : str :=
  lit "CATEGORY,DESCRIPTION,ROUGHNESS_LENGTH_m,SHIELDING" ++ eol ++
  lit "1,'City buildings',2,0.85" ++ eol ++
  lit "2,'Forest',1,1" ++ eol ++
  lit "3,'High density (industrial) buildings',0.8,0.88" ++ eol ++
  lit "4,'Small town centres',0.4,0.9" ++ eol ++
  lit "5,'Suburban/wooded country',0.2,1" ++ eol ++
  lit "6,'Orchard, open forest',0.08,1" ++ eol ++
  lit "7,'Long grass with few trees',0.06,1" ++ eol ++
  lit "8,'Crops',0.04,1" ++ eol ++
  lit "9,'Open rough water, airfields, uncut grass etc.',0.02,1" ++ eol ++
  lit "10,'Cut grass',0.008,1" ++ eol ++
  lit "11,'Desert (stones),roads',0.006,1" ++ eol ++
  lit "12,'Mudflats/salt evaporators/sandy beaches',0.004,1" ++ eol ++
  lit "13,'Snow surface',0.002,1" ++ eol.
