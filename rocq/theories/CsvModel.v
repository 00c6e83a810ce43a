(** * The terrain table: reading the CSV file and what each tile makes of it. *)
From Verif Require Import Base PyStr TerrModel ShldModel.
Open Scope Z_scope.

Definition newline : ascii := "010"%char.
Definition carriage : ascii := "013"%char.
Definition comma : ascii := ","%char.
Definition quote : ascii := """"%char.
Definition hash : ascii := "#"%char.
Definition is_blank (c : ascii) : bool := Ascii.eqb c " "%char || Ascii.eqb c "009"%char.

(** ** pandas.read_csv(terrain_table, comment='#', index_col=False),
    terrain_mult.py:169 and shield_mult.py:162.

    The library's default (C) tokenizer as a state machine over the characters
    of the file.  Simplifications: the file is decoded already; a carriage return
    that is not followed by a newline ends a line (the library does the same
    except before an indented line). *)
Inductive tstate :=
| StartRecord | StartField | InField | InQuoted | QuoteInQuoted | EatComment | EatLineComment | WhitespaceLine | EatCRNL | EatCRNLNop.

Definition emit (r : list str) (k : res (list (list str))) : res (list (list str)) := let* rs := k in Ok (r :: rs).

(** [fld]: the characters of the current field, last first; [row]: the fields
    of the current line that are complete, last first.  The result is the list
    of lines that are neither blank nor comments, each the list of its fields. *)
Fixpoint tok (st : tstate) (fld : str) (row : list str) (s : str) : res (list (list str)) :=
  match s with
  | [] =>
      match st with
      | StartRecord | EatLineComment | WhitespaceLine | EatCRNLNop => Ok []
      | InQuoted => Err ValueError  (* ParserError: EOF inside string *)
      | EatComment | EatCRNL => Ok [rev row]
      | StartField | InField | QuoteInQuoted => Ok [rev (rev fld :: row)]
      end
  | c :: t =>
      let in_field (f : str) (r : list str) :=
        if Ascii.eqb c newline then emit (rev (rev f :: r)) (tok StartRecord [] [] t)
        else if Ascii.eqb c carriage then tok EatCRNL [] (rev f :: r) t
        else if Ascii.eqb c comma then tok StartField [] (rev f :: r) t
        else if Ascii.eqb c hash then tok EatComment [] (rev f :: r) t
        else tok InField (c :: f) r t in
      let start_field (r : list str) :=
        if Ascii.eqb c quote then tok InQuoted [] r t else in_field [] r in
      let start_record :=
        if Ascii.eqb c newline then tok StartRecord [] [] t
        else if Ascii.eqb c carriage then tok EatCRNLNop [] [] t
        else if Ascii.eqb c hash then tok EatLineComment [] [] t
        else if is_blank c then tok WhitespaceLine [c] [] t
        else start_field [] in
      match st with
      | StartRecord => start_record
      | EatCRNL => emit (rev row) (if Ascii.eqb c newline then tok StartRecord [] [] t else start_record)
      | EatCRNLNop => if Ascii.eqb c newline then tok StartRecord [] [] t else start_record
      | WhitespaceLine =>
          if Ascii.eqb c newline then tok StartRecord [] [] t
          else if Ascii.eqb c carriage then tok EatCRNLNop [] [] t
          else if is_blank c then tok WhitespaceLine (c :: fld) [] t
          else in_field fld []
      | StartField => start_field row
      | InField => in_field fld row
      | InQuoted => if Ascii.eqb c quote then tok QuoteInQuoted fld row t else tok InQuoted (c :: fld) row t
      | QuoteInQuoted =>
          if Ascii.eqb c newline then emit (rev (rev fld :: row)) (tok StartRecord [] [] t)
          else if Ascii.eqb c carriage then tok EatCRNL [] (rev fld :: row) t
          else if Ascii.eqb c quote then tok InQuoted (c :: fld) row t
          else if Ascii.eqb c comma then tok StartField [] (rev fld :: row) t
          else tok InField (c :: fld) row t
      | EatComment =>
          if Ascii.eqb c newline then emit (rev row) (tok StartRecord [] [] t)
          else if Ascii.eqb c carriage then tok EatCRNL [] row t
          else tok EatComment [] row t
      | EatLineComment =>
          if Ascii.eqb c newline then tok StartRecord [] [] t
          else if Ascii.eqb c carriage then tok EatCRNLNop [] [] t
          else tok EatLineComment [] [] t
      end
  end.
Definition tokenize (text : str) : res (list (list str)) := tok StartRecord [] [] text.

(** The first line names the columns.  A later line may not have more fields
    than the header and the first data line (ParserError otherwise); missing
    fields are empty; with index_col=False fields beyond the header are
    dropped.  EmptyDataError and ParserError are both ValueErrors. *)
Definition fit (n : nat) (r : list str) : list str := firstn n (r ++ repeat [] n).
Definition read_csv (text : str) : res (list str * list (list str)) :=
  let* lines := tokenize text in
  match lines with
  | [] => Err ValueError
  | h :: ds =>
      let width := match ds with [] => length h | d :: _ => Nat.max (length h) (length d) end in
      if existsb (fun r => (width <? length r)%nat) ds then Err ValueError
      else Ok (h, map (fit (length h)) ds)
  end.

(** [row[name]] for the rows of the table: the first column of that name
    (pandas renames later ones). *)
Definition str_eqb (a b : str) : bool := if list_eq_dec ascii_dec a b then true else false.
Fixpoint col_index (name : str) (h : list str) : option nat :=
  match h with
  | [] => None
  | x :: xs => if str_eqb x name then Some O else option_map S (col_index name xs)
  end.
Definition column (name : str) (h : list str) (ds : list (list str)) : res (list str) :=
  match col_index name h with None => Err KeyError | Some i => Ok (map (fun r => nth i r []) ds) end.

(** Type inference of a column: numbers when every field reads as one
    ([num_of]: the library's number syntax; empty and NA fields give NaN),
    otherwise strings. *)
Fixpoint num_col (num_of : str -> option num) (vals : list str) : option (list num) :=
  match vals with
  | [] => Some []
  | v :: vs => match num_of v, num_col num_of vs with Some x, Some xs => Some (x :: xs) | _, _ => None end
  end.

(** The pixels [data == category] selects: those of class [z] when the
    category is the whole number [z]; none for NaN, fractions and strings. *)
Definition cat_key (x : num) : option Z :=
  match x with Num q => if Qeq_bool q (inject_Z (Qfloor q)) then Some (Qfloor q) else None | NaN => None end.
Fixpoint keyed (cats vals : list num) : list (Z * num) :=
  match cats, vals with
  | c :: cs, v :: vs => match cat_key c with Some z => (z, v) :: keyed cs vs | None => keyed cs vs end
  | _, _ => []
  end.

(** The two columns a consumer of the table looks up in each of its rows; with
    no rows nothing is looked up.  Arithmetic on a column of strings is a
    TypeError; comparing the raster with a string selects nothing. *)
Definition table_of (num_of : str -> option num) (value : str) (f : num -> num) (text : str) : res (list (Z * num)) :=
  let* hd := read_csv text in
  match snd hd with
  | [] => Ok []
  | _ =>
      let* cats := column (lit "CATEGORY") (fst hd) (snd hd) in
      let* vals := column value (fst hd) (snd hd) in
      match num_col num_of vals with
      | None => Err TypeError
      | Some vs => match num_col num_of cats with None => Ok [] | Some cs => Ok (keyed cs (map f vs)) end
      end
  end.

(** get_terrain_table, terrain_mult.py:159-176 ([None]: the file cannot be
    opened), with the loop of terrain_class2mz_orig, 190-194; [mz] is the
    formula at 193 (C27). *)
Definition terrain_table (num_of : str -> option num) (mz : num -> num) (file : option str) : res (list (Z * num)) :=
  match file with
  | None => Err SystemExit
  | Some text => table_of num_of (lit "ROUGHNESS_LENGTH_m") mz text
  end.

(** get_shielding_table, shield_mult.py:153-164, with the loop at 208-215. *)
Definition percent (x : num) : num := match x with Num q => Num (q / 100)%Q | NaN => NaN end.
Definition shielding_table (num_of : str -> option num) (file : option str) : res (list (Z * num)) :=
  match file with
  | None => Err OSError
  | Some text => table_of num_of (lit "SHIELDING") percent text
  end.

(** terrain_class2mz_orig, terrain_mult.py:178-196. *)
Definition terrain_initial (num_of : str -> option num) (mz : num -> num) (file : option str) (data : grid Z) : res (grid num) :=
  let* t := terrain_table num_of mz file in Ok (class2mz t data).

(** terrain, terrain_mult.py:82-129. *)
Definition terrain_step (num_of : str -> option num) (mz : num -> num) (fl : Q -> Q) (file : option str) (data : grid Z) (gw : Q) :=
  let* t := terrain_table num_of mz file in TerrModel.terrain fl t data gw.

(** terrain_class2ms_orig, shield_mult.py:200-218 (see [ShldModel.class2ms]). *)
Definition shield_initial (num_of : str -> option num) (cast : Z -> Z) (nodata : option Z) (file : option str) (data : grid Z) : res (grid num) :=
  let* t := shielding_table num_of file in
  let data' := gmap (fun x => match nodata with Some n => if x =? n then cast (-99) else x | None => x end) data in
  Ok (gmap (fun x => if x =? -99 then NaN
                     else fold_left (fun acc row => if x =? fst row then snd row else acc) t (Num 1)) data').

(** The tiles of a serial run as far as the table goes: terrain, then
    shielding (all_multipliers.py:391-399, 459-465); [gw] is each tile's pixel
    size.  The tiles that got past both steps, and the exception that ended the
    loop, if any. *)
Fixpoint run_tables (num_of : str -> option num) (mz : num -> num) (fl : Q -> Q) (cast : Z -> Z) (nodata : option Z) (gw : Q)
    (file : option str) (tiles : list (grid Z)) : list (grid Z) * option exn :=
  match tiles with
  | [] => ([], None)
  | t :: ts =>
      match terrain_step num_of mz fl file t gw with
      | Err e => ([], Some e)
      | Ok _ =>
          match shield_initial num_of cast nodata file t with
          | Err e => ([], Some e)
          | Ok _ => let '(done, e) := run_tables num_of mz fl cast nodata gw file ts in (t :: done, e)
          end
      end
  end.

(** The status the interpreter exits with: sys.exit() without an argument
    (terrain_mult.py:172) is success, any other uncaught exception is not. *)
Definition exit_status (e : option exn) : Z := match e with None => 0 | Some SystemExit => 0 | Some _ => 1 end.
