(** * File helpers (utilities/files.py:29-87, 109-180, 183-213, 289-303). *)
From Verif Require Import Base PyStr.
Open Scope Z_scope.

(** A frame of the call stack: the file of the code, the name of the function
    ("<module>" for the body of a module), the global [__version__]. *)
Record frame := Frame { fr_file : str; fr_func : str; fr_version : option str }.

(** sys._getframe(level) on a stack, the running function first.  A negative
    level counts as 0 (CPython). *)
Definition getframe (stack : list frame) (level : Z) : res frame :=
  match nth_error stack (Z.to_nat level) with Some f => Ok f | None => Err ValueError end.

Section Helpers.
  (** [rp] is os.path.realpath, [this] the frame of a function of files.py
      apart from its name. *)
  Variables (rp : str -> str) (this : str) (this_version : str).
  Definition own (f : str) : frame := Frame this f (Some this_version).

  (** files.py:29-47; [callers] are the frames of the calling functions, the
      nearest first.  The replacement of line 46 changes nothing on POSIX. *)
  Definition module_path (callers : list frame) (level : Z) : res (str * str * str) :=
    let* f := getframe (own (lit "fl_module_path") :: callers) level in
    let filename := rp (fr_file f) in
    let path := dirname filename in
    let fname := basename filename in
    let base := splitext_root fname in
    Ok (path, base, skipn (List.length base) fname).

  (** files.py:50-65. *)
  Definition module_name (callers : list frame) (level : Z) : res str :=
    let* f := getframe (own (lit "fl_module_name") :: callers) level in Ok (fr_func f).

  (** files.py:68-87.  [not level] holds for None and 0; inspect.stack() lists
      all frames, this one included. *)
  Definition program_version (callers : list frame) (level : option Z) : res str :=
    let stack := own (lit "fl_program_version") :: callers in
    let lv := match level with None => zlen stack - 1 | Some l => if l =? 0 then zlen stack - 1 else l end in
    let* f := getframe stack lv in
    Ok (match fr_version f with Some v => v | None => [] end).

  (** files.py:183-213, for a prefix that does not begin with a slash. *)
  Definition config_file (callers : list frame) (extension prefix : str) (level : option Z) : res str :=
    let stack := own (lit "fl_config_file") :: callers in
    let lv := match level with None => zlen stack | Some l => if l =? 0 then zlen stack else l end in
    let* p := module_path stack lv in
    let '(path, base, _) := p in
    Ok (pjoin path (prefix ++ base ++ extension)).
End Helpers.

(** files.py:109-132.  [isdir] and [makedirs] are the system's; [savetxt h]
    writes the data, with the header if [h]. *)
Definition save_file {W} (isdir : W -> str -> bool) (makedirs : W -> str -> res W) (savetxt : bool -> W -> res W) (filename : str) (w : W) : res W :=
  let directory := dirname filename in
  let* w := if negb (isdir w directory) then makedirs w directory else Ok w in
  match savetxt true w with Err TypeError => savetxt false w | r => r end.

(** files.py:135-180.  What may be passed for a file name: text, a whole number
    (open() takes it for a descriptor), anything open() refuses (bytes and path
    objects, which it takes as text, are not modelled apart). *)
Inductive fname := Text (s : str) | Number (n : Z) | Object.
(** Files that can be read, with their content and modification time, and open
    descriptors. *)
Record files := Files { fs_read : str -> option (str * str); fs_open : Z -> bool }.
Definition close (n : Z) (f : files) : files := Files (fs_read f) (fun m => if m =? n then false else fs_open f m).
(** [digest chunk content] is the sum of lines 170-178, see C55. *)
Definition get_stat (digest : Z -> str -> str) (f : files) (a : fname) (chunk : Z) : files * res (str * str * str * str) :=
  match a with
  | Text s =>
      match fs_read f s with
      | None => (f, Err OSError)
      | Some (content, moddate) => (f, Ok (dirname s, basename s, digest chunk content, moddate))
      end
  | Number n => if fs_open f n then (close n f, Err TypeError) else (f, Err OSError)
  | Object => (f, Err OSError)
  end.

(** files.py:289-303: the messages logged and the status of the process;
    sys.exit() without an argument is status 0. *)
Fixpoint lstrip (s : str) : str :=
  match s with x :: r => if existsb (Ascii.eqb x) (lit " " ++ [ascii_of_nat 9; ascii_of_nat 10; ascii_of_nat 11; ascii_of_nat 12; ascii_of_nat 13]) then lstrip r else s | [] => [] end.
Definition log_fatal_error (tblines : list str) : list str * Z := (map lstrip tblines, 0).
