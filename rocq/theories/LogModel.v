(** * Where log messages go (utilities/files.py:216-286 and all_multipliers.py:723-752). *)
From Coq Require Import Ascii String Decimal DecimalString.
From Verif Require Import Base PyStr.
Open Scope Z_scope.

(** ** fl_start_log *)

(** Python [s.lstrip('.')]. *)
Fixpoint lstrip_dots (s : str) : str :=
  match s with x :: xs => if Ascii.eqb x dot then lstrip_dots xs else s | [] => [] end.

(** files.py:240-244; [stamp] is the formatted time.  [os.path.splitext(p)[1]]
    is what follows the root. *)
Definition stamped (log_file stamp : str) : str :=
  let b := splitext_root log_file in
  let e := skipn (List.length b) log_file in
  b ++ lit "." ++ stamp ++ lit "." ++ lstrip_dots e.

(** A handler of the root logger: a file opened for writing from its start or
    for appending, or the console. *)
Inductive handler := FileHandler (path : str) (truncate : bool) | StreamHandler.
(** Which paths are directories, and the handlers of the root logger. *)
Record logw := LogW { l_isdir : str -> bool; l_handlers : list handler }.

Fixpoint str_eqb (a b : str) : bool :=
  match a, b with [], [] => true | x :: a, y :: b => Ascii.eqb x y && str_eqb a b | _, _ => false end.

(** Lines 216-286.  [rp] is os.path.realpath, [can_make] says for which
    directories os.makedirs succeeds (the parents it makes are not tracked),
    [cwd] is the working directory, [tty] is sys.stdout.isatty().  The level is a
    known level.  logging.basicConfig (261-265) does nothing when the root logger
    has a handler, and otherwise opens the file. *)
Definition start_log (rp : str -> str) (can_make : str -> bool) (cwd stamp : str) (tty : bool)
    (log_file : str) (verbose datestamp newlog : bool) (w : logw) : logw * option exn :=
  let log_file := if datestamp then stamped log_file stamp else log_file in
  let log_dir := dirname (rp log_file) in
  let '(isdir, log_file) :=
    if l_isdir w log_dir then (l_isdir w, log_file)
    else if can_make log_dir then ((fun d => str_eqb d log_dir || l_isdir w d), log_file)
    else (l_isdir w, pjoin cwd (basename log_file)) in
  let configured :=
    match l_handlers w with
    | [] => if isdir (dirname (rp log_file)) then Some [FileHandler log_file newlog] else None
    | hs => Some hs
    end in
  match configured with
  | None => (LogW isdir (l_handlers w), Some OSError)
  | Some hs =>
      let hs := if zlen hs <? 2 then if verbose && tty then hs ++ [StreamHandler] else hs else hs in
      (LogW isdir hs, None)
  end.

(** A sequence of calls (file, verbose, datestamp, newlog); an exception ends it. *)
Fixpoint start_logs (rp : str -> str) (can_make : str -> bool) (cwd stamp : str) (tty : bool)
    (calls : list (str * bool * bool * bool)) (w : logw) : logw * option exn :=
  match calls with
  | [] => (w, None)
  | (f, v, d, n) :: calls =>
      match start_log rp can_make cwd stamp tty f v d n w with
      | (w, None) => start_logs rp can_make cwd stamp tty calls w
      | r => r
      end
  end.

(** ** The log files of a parallel run *)

(** str(n) for n >= 0. *)
Definition dec (n : nat) : str := lit (NilEmpty.string_of_uint (Nat.to_uint n)).

(** all_multipliers.py:746-750: file name and verbosity of one process. *)
Definition log_args (size rank : nat) (logfile : str) (verbose : bool) : str * bool :=
  if (1 <? size)%nat && (0 <? rank)%nat then (logfile ++ lit "_" ++ dec rank, false) else (logfile, verbose).

(** Progress of one process through lines 727-731. *)
Inductive lpc := LCheck | LCreate | LDone (fallback : bool).
Record lstate := LState { ls_exists : bool; ls_pc : nat -> lpc }.
Definition lset (s : lstate) (e : bool) (i : nat) (c : lpc) : lstate := LState e (fun j => if Nat.eqb j i then c else ls_pc s j).
(** One step of process [i] of [n]: line 727 asks for the directory; line 729
    creates it, and fails if that is not possible ([can = false]) or somebody has
    done so since. *)
Inductive lstep (n : nat) (can : bool) : lstate -> lstate -> Prop :=
| ls_check s i : (i < n)%nat -> ls_pc s i = LCheck ->
    lstep n can s (lset s (ls_exists s) i (if ls_exists s then LDone false else LCreate))
| ls_create s i : (i < n)%nat -> ls_pc s i = LCreate ->
    lstep n can s (if ls_exists s || negb can then lset s (ls_exists s) i (LDone true) else lset s true i (LDone false)).
Inductive lreach (n : nat) (can e0 : bool) : lstate -> Prop :=
| lr_init : lreach n can e0 (LState e0 (fun _ => LCheck))
| lr_step s s' : lreach n can e0 s -> lstep n can s s' -> lreach n can e0 s'.

(** Directory and name of the log of process [i]: lines 723-731 and 746-750. *)
Definition log_of (n : nat) (cwd logdir name : str) (i : nat) (fallback : bool) : str * str :=
  if fallback then (cwd, fst (log_args n i (lit "multipliers.log") false)) else (logdir, fst (log_args n i name false)).
