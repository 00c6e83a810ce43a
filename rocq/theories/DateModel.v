(** * Dates and sizes of files (utilities/files.py). *)
From Coq Require Import Qround.
From Verif Require Import Base PyStr UtilModel LogModel.
Open Scope Z_scope.

(** ** The C library's calendar: dates follow one another *)
Definition is_leap (y : Z) : bool := (y mod 4 =? 0) && (negb (y mod 100 =? 0) || (y mod 400 =? 0)).
Definition month_length (y m : Z) : Z :=
  if m =? 2 then if is_leap y then 29 else 28 else if existsb (Z.eqb m) [4; 6; 9; 11] then 30 else 31.
Definition next_day (c : Z * Z * Z) : Z * Z * Z :=
  let '(y, m, d) := c in
  if d <? month_length y m then (y, m, d + 1) else if m <? 12 then (y, m + 1, 1) else (y + 1, 1, 1).
Definition previous_day (c : Z * Z * Z) : Z * Z * Z :=
  let '(y, m, d) := c in
  if 1 <? d then (y, m, d - 1) else if 1 <? m then (y, m - 1, month_length y (m - 1)) else (y - 1, 12, 31).
Definition date_of (days : Z) : Z * Z * Z :=
  if days <? 0 then Nat.iter (Z.to_nat (- days)) previous_day (1970, 1, 1) else Nat.iter (Z.to_nat days) next_day (1970, 1, 1).
(** time.localtime: whole seconds, rounded down; [zone] is the offset in force at a time. *)
Definition localtime (zone : Z -> Z) (t : Q) : Z * (Z * Z * Z) * (Z * Z * Z) :=
  let n := Qfloor t in
  let l := n + zone n in
  let r := l mod 86400 in
  (l / 86400, date_of (l / 86400), (r / 3600, r mod 3600 / 60, r mod 60)).

(** ** time.strftime and time.ctime; %Y has no leading zeros *)
Definition two (n : Z) : str := [digit_chr (n / 10); digit_chr (n mod 10)].
Definition year (y : Z) : str := if y <? 0 then lit "-" ++ UtilModel.dec (- y) else UtilModel.dec y.
(** '%Y-%m-%d %H:%M:%S', the default format of files.py:306. *)
Definition strftime_default (tm : Z * (Z * Z * Z) * (Z * Z * Z)) : str :=
  let '(_, (y, m, d), (h, mi, s)) := tm in
  year y ++ lit "-" ++ two m ++ lit "-" ++ two d ++ lit " " ++ two h ++ lit ":" ++ two mi ++ lit ":" ++ two s.
(** '%Y%m%d%H%M', files.py:242. *)
Definition strftime_log (tm : Z * (Z * Z * Z) * (Z * Z * Z)) : str :=
  let '(_, (y, m, d), (h, mi, _)) := tm in year y ++ two m ++ two d ++ two h ++ two mi.
Definition day_names : list str := [lit "Sun"; lit "Mon"; lit "Tue"; lit "Wed"; lit "Thu"; lit "Fri"; lit "Sat"].
Definition month_names : list str := [lit "Jan"; lit "Feb"; lit "Mar"; lit "Apr"; lit "May"; lit "Jun"; lit "Jul"; lit "Aug"; lit "Sep"; lit "Oct"; lit "Nov"; lit "Dec"].
Definition space2 (n : Z) : str := if n <? 10 then [" "%char; digit_chr n] else two n.
Definition ctime (zone : Z -> Z) (t : Q) : str :=
  let '(days, (y, m, d), (h, mi, s)) := localtime zone t in
  nth (Z.to_nat ((days + 4) mod 7)) day_names [] ++ lit " " ++ nth (Z.to_nat (m - 1)) month_names [] ++ lit " " ++ space2 d ++ lit " " ++
  two h ++ lit ":" ++ two mi ++ lit ":" ++ two s ++ lit " " ++ year y.

(** ** os.stat *)
Record status := Status { st_size : Z; st_mtime : Q }.
(** What can be passed as a file name: a path, a file descriptor, anything else. *)
Inductive fname := Path (s : str) | Descriptor (n : Z) | Object.
(** A path with a null character: ValueError; something that is no path: TypeError. *)
Definition os_stat (path : str -> option status) (fd : Z -> option status) (a : fname) : res status :=
  match a with
  | Path s => if has_char "000"%char s then Err ValueError else match path s with Some x => Ok x | None => Err OSError end
  | Descriptor n => match fd n with Some x => Ok x | None => Err OSError end
  | Object => Err TypeError
  end.

(** fl_mod_date, files.py:306-330, with its default format.  IOError is OSError in Python 3. *)
Definition mod_date (path : str -> option status) (fd : Z -> option status) (zone : Z -> Z) (a : fname) : res str :=
  let* si := match os_stat path fd a with Err OSError => Err OSError | r => r end in
  Ok (strftime_default (localtime zone (st_mtime si))).
(** fl_size, files.py:333-357.  The module's own WindowsError (lines 24-26) is a subclass of
    OSError that os.stat does not raise. *)
Definition file_size (path : str -> option status) (fd : Z -> option status) (a : fname) : res Z :=
  match os_stat path fd a with Err OSError => Err OSError | Err e => Err e | Ok si => Ok (st_size si) end.
(** The file name of a dated log, files.py:240-244, at the time [t]. *)
Definition dated_log (zone : Z -> Z) (log_file : str) (t : Q) : str := stamped log_file (strftime_log (localtime zone t)).
