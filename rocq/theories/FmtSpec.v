(** * Words for formats of dates (C107). *)
From Verif Require Import Base PyStr DateSpec.
Open Scope Z_scope.

Inductive field := Year | Month | Day | Hour | Minute | Second | ShortYear | DayOfYear | MonthName | DayName | HalfDay | Hour12 | PercentSign.
(** A format: words without percent signs and null characters, and fields. *)
Inductive item := Word (s : str) | Field (f : field).
Definition letter (f : field) : ascii :=
  match f with
  | Year => "Y" | Month => "m" | Day => "d" | Hour => "H" | Minute => "M" | Second => "S" | ShortYear => "y" | DayOfYear => "j"
  | MonthName => "b" | DayName => "a" | HalfDay => "p" | Hour12 => "I" | PercentSign => "%"
  end%char.
Definition format (l : list item) : str := flat_map (fun i => match i with Word s => s | Field f => ["%"%char; letter f] end) l.
Definition word (s : str) : Prop := ~ In "%"%char s /\ ~ In "000"%char s.
Definition good (l : list item) : Prop := forall s, In (Word s) l -> word s.

(** What a field shows of the time [t] (whole seconds after midnight of the first of January 1970). *)
Definition shows (t : Z) (f : field) (s : str) : Prop :=
  exists y m d h mi sec, is_time t y m d h mi sec /\
  match f with
  | Year => in_digits 4 y s | Month => in_digits 2 m s | Day => in_digits 2 d s
  | Hour => in_digits 2 h s | Minute => in_digits 2 mi s | Second => in_digits 2 sec s
  | ShortYear => in_digits 2 (y mod 100) s
  | DayOfYear => exists n first, is_date n y m d /\ is_date first y 1 1 /\ in_digits 3 (n - first + 1) s
  | MonthName => nth_error [lit "Jan"; lit "Feb"; lit "Mar"; lit "Apr"; lit "May"; lit "Jun"; lit "Jul"; lit "Aug"; lit "Sep"; lit "Oct"; lit "Nov"; lit "Dec"] (Z.to_nat (m - 1)) = Some s
  | DayName => nth_error [lit "Thu"; lit "Fri"; lit "Sat"; lit "Sun"; lit "Mon"; lit "Tue"; lit "Wed"] (Z.to_nat (t / 86400 mod 7)) = Some s
  | HalfDay => (h < 12 /\ s = lit "AM") \/ (12 <= h /\ s = lit "PM")
  | Hour12 => exists k, in_digits 2 k s /\ 1 <= k <= 12 /\ (h = k \/ h = k + 12 \/ h = k - 12)
  | PercentSign => s = lit "%"
  end.
Definition shown (t : Z) (i : item) (s : str) : Prop := match i with Word w => s = w | Field f => shows t f s end.
