(** * fl_mod_date with any format (utilities/files.py:306-330). *)
From Coq Require Import Qround.
From Verif Require Import Base PyStr UtilModel LogModel DateModel.
Open Scope Z_scope.

(** The C library's strftime in the C locale.  [other] is what it writes for directives that are
    not listed; flags and widths between % and the letter are left out (they are "other" letters here). *)
Definition tm := (Z * (Z * Z * Z) * (Z * Z * Z))%type.
Definition three (n : Z) : str := digit_chr (n / 100) :: two (n mod 100).
(** tm_yday + 1. *)
Definition day_of_year (y m d : Z) : Z := d + fold_right Z.add 0 (map (fun k => month_length y (Z.of_nat k)) (seq 1 (Z.to_nat (m - 1)))).
Definition directive (other : ascii -> tm -> str) (c : ascii) (t : tm) : str :=
  let '(days, (y, m, d), (h, mi, s)) := t in
  if Ascii.eqb c "Y" then year y
  else if Ascii.eqb c "m" then two m
  else if Ascii.eqb c "d" then two d
  else if Ascii.eqb c "H" then two h
  else if Ascii.eqb c "M" then two mi
  else if Ascii.eqb c "S" then two s
  else if Ascii.eqb c "y" then two (y mod 100)
  else if Ascii.eqb c "j" then three (day_of_year y m d)
  else if Ascii.eqb c "b" then nth (Z.to_nat (m - 1)) month_names []
  else if Ascii.eqb c "a" then nth (Z.to_nat ((days + 4) mod 7)) day_names []
  else if Ascii.eqb c "p" then (if h <? 12 then lit "AM" else lit "PM")
  else if Ascii.eqb c "I" then two (if h mod 12 =? 0 then 12 else h mod 12)
  else if Ascii.eqb c "%" then lit "%"
  else other c t.
Fixpoint strftime (other : ascii -> tm -> str) (fmt : str) (t : tm) : str :=
  match fmt with
  | [] => []
  | c :: f =>
      if Ascii.eqb c "%" then match f with [] => lit "%" | x :: f' => directive other x t ++ strftime other f' t end
      else c :: strftime other f t
  end.
(** files.py:322-330; time.strftime refuses a null character in the format. *)
Definition mod_date_as (other : ascii -> tm -> str) (path : str -> option status) (fd : Z -> option status) (zone : Z -> Z) (a : fname) (fmt : str) : res str :=
  let* si := match os_stat path fd a with Err OSError => Err OSError | r => r end in
  if has_char "000"%char fmt then Err ValueError else Ok (strftime other fmt (localtime zone (st_mtime si))).
