(** * Vocabulary for the naming properties. *)
From Verif Require Import Base TileModel PyStr NameModel.
Open Scope Z_scope.

(** ** Decimal notation *)

Definition is_digit (c : ascii) : bool :=
  (48 <=? Z.of_nat (nat_of_ascii c)) && (Z.of_nat (nat_of_ascii c) <=? 57).
Definition digit_val (c : ascii) : Z := Z.of_nat (nat_of_ascii c) - 48.

(** Value of a digit string, most significant digit first. *)
Definition int_val (s : str) : Z := fold_left (fun acc c => 10 * acc + digit_val c) s 0.

(** Value of the digits after the decimal point. *)
Fixpoint frac_val (s : str) : Q :=
  match s with
  | [] => 0
  | c :: s' => ((inject_Z (digit_val c) + frac_val s') / 10)%Q
  end.

(** [s] is fixed-point decimal notation for [d]: optional minus sign, integer
    digits without superfluous leading zero, point, at least one digit. *)
Definition fixed_notation (s : str) (d : Q) : Prop :=
  exists sgn D F,
    s = sgn ++ D ++ [dot] ++ F /\
    forallb is_digit D = true /\ forallb is_digit F = true /\
    D <> [] /\ F <> [] /\ (forall c D', D = c :: D' -> D' <> [] -> digit_val c <> 0) /\
    ((sgn = [] /\ (d == inject_Z (int_val D) + frac_val F)%Q) \/
     (sgn = lit "-" /\ (d == - (inject_Z (int_val D) + frac_val F))%Q)).

(** What is assumed of Python's str(float): numbers that are zero or between
    10^-4 and 10^16 in magnitude are printed in fixed notation, and the printed
    decimal is within relative distance 2^-53 (half a unit in the last place)
    of the number. *)
Definition prints_floats (show : Q -> str) : Prop :=
  forall q, ((q == 0)%Q \/ ((1 # 10000) <= Qabs q /\ Qabs q < 10000000000000000)%Q) ->
    exists d, fixed_notation (show q) d /\ (Qabs (d - q) <= u53 * Qabs q)%Q.

(** Coordinates for which names are well behaved: zero or at least 10^-4 in
    magnitude, and below [bound]. *)
Definition printable (bound q : Q) : Prop :=
  ((q == 0)%Q \/ ((1 # 10000) <= Qabs q)%Q) /\ (Qabs q < bound)%Q.

(** ** Paths *)

(** A directory string not ending in a double slash. *)
Definition ok_dir (p : str) : Prop := forall q, p <> q ++ lit "//".

(** A tile name: no slash, no underscore, does not start with a dot, not empty. *)
Definition good_tile (t : str) : Prop :=
  ~ In slash t /\ ~ In underscore t /\ exists c t', t = c :: t' /\ c <> dot.

(** ** Tiles *)

(** Every tile's start coordinates are printable with at most five
    (longitude) or four (latitude) integer digits. *)
Definition coords_printable (fl : Q -> Q) (tg : tilegrid) : Prop :=
  forall k x y, 0 <= k < num_tiles tg -> get_startcord fl tg k = Ok (x, y) ->
    printable 99999 x /\ printable 9999 y.

(** Different tiles have different names. *)
Definition names_distinct (fl : Q -> Q) (show : Q -> str) (tg : tilegrid) : Prop :=
  forall k k' n n', 0 <= k < num_tiles tg -> 0 <= k' < num_tiles tg ->
    get_tilename fl show tg k = Ok n -> get_tilename fl show tg k' = Ok n' -> n = n' -> k = k'.
