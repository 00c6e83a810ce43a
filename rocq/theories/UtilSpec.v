(** * Specifications for configuration, elapsed time and checksum. *)
From Coq Require Import Ascii String.
From Verif Require Import Base PyStr UtilModel.
Open Scope Z_scope.

(** Option names are compared without regard to the case of the letters A-Z. *)
Definition upper_lower (c d : ascii) : Prop := (65 <= nat_of_ascii c <= 90)%nat /\ nat_of_ascii d = (nat_of_ascii c + 32)%nat.
Definition same_letter (c d : ascii) : Prop := c = d \/ upper_lower c d \/ upper_lower d c.
Definition same_option : str -> str -> Prop := Forall2 same_letter.

(** The value a single file gives to an option of a section. *)
Definition gives (f : cfgfile) (s o v : str) : Prop :=
  exists opts o', In (s, opts) f /\ In (o', v) opts /\ same_option o' o.
Definition mentions (f : cfgfile) (s : str) : Prop := exists opts, In (s, opts) f.

(** [v] is the value given by the last of the files that gives one. *)
Definition last_given (files : list cfgfile) (s o v : str) : Prop :=
  exists before f after, files = before ++ f :: after /\ gives f s o v /\
    forall g, In g after -> forall w, ~ gives g s o w.
Definition never_given (files : list cfgfile) (s o : str) : Prop := forall f, In f files -> forall w, ~ gives f s o w.

(** The files actually found in a sequence of loads; each load sees its own
    state of the disk. *)
Definition load := ((str -> option cfgfile) * str)%type.
Definition found (loads : list load) : list cfgfile :=
  flat_map (fun l => match fst l (snd l) with Some f => [f] | None => [] end) loads.

(** [p] is the parser after starting with the default file [def] and
    performing the given loads. *)
Definition history (d0 : str -> option cfgfile) (def : str) (loads : list load) (p : parser) : Prop :=
  exists p0, new_parser d0 def = Ok p0 /\ foldM (fun p l => set_config_file (fst l) (snd l) p) loads p0 = Ok p.

(** All options of a file with their sections, and its sections proper. *)
Definition options_of (f : cfgfile) : list (str * str) := flat_map (fun e => map (fun p => (fst e, fst p)) (snd e)) f.
(** No option of a section is given twice. *)
Definition options_once (f : cfgfile) : Prop :=
  ForallOrdPairs (fun p q => ~ (fst p = fst q /\ same_option (snd p) (snd q))) (options_of f).
Definition sections_of (f : cfgfile) : list str := filter (fun s => negb (str_eqb s (lit "DEFAULT"))) (map fst f).

(** A hash object in the sense of hashlib: updating with two strings in turn
    is updating with their concatenation. *)
Definition streaming {H} (update : H -> str -> H) : Prop := forall m a b, update (update m a) b = update m (a ++ b).
