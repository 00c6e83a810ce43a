(** * Vocabulary for the preparation program (C97). *)
From Verif Require Import Base PyStr UtilModel UtilSpec PreModel RastModel ReprModel.
Open Scope Z_scope.

(** An option of a section is set to a value: by the last file that gives it one
    in the section, or, if none does but some file has the section, by the last
    that does in the DEFAULT section. *)
Definition set_to (files : list cfgfile) (s o v : str) : Prop :=
  last_given files s o v \/
  ((exists g, In g files /\ mentions g s) /\ never_given files s o /\ last_given files (lit "DEFAULT") o v).

(** The files and fields a run works on. *)
Record names := Names { settlements : str; settlement_field : str; uses : str; use_field : str; mask : str; shapes : str; map_file : str; elevation : str }.
Definition told (files : list cfgfile) (n : names) : Prop :=
  set_to files (lit "Preprocessing") (lit "settlement_data") (settlements n) /\
  set_to files (lit "Preprocessing") (lit "settlement_cat") (settlement_field n) /\
  set_to files (lit "Preprocessing") (lit "land_use_data") (uses n) /\
  set_to files (lit "Preprocessing") (lit "land_use_cat") (use_field n) /\
  set_to files (lit "Preprocessing") (lit "crop_mask") (mask n) /\
  set_to files (lit "Preprocessing") (lit "output_shapefile") (shapes n) /\
  set_to files (lit "Preprocessing") (lit "output_rasterized") (map_file n) /\
  exists t, set_to files (lit "Preprocessing") (lit "input_topo") t /\
    (t = lit "True" /\ set_to files (lit "inputValues") (lit "dem_data") (elevation n) \/ t <> lit "True" /\ elevation n = t).

(** The files there are: vector files and rasters. *)
Record files G := Files { f_vec : str -> option (layer G); f_ras : str -> option image }.
Arguments Files {G}. Arguments f_vec {G}. Arguments f_ras {G}.
(** The same but for the file of one name, which holds [x] now. *)
Definition with_file {A} (old : str -> option A) (name : str) (x : A) (new : str -> option A) : Prop :=
  new name = Some x /\ forall p, p <> name -> new p = old p.

(** The geometry of the mask to cut to, if any: the first one in its file. *)
Definition mask_of {G} (f : files G) (name : str) (d : option G) : Prop :=
  name = lit "None" /\ d = None \/
  name <> lit "None" /\ exists m a g rest, f_vec f name = Some m /\ read (l_features m) = (a, g) :: rest /\ d = Some g.
