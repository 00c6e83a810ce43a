(** * Vocabulary for the whole run: tile phase followed by conversion. *)
From Verif Require Import Base TileModel PyStr NameModel NameSpec SchedModel SchedSpec PipeModel PipeSpec ConvModel ConvSpec ConvRunSpec.
Open Scope Z_scope.

(** The first band of a raster is [ny] rows by [nx] columns with values [v]. *)
Definition shows {G} (ds : raster G) (nx ny : Z) (v : Z -> Z -> num) : Prop :=
  exists b rest, r_bands ds = b :: rest /\ g_cols (b_data b) = nx /\ g_rows (b_data b) = ny /\
    forall r c, 0 <= r < ny -> 0 <= c < nx -> g_at (b_data b) r c = v r c.

(** The files seen by the converter. *)
Definition files {V} (f : @store cell V) : str -> option V := fun p => f (File p).

(** [listing] is os.listdir of [d]. *)
Definition lists {V} (f : @store cell V) (d : str) (listing : list str) : Prop :=
  forall x, In x listing <-> ~ In slash x /\ exists v, f (File (pjoin d x)) = Some v.

(** Nothing is in folder [d]. *)
Definition empty_dir {V} (f : @store cell V) (d : str) : Prop :=
  forall x, ~ In slash x -> f (File (pjoin d x)) = None.
