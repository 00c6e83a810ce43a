(** * Vocabulary for the file properties of the tile pipeline. *)
From Verif Require Import Base TileModel PyStr NameModel NameSpec SchedModel SchedSpec PipeModel.
Open Scope Z_scope.

Definition all_dirs : list dir := [N_; S_; E_; W_; NE; NW; SE; SW].
Definition all_types : list mtype := [Shielding; Terrain; Topographic].

(** The temporary files of a tile called [n] below folder [out]. *)
Definition temp_files (out n : str) : list str :=
  [pjoin out (n ++ lit "_dem.img"); pjoin out (n ++ lit ".img");
   pjoin (pjoin out (lit "shielding")) (n ++ lit "_ms.img")].

(** Its output files. *)
Definition output_files (out n : str) : list str :=
  flat_map (fun ty => map (convert_nc out n ty) all_dirs) all_types.

Definition tile_cells (out n : str) : list cell :=
  Local n :: map File (temp_files out n ++ output_files out n).

Definition in_cells (l : list cell) (c : cell) : bool := existsb (cell_eqb c) l.

Section PipeSpec.
  Context {T V : Type} (name : T -> str) (out lcv : str) (sg : stages T V).
  Definition pwrites (t : T) (c : cell) : bool := in_cells (tile_cells out (name t)) c.
  Definition preads (t : T) (c : cell) : bool := pwrites t c || cell_eqb c (File lcv).

  (** Well formed run: usable folder, well formed and pairwise different tile
      names, land-cover input not one of the files the run itself writes. *)
  Definition run_ok (tiles : list T) : Prop :=
    ok_dir out /\ (forall t, In t tiles -> good_tile (name t)) /\
    NoDup (map name tiles) /\
    (forall t, In t tiles -> pwrites t (File lcv) = false).

  (** What the files of tile [t] should be after a successful run started with
      land-cover content [l] and files [s0]. *)
  Definition tile_result (s0 : @store cell V) (l : V) (t : T) (c : cell) : option V :=
    let dem := clip sg t in
    let cov := resample sg l dem in
    if has_data sg dem then
      match find (fun d => cell_eqb c (File (convert_nc out (name t) Terrain d))) all_dirs with
      | Some d => if no_terrain sg cov then s0 c else Some (mz sg t cov d)
      | None =>
      match find (fun d => cell_eqb c (File (convert_nc out (name t) Shielding d))) all_dirs with
      | Some d => Some (ms sg t (ms_init sg cov) dem d)
      | None =>
      match find (fun d => cell_eqb c (File (convert_nc out (name t) Topographic d))) all_dirs with
      | Some d => Some (mt sg t dem d)
      | None => if pwrites t c then None else s0 c
      end end end
    else if cell_eqb c (File (dem_tmp out (name t))) || cell_eqb c (Local (name t)) then None else s0 c.
End PipeSpec.
