From Verif Require Import Base BaseLemmas TileModel PyStr NameModel NameSpec NameProofs SchedModel SchedSpec PipeModel PipeSpec PipeProofs PipeRunProofs
  DistModel ConvModel ConvSpec ConvProofs ConvRunSpec ConvRunProofs WholeSpec.
Open Scope Z_scope.

Definition dir_eqb (a b : dir) : bool :=
  match a, b with N_, N_ | S_, S_ | E_, E_ | W_, W_ | NE, NE | NW, NW | SE, SE | SW, SW => true | _, _ => false end.
Lemma dir_eqb_spec a b : dir_eqb a b = true <-> a = b.
Proof. destruct a, b; cbn; split; intros; try reflexivity; discriminate. Qed.

Lemma find_nc out n ty ty' d : good_tile n ->
  find (fun d' => cell_eqb (File (convert_nc out n ty d)) (File (convert_nc out n ty' d'))) all_dirs =
  if (match ty, ty' with Shielding, Shielding | Terrain, Terrain | Topographic, Topographic => true | _, _ => false end) then Some d else None.
Proof.
  intros G.
  assert (E : forall d', cell_eqb (File (convert_nc out n ty d)) (File (convert_nc out n ty' d')) =
    (match ty, ty' with Shielding, Shielding | Terrain, Terrain | Topographic, Topographic => true | _, _ => false end) && dir_eqb d d').
  { intros d'. destruct (cell_eqb _ _) eqn:E.
    - apply cell_eqb_spec in E. injection E as E. apply convert_nc_inj in E; [|assumption|assumption].
      destruct E as (_ & <- & <-). destruct ty, d; reflexivity.
    - destruct ty, ty'; cbn [andb]; try reflexivity;
        destruct (dir_eqb d d') eqn:D; try reflexivity; apply dir_eqb_spec in D; subst; rewrite cell_eqb_refl in E; discriminate. }
  transitivity (find (fun d' => (match ty, ty' with Shielding, Shielding | Terrain, Terrain | Topographic, Topographic => true | _, _ => false end) && dir_eqb d d') all_dirs).
  - induction all_dirs as [|x l IH]; [reflexivity|]. cbn [find]. rewrite E, IH. reflexivity.
  - destruct ty, ty'; cbn [andb]; destruct d; reflexivity.
Qed.

Section Whole.
  Context {T V : Type}.
  Variables (name : T -> str) (out lcv : str) (sg : stages T V) (tiles : list T) (s0 : @store cell V) (l : V).

  Lemma result_nc t ty d : good_tile (name t) -> has_data sg (clip sg t) = true ->
    tile_result name out sg s0 l t (File (convert_nc out (name t) ty d)) =
    match ty with
    | Terrain => if no_terrain sg (resample sg l (clip sg t)) then s0 (File (convert_nc out (name t) ty d)) else Some (mz sg t (resample sg l (clip sg t)) d)
    | Shielding => Some (ms sg t (ms_init sg (resample sg l (clip sg t))) (clip sg t) d)
    | Topographic => Some (mt sg t (clip sg t) d)
    end.
  Proof.
    intros G H. unfold tile_result. cbv zeta. rewrite H. rewrite !(find_nc out (name t) ty) by assumption. destruct ty; reflexivity.
  Qed.

  Lemma find_cell c (ty : mtype) n d : find (fun d => cell_eqb c (File (convert_nc out n ty d))) all_dirs = Some d -> c = File (convert_nc out n ty d).
  Proof. intros E. apply find_some in E. apply cell_eqb_spec. apply E. Qed.

  (** The tiles the converter works on are the tiles with data. *)
  Variables (g : @store cell V).
  Hypothesis Hok : run_ok name out lcv tiles.
  Hypothesis Hres : (forall t c, In t tiles -> pwrites name out t c = true -> g c = tile_result name out sg s0 l t c) /\
    (forall c, (forall t, In t tiles -> pwrites name out t c = false) -> g c = s0 c).
  Hypothesis Hempty : empty_dir s0 (pjoin out (lit "shielding")).
  Variables listing ctiles : list str.
  Hypothesis Hlist : lists g (pjoin out (lit "shielding")) listing.
  Hypothesis Htl : tile_list listing ctiles.

  Lemma written_dec c : (exists t, In t tiles /\ pwrites name out t c = true) \/ (forall t, In t tiles -> pwrites name out t c = false).
  Proof.
    clear. induction tiles as [|t ts IH]; [right; intros t []|].
    destruct (pwrites name out t c) eqn:E; [left; exists t; split; [left; reflexivity|exact E]|].
    destruct IH as [(t' & H1 & H2)|H]; [left; exists t'; split; [right; exact H1|exact H2]|].
    right. intros t' [<-|H']; [exact E|apply H; exact H'].
  Qed.

  Lemma nc_written t ty d : pwrites name out t (File (convert_nc out (name t) ty d)) = true.
  Proof. apply pw_spec. right. exists (FNc ty d). reflexivity. Qed.

  Lemma converter_tiles n : In n ctiles <-> exists t, In t tiles /\ has_data sg (clip sg t) = true /\ name t = n.
  Proof.
    destruct Hok as (Hdir & Hgood & Hnd & _). rewrite (proj2 Htl n). split.
    - intros (f & Hf & ->). apply Hlist in Hf. destruct Hf as (Hs & v & Hv).
      destruct (written_dec (File (pjoin (pjoin out (lit "shielding")) f))) as [(t & Ht & Hw)|Hno].
      + rewrite (proj1 Hres t _ Ht Hw) in Hv. unfold tile_result in Hv. cbv zeta in Hv.
        destruct (has_data sg (clip sg t)) eqn:Hd.
        * exists t. split; [exact Ht|]. split; [exact Hd|].
          assert (K : forall ty d, File (pjoin (pjoin out (lit "shielding")) f) = File (convert_nc out (name t) ty d) -> name t = tile_of_file f).
          { intros ty d E. injection E as E. apply (f_equal basename) in E. rewrite basename_pjoin in E by exact Hs.
            rewrite E. symmetry. apply tile_recovered. apply Hgood. exact Ht. }
          destruct (find _ all_dirs) as [d|] eqn:E1 in Hv; [apply find_cell in E1; exact (K _ _ E1)|].
          destruct (find _ all_dirs) as [d|] eqn:E2 in Hv; [apply find_cell in E2; exact (K _ _ E2)|].
          destruct (find _ all_dirs) as [d|] eqn:E3 in Hv; [apply find_cell in E3; exact (K _ _ E3)|].
          rewrite Hw in Hv. discriminate.
        * destruct (_ || _) in Hv; [discriminate|]. rewrite (Hempty f Hs) in Hv. discriminate.
      + rewrite (proj2 Hres _ Hno), (Hempty f Hs) in Hv. discriminate.
    - intros (t & Ht & Hd & <-). pose proof (Hgood t Ht) as G.
      exists (name t ++ lit "_ms_n.nc"). split.
      + apply Hlist. split; [destruct G as (G & _); apply notin_app; [exact G|notin_lit]|].
        exists (ms sg t (ms_init sg (resample sg l (clip sg t))) (clip sg t) N_).
        change (pjoin (pjoin out (lit "shielding")) (name t ++ lit "_ms_n.nc")) with (convert_nc out (name t) Shielding N_).
        rewrite (proj1 Hres t _ Ht (nc_written t _ _)). apply result_nc; assumption.
      + symmetry. unfold tile_of_file. destruct G as (_ & G & _).
        change (name t ++ lit "_ms_n.nc") with (name t ++ underscore :: lit "ms_n.nc"). apply split_head_app. exact G.
  Qed.
End Whole.
