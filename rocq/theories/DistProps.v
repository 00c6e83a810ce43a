(** * Theorems about the distribution of conversion work (C15, C53). *)
From Coq Require Import Permutation.
From Verif Require Import Base BaseLemmas PyStr NameModel NameSpec DistModel DistProofs ConvModel ConvRunSpec ConvRunProofs.
Open Scope Z_scope.

(** ** C15: the parts handed out are a partition of the tile list, one part
    per process. *)
Theorem C15_partition {A} size (tiles : list A) : 1 <= size ->
  zlen (split_tiles size tiles) = size /\ Permutation (concat (split_tiles size tiles)) tiles.
Proof. intros H. split; [apply split_length; lia|apply split_perm; exact H]. Qed.
Print Assumptions C15_partition.

(** Tile number k goes to process k mod size, as its (k / size)-th. *)
Theorem C15_owner {A} size (tiles : list A) k : 1 <= size -> 0 <= k < zlen tiles ->
  exists part, mpi_scatter size (split_tiles size tiles) (k mod size) = Ok part /\
    nth_error part (Z.to_nat (k / size)) = nth_error tiles (Z.to_nat k).
Proof.
  intros Hn Hk. exists (stride (k mod size) size tiles). pose proof (Z.mod_pos_bound k size ltac:(lia)).
  pose proof (Z.div_mod k size ltac:(lia)). assert (0 <= k / size) by (apply Z.div_pos; lia). split.
  - apply scatter_ok. lia.
  - rewrite stride_nth by lia. f_equal. f_equal. lia.
Qed.
Print Assumptions C15_owner.

(** The parts differ in size by at most one. *)
Theorem C15_balanced {A} size (tiles : list A) r r' p p' : 0 <= r < size -> 0 <= r' < size ->
  mpi_scatter size (split_tiles size tiles) r = Ok p -> mpi_scatter size (split_tiles size tiles) r' = Ok p' ->
  zlen p <= zlen p' + 1.
Proof.
  intros Hr Hr'. rewrite !scatter_ok by assumption. intros E E'. injection E as <-. injection E' as <-.
  rewrite !stride_length by lia. assert (0 <= zlen tiles) by (unfold zlen; lia).
  assert ((zlen tiles - r + size - 1) / size <= (zlen tiles - r' + size - 1) / size + 1).
  { rewrite <- (Z.div_add (zlen tiles - r' + size - 1) 1 size) by lia. apply Z.div_le_mono; lia. }
  lia.
Qed.
Print Assumptions C15_balanced.

(** What rank 0 hands to the mosaic builder: every tile's two files exactly
    once, in rank order. *)
Theorem C15_gathered size path (tiles : list str) : 1 <= size ->
  exists a b, convert_lists size tiles (fun _ => converter_files path) = Ok (a, b) /\
    Permutation a (map (fun t => pjoin (pjoin path (lit "M3")) (t ++ lit ".tif")) tiles) /\
    Permutation b (map (fun t => pjoin (pjoin path (lit "M3_max")) (t ++ lit ".tif")) tiles).
Proof. exact (convert_lists_perm size tiles (m3_path path) (m3max_path path)). Qed.
Print Assumptions C15_gathered.

(** Whatever the number of processes and the interleaving of their work, the
    files produced are those of each tile converted on its own; and the run
    fails exactly when one of the tiles fails on its own. *)
Theorem C15_parallel_conversion {G} mul stats_ok path (s0 : rstore G) size tiles l : 1 <= size ->
  interleaving (map cops (split_tiles size tiles)) l ->
  match foldM (cop_run mul stats_ok path) l s0 with
  | Ok g =>
      (forall t, In t tiles ->
        m3_of mul stats_ok path s0 t <> None /\ g (m3_path path t) = m3_of mul stats_ok path s0 t /\
        m3max_of mul stats_ok path s0 t <> None /\ g (m3max_path path t) = m3max_of mul stats_ok path s0 t) /\
      (forall x, (forall t, In t tiles -> x <> m3_path path t /\ x <> m3max_path path t) -> g x = s0 x)
  | Err _ => exists t, In t tiles /\ (m3_of mul stats_ok path s0 t = None \/ m3max_of mul stats_ok path s0 t = None)
  end.
Proof.
  intros Hn Hil. pose proof (split_perm size tiles Hn) as P.
  assert (K : forall t, In t (concat (split_tiles size tiles)) <-> In t tiles)
    by (intros t; split; apply Permutation_in; [|apply Permutation_sym]; exact P).
  pose proof (parallel_convert mul stats_ok path s0 _ l Hil) as R. destruct (foldM _ l s0) as [g|e].
  - destruct R as (R1 & R2 & R3). split.
    + intros t Ht. apply K in Ht. destruct (R1 t Ht), (R2 t Ht). auto.
    + intros x Hx. apply R3. intros t Ht. apply Hx. apply K. exact Ht.
  - destruct R as (t & Ht & H). exists t. split; [apply K; exact Ht|exact H].
Qed.
Print Assumptions C15_parallel_conversion.

Example C15_ex : split_tiles 3 [10; 11; 12; 13; 14; 15; 16] = [[10; 13; 16]; [11; 14]; [12; 15]] /\
  split_tiles 4 [10; 11] = [[10]; [11]; []; []].
Proof. split; vm_compute; reflexivity. Qed.
Example C15_ex_interleaving : interleaving (map cops (split_tiles 2 [lit "a"; lit "b"]))
  [OpTile (lit "a"); OpTile (lit "b"); OpMax (lit "b"); OpMax (lit "a")].
Proof.
  change (map cops (split_tiles 2 [lit "a"; lit "b"])) with
    [[OpTile (lit "a"); OpMax (lit "a")]; [OpTile (lit "b"); OpMax (lit "b")]].
  apply (il_cons [] [[OpTile (lit "b"); OpMax (lit "b")]]). apply (il_cons [[OpMax (lit "a")]] []). apply (il_cons [[OpMax (lit "a")]] []).
  apply (il_cons [] [[]]). constructor. repeat constructor.
Qed.

(** ** C53: the fallback communicator behaves as MPI with one process. *)
Theorem C53_dummy_comm {A B} (l : list A) (x : B) :
  dummy_size = 1 /\ dummy_rank = 0 /\
  (zlen l = 1 -> dummy_scatter l = mpi_scatter dummy_size l dummy_rank) /\
  dummy_gather x = mpi_gather dummy_size (fun _ => x) /\
  runs_on dummy_size dummy_rank = true.
Proof.
  split; [reflexivity|]. split; [reflexivity|]. split; [|split; reflexivity].
  intros H. unfold dummy_scatter, mpi_scatter. rewrite H. reflexivity.
Qed.
Print Assumptions C53_dummy_comm.

(** A root-only function runs on exactly one process of any communicator. *)
Theorem C53_root_only size rank : 0 <= rank < size -> (runs_on size rank = true <-> rank = 0).
Proof.
  intros H. unfold runs_on. destruct (Z.ltb_spec 1 size), (Z.ltb_spec 0 rank); cbn; split; intros; try lia; try discriminate; reflexivity.
Qed.
Print Assumptions C53_root_only.

(** Without MPI the whole tile list stays on the one process, in order. *)
Theorem C53_serial_conversion {A B} (tiles : list A) (conv : list A -> list B * list B) :
  dummy_scatter (split_tiles dummy_size tiles) = Ok tiles /\
  convert_lists dummy_size tiles (fun _ => conv) = Ok (conv tiles).
Proof.
  assert (E : stride 0 1 tiles = tiles).
  { rewrite stride_eq by lia. rewrite <- (pick_all tiles) at 3. f_equal. unfold range3.
    rewrite Z.div_1_r. replace (zlen tiles - 0 + 1 - 1) with (zlen tiles) by lia.
    rewrite <- (map_id (zrange (zlen tiles))) at 2. apply map_ext. intros; lia. }
  split.
  - unfold dummy_scatter, dummy_size. rewrite split_nth by lia. rewrite E. reflexivity.
  - unfold dummy_size. rewrite convert_lists_eq by lia. change (zrange 1) with [0]. cbn [map concat]. rewrite E, !app_nil_r.
    destruct (conv tiles); reflexivity.
Qed.
Print Assumptions C53_serial_conversion.

Example C53_ex : convert_lists dummy_size [5; 6] (fun _ ts => (ts, map Z.opp ts)) = Ok ([5; 6], [-5; -6]).
Proof. vm_compute. reflexivity. Qed.
