(** * C101: which tiles are calculated. *)
From Verif Require Import Base BaseLemmas ReprModel ConvModel StageModel ChkSpec ChkModel ChkProofs.
From Verif Require Import TileModel PyStr NameModel NameSpec SchedModel SchedSpec DistModel PipeModel PipeSpec PipeRunProofs PipeProps ConvRunSpec WholeSpec WholeProps.
Open Scope Z_scope.

(** A tile is calculated exactly if the remainders of its whole heights by the
    primes of their pixels do not add up to a multiple of 65536. *)
Theorem C101_calculated v rows cols h :
  heights_are v rows cols h -> (has_data_of v = true <-> ~ (65536 | remainders rows cols h)).
Proof. intros H. rewrite (data_value _ _ _ _ H). rewrite <- Z.mod_divide by lia. reflexivity. Qed.
Print Assumptions C101_calculated.

(** Land within half a metre of sea level is taken for a tile without data. *)
Theorem C101_low_refuted v b bs :
  (m_type (r_geo v) = Float32 \/ m_type (r_geo v) = Float64) -> r_bands v = b :: bs ->
  0 <= g_rows (b_data b) -> 0 <= g_cols (b_data b) ->
  (forall r c, 0 <= r < g_rows (b_data b) -> 0 <= c < g_cols (b_data b) ->
    exists q, g_at (b_data b) r c = Num q /\ (- (1 # 2) <= q)%Q /\ (q < 1 # 2)%Q) ->
  has_data_of v = false.
Proof.
  intros T E R C A. apply not_true_is_false. intros D.
  assert (H : heights_are v (g_rows (b_data b)) (g_cols (b_data b)) (fun _ _ => 0)).
  { split; [exact R|split; [exact C|]]. exists b, bs. do 3 (split; [auto; fail|]). intros r c Ir Ic.
    destruct (A r c Ir Ic) as (q & Eq & L & U). rewrite Eq. assert (X : (inject_Z 0 - (1 # 2) <= q /\ q < inject_Z 0 + (1 # 2))%Q) by (change (inject_Z 0) with 0%Q; lra). destruct X.
    destruct T as [-> | ->]; exists 0; auto. }
  apply (C101_calculated _ _ _ _ H) in D. apply D. rewrite remainders_const by lia. rewrite Z.mul_0_r. apply Z.divide_0_r.
Qed.
Print Assumptions C101_low_refuted.

(** A plain of fewer than seven metres: exactly if height times pixels is no multiple of 65536. *)
Theorem C101_plain v rows cols x :
  0 <= x < 7 -> heights_are v rows cols (fun _ _ => x) ->
  (has_data_of v = true <-> ~ (65536 | rows * cols * x)).
Proof. intros X H. rewrite (C101_calculated _ _ _ _ H). rewrite remainders_const by (try exact X; apply H). reflexivity. Qed.
Print Assumptions C101_plain.

(** A tile of few pixels, none below or none above sea level: exactly if the height of some
    pixel is not a multiple of that pixel's prime. *)
Theorem C101_small v rows cols h :
  heights_are v rows cols h -> rows * cols <= 1560 ->
  (forall r c, 0 <= r < rows -> 0 <= c < cols -> 0 <= h r c) \/ (forall r c, 0 <= r < rows -> 0 <= c < cols -> h r c <= 0) ->
  (has_data_of v = false <-> forall r c, 0 <= r < rows -> 0 <= c < cols -> (prime_at (r * cols + c) | h r c)).
Proof.
  intros H N P. assert (R : 0 <= rows) by apply H. assert (C : 0 <= cols) by apply H.
  assert (B : Z.abs (remainders rows cols h) <= rows * cols * 42 /\ (remainders rows cols h = 0 <-> forall r c, 0 <= r < rows -> 0 <= c < cols -> (prime_at (r * cols + c) | h r c))).
  { destruct P as [P|P]; [split; [pose proof (remainders_bounds rows cols h R C P); lia|apply remainders_null; assumption]|].
    assert (P' : forall r c, 0 <= r < rows -> 0 <= c < cols -> 0 <= - h r c) by (intros r c Ir Ic; specialize (P r c Ir Ic); lia).
    pose proof (remainders_bounds rows cols _ R C P') as B. pose proof (remainders_null rows cols _ R C P') as B'. rewrite remainders_opp in B, B'. split; [lia|]. split.
    - intros E r c Ir Ic. apply Z.divide_opp_r. apply B'; [lia|assumption..].
    - intros E. assert (- remainders rows cols h = 0) by (apply B'; intros r c Ir Ic; apply Z.divide_opp_r, E; assumption). lia. }
  destruct B as [B <-]. assert (M : remainders rows cols h mod 65536 = 0 <-> remainders rows cols h = 0).
  { split; [|intros ->; reflexivity]. intros E. apply Z.mod_divide in E; [|lia]. destruct E as [k E]. lia. }
  pose proof (data_value _ _ _ _ H) as D. rewrite <- M. destruct (has_data_of v); split; intros X; try discriminate; try reflexivity.
  - destruct D as [D _]. exfalso. apply D; [reflexivity|exact X].
  - destruct (Z.eq_dec (remainders rows cols h mod 65536) 0) as [E|E]; [exact E|]. apply D in E. discriminate.
Qed.
Print Assumptions C101_small.

(** Two tiles that differ at one pixel, and there not by a multiple of its prime:
    at most one of them is skipped. *)
Theorem C101_one_pixel v v' rows cols h h' r0 c0 :
  heights_are v rows cols h -> heights_are v' rows cols h' -> 0 <= r0 < rows -> 0 <= c0 < cols ->
  (forall r c, 0 <= r < rows -> 0 <= c < cols -> r <> r0 \/ c <> c0 -> h r c = h' r c) ->
  ~ (prime_at (r0 * cols + c0) | h r0 c0 - h' r0 c0) ->
  has_data_of v = true \/ has_data_of v' = true.
Proof.
  intros H H' R C O D. pose proof (remainders_one rows cols h h' r0 c0 R C O) as E. pose proof (prime_bounds (r0 * cols + c0)) as P. set (p := prime_at (r0 * cols + c0)) in *.
  pose proof (Z.rem_bound_abs (h r0 c0) p ltac:(lia)) as B1. pose proof (Z.rem_bound_abs (h' r0 c0) p ltac:(lia)) as B2.
  assert (N : Z.rem (h r0 c0) p <> Z.rem (h' r0 c0) p).
  { intros X. apply D. pose proof (Z.quot_rem' (h r0 c0) p). pose proof (Z.quot_rem' (h' r0 c0) p). exists (Z.quot (h r0 c0) p - Z.quot (h' r0 c0) p). rewrite Z.mul_sub_distr_r. clear - X H0 H1. lia. }
  destruct (Z.eq_dec (remainders rows cols h mod 65536) 0) as [Z1|Z1]; [|left; apply (data_value _ _ _ _ H); exact Z1].
  destruct (Z.eq_dec (remainders rows cols h' mod 65536) 0) as [Z2|Z2]; [|right; apply (data_value _ _ _ _ H'); exact Z2].
  exfalso. apply Z.mod_divide in Z1, Z2; [|lia..]. destruct Z1 as [a Ea], Z2 as [a' Ea']. rewrite Ea, Ea' in E.
  clear - E B1 B2 N P. clearbody p. revert E B1 B2 N. generalize (Z.rem (h r0 c0) p) (Z.rem (h' r0 c0) p). intros x x' E B1 B2 N. lia.
Qed.
Print Assumptions C101_one_pixel.

(** The whole run on any number of processes: the tiles the conversion finds are
    those, by name, whose remainders do not add up to a multiple of 65536. *)
Theorem C101_run {T} (name : T -> str) out lcv (sg : stages T file) tiles k s0 l s listing ctiles rows cols h :
  (forall v, has_data sg v = has_data_of v) -> (forall t, In t tiles -> heights_are (clip sg t) (rows t) (cols t) (h t)) ->
  run_ok name out lcv tiles -> s0 (File lcv) = Some l -> (1 <= k)%nat ->
  empty_dir s0 (pjoin out (lit "shielding")) ->
  reach (cut_dem name out sg) (multipliers_calculate name out lcv sg) tiles k s0 s -> m s = MDone ->
  lists (fs s) (pjoin out (lit "shielding")) listing -> tile_list listing ctiles ->
  forall n, In n ctiles <-> exists t, In t tiles /\ name t = n /\ ~ (65536 | remainders (rows t) (cols t) (h t)).
Proof.
  intros Hd Hh H1 H2 H3 H4 H5 H6 H7 H8 n.
  destruct (C64_converted_tiles name out lcv sg tiles k s0 l s listing ctiles H1 H2 H3 H4 H5 H6 H7 H8) as [_ W]. rewrite W.
  split; intros (t & It & A & B); exists t; (split; [exact It|]).
  - split; [exact B|]. apply (C101_calculated _ _ _ _ (Hh t It)). rewrite <- Hd. exact A.
  - split; [|exact A]. rewrite Hd. apply (C101_calculated _ _ _ _ (Hh t It)). exact B.
Qed.
Print Assumptions C101_run.

(** A file of one band of whole numbers. *)
Definition tile (t : dtype) (rows cols : Z) (h : Z -> Z -> Z) : file :=
  ConvModel.Raster (Meta t (lit "p") 0 1 0 (-1) None) [Band [] (Grid rows cols (fun r c => Num (inject_Z (h r c))))].
Lemma tile_heights t rows cols h : 0 <= rows -> 0 <= cols -> (forall r c, 0 <= r < rows -> 0 <= c < cols -> Z.abs (h r c) <= 2147483647) -> heights_are (tile t rows cols h) rows cols h.
Proof.
  intros R C B. split; [exact R|split; [exact C|]]. do 2 eexists. split; [reflexivity|]. do 2 (split; [reflexivity|]). intros r c Ir Ic. cbn -[Z.pow].
  assert (X : exists n, (inject_Z n - (1 # 2) <= inject_Z (h r c))%Q /\ (inject_Z (h r c) < inject_Z n + (1 # 2))%Q /\ h r c = Z.max (- (2 ^ 31 - 1)) (Z.min (2 ^ 31 - 1) n)) by (exists (h r c); split; [lra|]; split; [lra|]; specialize (B r c Ir Ic); lia).
  destruct t; try reflexivity; exact X.
Qed.

(** A plain of 256 by 256 pixels, one metre high, is skipped; of 255 by 256 it is calculated. *)
Example plain_skipped t : has_data_of (tile t 256 256 (fun _ _ => 1)) = false.
Proof.
  apply not_true_is_false. intros D. apply (C101_plain _ 256 256 1) in D; [|lia|apply tile_heights; cbn; lia]. apply D. exists 1. reflexivity.
Qed.
Example plain_calculated t : has_data_of (tile t 255 256 (fun _ _ => 1)) = true.
Proof.
  apply (C101_plain _ 255 256 1); [lia|apply tile_heights; cbn; lia|]. intros [a E]. lia.
Qed.
(** A single pixel of seven metres is skipped, of eight calculated; the place of a height matters. *)
Example hill7 : has_data_of (tile Float32 1 1 (fun _ _ => 7)) = false. Proof. reflexivity. Qed.
Example hill8 : has_data_of (tile Float32 1 1 (fun _ _ => 8)) = true. Proof. reflexivity. Qed.
Example place1 : has_data_of (tile Int32 1 2 (fun _ c => if c =? 0 then 7 else 0)) = false. Proof. reflexivity. Qed.
Example place2 : has_data_of (tile Int32 1 2 (fun _ c => if c =? 0 then 0 else 7)) = true. Proof. reflexivity. Qed.
(** Heights below sea level cancel those above; a tile of nothing but the no-data value -9999 is calculated. *)
Example cancel : has_data_of (tile Float32 1 12 (fun _ c => if c =? 0 then 5 else if c =? 11 then -5 else 0)) = false. Proof. reflexivity. Qed.
(** So are tiles of up to 1560 pixels that are no numbers, or the least floating-point number. *)
Example no_numbers rows cols : 0 < rows -> 0 < cols -> rows * cols <= 1560 ->
  has_data_of (ConvModel.Raster (Meta Float32 (lit "p") 0 1 0 (-1) None) [Band [] (Grid rows cols (fun _ _ => NaN))]) = true.
Proof.
  intros R C N. apply not_false_is_true. intros D. refine (_ (proj1 (C101_small _ rows cols (fun _ _ => - 2 ^ 31) _ N _) D 0 0 ltac:(lia) ltac:(lia))).
  - intros [k E]. change (prime_at (0 * cols + 0)) with 7 in E. lia.
  - split; [lia|]. split; [lia|]. do 2 eexists. do 3 (split; [reflexivity|]). intros; reflexivity.
  - right. lia.
Qed.
Example least_number : has_data_of (ConvModel.Raster (Meta Float32 (lit "p") 0 1 0 (-1) None) [Band [] (Grid 1 1 (fun _ _ => Num (- (340282346638528859811704183484516925440 # 1))))]) = true. Proof. reflexivity. Qed.
Example missing : has_data_of (tile Float32 1 1 (fun _ _ => -9999)) = true. Proof. reflexivity. Qed.
(** Within half a metre of the sea. *)
Example low_case : exists v b, m_type (r_geo v) = Float32 /\ r_bands v = [b] /\ g_rows (b_data b) = 2 /\ g_cols (b_data b) = 2 /\ g_at (b_data b) 0 0 = Num (2 # 5) /\ has_data_of v = false.
Proof.
  exists (ConvModel.Raster (Meta Float32 (lit "p") 0 1 0 (-1) None) [Band [] (Grid 2 2 (fun _ _ => Num (2 # 5)))]). eexists. do 5 (split; [reflexivity|]). reflexivity.
Qed.

(** A run of two tiles of one pixel, eight metres and seven metres high. *)
Definition sg_ex : stages bool file :=
  Stages (fun b : bool => tile Float32 1 1 (fun _ _ => if b then 8 else 7)) has_data_of (fun l _ => l) (fun _ => false) (fun _ v _ => v) (fun v => v) (fun _ v _ _ => v) (fun _ v _ => v).
Definition fs_ex : @store cell file := fun c => if cell_eqb c (File (lit "/in/landcover.tif")) then Some (tile Int32 1 1 (fun _ _ => 1)) else None.
Example run_case :
  (forall v, has_data sg_ex v = has_data_of v) /\ (forall b, heights_are (clip sg_ex b) 1 1 (fun _ _ => if b then 8 else 7)) /\
  run_ok ex_name (lit "/data/out") (lit "/in/landcover.tif") [true; false] /\
  exists f, serial (cut_dem ex_name (lit "/data/out") sg_ex) (multipliers_calculate ex_name (lit "/data/out") (lit "/in/landcover.tif") sg_ex) [true; false] fs_ex = Ok f /\
    (exists v, f (File (lit "/data/out/shielding/e114.5000s11.5000_ms_n.nc")) = Some v) /\ f (File (lit "/data/out/shielding/e115.0000s11.5000_ms_n.nc")) = None.
Proof.
  split; [reflexivity|]. split; [intros b; apply tile_heights; destruct b; cbn; lia|]. split; [apply C12_pipeline_ex|].
  eexists. split; [vm_compute; reflexivity|]. split; [eexists|]; vm_compute; reflexivity.
Qed.
