From Coq Require Import Qabs Qround Ascii String.
From Verif Require Import Base BaseLemmas PyStr UtilModel UtilSpec UtilProofs UtilProps IniModel IniSpec CmdModel CmdSpec
  PreModel PreSpec PreProps RastModel RastSpec ReprModel ReprSpec RastProps PrepSpec PrepModel PrepProps TileModel TileSpec StageSpec ChainSpec.
Open Scope Z_scope.

(** ** Codes *)
Lemma name_use z s : 0 <= z -> name_of use_names z = Some s -> In (z, s) use_names.
Proof. intros _. unfold use_names. cbn [name_of]. repeat (match goal with |- context [?a =? z] => destruct (Z.eqb_spec a z) as [<-|]; [intros E; injection E as <-; cbn [In]; tauto|] end). discriminate. Qed.
Lemma name_settlement z s : name_of settlement_names z = Some s -> In (z, s) settlement_names.
Proof. unfold settlement_names. cbn [name_of]. repeat (match goal with |- context [?a =? z] => destruct (Z.eqb_spec a z) as [<-|]; [intros E; injection E as <-; cbn [In]; tauto|] end). discriminate. Qed.
Lemma name_settlement_none z : 0 <= z <= 5 -> name_of settlement_names z = None -> z = 0.
Proof.
  intros R. unfold settlement_names. cbn [name_of]. repeat (match goal with |- context [?a =? z] => destruct (Z.eqb_spec a z) as [<-|]; [discriminate|] end). lia.
Qed.
Lemma uses_inj i j s : In (i, s) use_names -> In (j, s) use_names -> i = j.
Proof.
  unfold use_names. cbn [In]. intros A B. repeat (destruct A as [A|A]; [injection A as <- <-; repeat (destruct B as [B|B]; [injection B; intros; congruence || (subst; reflexivity)|]); destruct B|]). destruct A.
Qed.
Lemma known_use u s : known use_names u = Some s -> u = VStr s.
Proof. unfold known. destruct u; try discriminate. destruct (existsb _ _); [|discriminate]. congruence. Qed.
Lemma use_known j s : In (j, s) use_names -> known use_names (VStr s) = Some s.
Proof. intros I. unfold known. replace (existsb _ _) with true; [reflexivity|]. symmetry. apply existsb_exists. exists (j, s). split; [exact I|]. apply str_eqb_eq. reflexivity. Qed.
Lemma code_is z k j s : 0 <= z <= 511 -> decode z = (k, Some s) -> In (j, s) use_names ->
  exists i, z = 100 * i + j /\ (k = None -> i = 0) /\ (forall S, k = Some S -> In (i, S) settlement_names).
Proof.
  intros R D J. injection D as D1 D2. exists (z / 100). assert (M : 0 <= z mod 100) by (apply Z.mod_pos_bound; lia). pose proof (uses_inj _ _ _ (name_use _ _ M D2) J) as E. pose proof (Z.div_mod z 100 ltac:(lia)). split; [lia|].
  split.
  - intros ->. apply name_settlement_none; [|exact D1]. split; [apply Z.div_pos; lia|]. assert (z / 100 < 6) by (apply Z.div_lt_upper_bound; lia); lia.
  - intros S ->. apply name_settlement. exact D1.
Qed.

(** ** The map on the grid of the elevation raster *)
Lemma near_centre (t : image) r c x y : north_up t -> 0 <= r < g_rows (im_cells t) -> 0 <= c < g_cols (im_cells t) ->
  (Qabs (x - centre_x t c) <= (1#2048) * im_dx t)%Q -> (Qabs (y - centre_y t r) <= (1#2048) * - im_dy t)%Q -> in_pixel t x y r c.
Proof.
  intros [Nx Ny] R C X Y. apply Qabs_Qle_condition in X, Y. unfold centre_x, centre_y in *. split; [exact R|]. split; [exact C|].
  rewrite !inject_Z_plus. change (inject_Z 1) with 1%Q. set (a := inject_Z c) in *. set (b := inject_Z r) in *.
  assert (E1 : ((a + (1 # 2)) * im_dx t == a * im_dx t + (1 # 2) * im_dx t)%Q) by ring. assert (E2 : ((b + (1 # 2)) * im_dy t == b * im_dy t + (1 # 2) * im_dy t)%Q) by ring.
  assert (E3 : ((a + 1) * im_dx t == a * im_dx t + im_dx t)%Q) by ring. assert (E4 : ((b + 1) * im_dy t == b * im_dy t + im_dy t)%Q) by ring.
  rewrite E1 in X. rewrite E2 in Y. rewrite E3, E4. clear E1 E2 E3 E4. repeat split; lra.
Qed.
Lemma map_cover (tr : str -> str -> Q * Q -> Q * Q) (t m : image) (lc : grid Z) :
  (forall p q, tr p p q = q) -> north_up t ->
  g_rows (im_cells m) = g_rows (im_cells t) -> g_cols (im_cells m) = g_cols (im_cells t) ->
  im_x m = im_x t -> im_dx m = im_dx t -> im_y m = im_y t -> im_dy m = im_dy t -> im_proj m = im_proj t -> im_nodata m = Some 0%Q ->
  g_rows lc = g_rows (im_cells t) -> g_cols lc = g_cols (im_cells t) ->
  (forall r c, 0 <= r < g_rows lc -> 0 <= c < g_cols lc -> (g_at (im_cells m) r c == inject_Z (g_at lc r c))%Q /\ 0 <= g_at lc r c <= 511) ->
  land_cover tr m t lc.
Proof.
  intros Tr N E1 E2 E3 E4 E5 E6 E7 E8 R C V. split; [exact R|]. split; [exact C|]. intros r c x y px py Hr Hc X Y E. rewrite E7, Tr in E. injection E as <- <-.
  rewrite R in Hr. rewrite C in Hc. pose proof (near_centre t r c x y N Hr Hc X Y) as P. assert (P' : in_pixel m x y r c) by (unfold in_pixel in *; rewrite E1, E2, E3, E4, E5, E6; exact P).
  destruct (V r c) as [Vv Vr]; [rewrite R; exact Hr|rewrite C; exact Hc|]. unfold cover_at. destruct (Z.eq_dec (g_at lc r c) 0) as [Z0|Nz].
  - right. split; [exact Z0|]. right. exists r, c, 0%Q. split; [exact P'|]. split; [exact E8|]. rewrite Vv, Z0. reflexivity.
  - left. exists r, c. split; [exact P'|]. split; [exact Vv|]. split.
    + right. exists (g_at lc r c), 0. split; [lia|]. rewrite Vv. cbn. ring.
    + intros n En. rewrite E8 in En. injection En as <-. rewrite Vv. intros X0. apply Nz. change 0%Q with (inject_Z 0) in X0. apply inject_Z_injective. exact X0.
Qed.

(** ** The last polygon *)
Lemma topmost_unique {G} (covers : G -> Q * Q -> bool) l p a g a' g' : topmost covers l p a g -> topmost covers l p a' g' -> a = a' /\ g = g'.
Proof.
  intros (b & e & E & C & L) (b' & e' & E' & C' & L'). subst l. revert b' E'. induction b as [|x b IH]; intros [|x' b'] E'; cbn [app] in E'.
  - injection E' as -> -> _. auto.
  - injection E' as _ E'. rewrite E' in L. rewrite (L a' g') in C'; [discriminate|]. apply in_or_app. right. left. reflexivity.
  - injection E' as _ E'. rewrite <- E' in L'. rewrite (L' a g) in C; [discriminate|]. apply in_or_app. right. left. reflexivity.
  - injection E' as _ E'. exact (IH b' E').
Qed.
