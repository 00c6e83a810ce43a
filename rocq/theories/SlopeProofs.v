From Coq Require Import Reals Qreals Lra.
From Verif Require Import Base BaseLemmas NameModel ShldModel ShldSpec ShldProofs Atan2 SlopeSpec.
Open Scope Z_scope.

Lemma reflect_border n k : 1 <= n -> -1 <= k <= n -> reflect1 n k = border n k.
Proof. intros Hn Hk. unfold reflect1, border. destruct (k <? 0) eqn:A; [lia|]. destruct (n <=? k) eqn:B; lia. Qed.
Lemma border_id n k : 0 <= k < n -> border n k = k.
Proof. unfold border. lia. Qed.
Lemma border_range n k : 1 <= n -> 0 <= border n k < n.
Proof. unfold border. lia. Qed.

Definition at_border (g : grid num) (a b : Z) : num := g_at g (border (g_rows g) a) (border (g_cols g) b).

Section Pixel.
Variables (g : grid num) (r c : Z).
Hypothesis Hr : 0 <= r < g_rows g.
Hypothesis Hc : 0 <= c < g_cols g.
Local Notation at_ := (at_border g).

Lemma gref_border a b : r - 1 <= a <= r + 1 -> c - 1 <= b <= c + 1 -> gref g a b = at_ a b.
Proof. intros Ha Hb. unfold gref, at_border. rewrite !reflect_border by lia. reflexivity. Qed.
Lemma gref_row a b : r - 1 <= a <= r + 1 -> c - 1 <= b <= c + 1 -> gref g (reflect1 (g_rows g) a) b = at_ a b.
Proof.
  intros Ha Hb. unfold gref, at_border. rewrite (reflect_border _ a), (reflect_border _ b) by lia.
  rewrite reflect_border by (pose proof (border_range (g_rows g) a); lia).
  rewrite (border_id _ (border (g_rows g) a)) by (apply border_range; lia). reflexivity.
Qed.
Lemma gref_col a b : r - 1 <= a <= r + 1 -> c - 1 <= b <= c + 1 -> gref g a (reflect1 (g_cols g) b) = at_ a b.
Proof.
  intros Ha Hb. unfold gref, at_border. rewrite (reflect_border _ a), (reflect_border _ b) by lia.
  rewrite reflect_border by (pose proof (border_range (g_cols g) b); lia).
  rewrite (border_id _ (border (g_cols g) b)) by (apply border_range; lia). reflexivity.
Qed.
(** Both filters read the nine cells around the pixel. *)
Lemma sobel_x_nine : sobel_x g r c =
  let d a := nadd (nscale 0 (at_ a c)) (nadd (at_ a (c + 1)) (nscale (-1) (at_ a (c - 1)))) in
  nadd (nadd (d (r - 1)) (nscale 2 (d r))) (d (r + 1)).
Proof.
  unfold sobel_x. cbv zeta. rewrite !gref_row by lia. rewrite !(gref_border r) by lia. reflexivity.
Qed.
Lemma sobel_y_nine : sobel_y g r c =
  let d b := nadd (nscale 0 (at_ r b)) (nadd (at_ (r + 1) b) (nscale (-1) (at_ (r - 1) b))) in
  nadd (nadd (d (c - 1)) (nscale 2 (d c))) (d (c + 1)).
Proof.
  unfold sobel_y. cbv zeta. rewrite !gref_col by lia. rewrite !(gref_border _ c) by lia. reflexivity.
Qed.
Lemma sobel_nan (a b : Z) : r - 1 <= a <= r + 1 -> c - 1 <= b <= c + 1 -> at_ a b = NaN -> sobel_x g r c = NaN.
Proof.
  intros Ha Hb H. rewrite sobel_x_nine. cbv beta zeta.
  assert (A : a = r - 1 \/ a = r \/ a = r + 1) by lia. assert (B : b = c - 1 \/ b = c \/ b = c + 1) by lia.
  assert (K : forall u v, nadd u NaN = NaN /\ nadd NaN v = NaN) by (intros [] []; split; reflexivity).
  destruct A as [-> | [-> | ->]], B as [-> | [-> | ->]]; rewrite H; cbn [nscale]; 
    repeat match goal with |- context [nadd ?x NaN] => rewrite (proj1 (K x x)) | |- context [nadd NaN ?x] => rewrite (proj2 (K x x)) | |- context [nscale ?k NaN] => cbn [nscale] end; reflexivity.
Qed.
Lemma sobel_y_nan (a b : Z) : r - 1 <= a <= r + 1 -> c - 1 <= b <= c + 1 -> at_ a b = NaN -> sobel_y g r c = NaN.
Proof.
  intros Ha Hb H. rewrite sobel_y_nine. cbv beta zeta.
  assert (A : a = r - 1 \/ a = r \/ a = r + 1) by lia. assert (B : b = c - 1 \/ b = c \/ b = c + 1) by lia.
  assert (K : forall u v, nadd u NaN = NaN /\ nadd NaN v = NaN) by (intros [] []; split; reflexivity).
  destruct A as [-> | [-> | ->]], B as [-> | [-> | ->]]; rewrite H; cbn [nscale]; 
    repeat match goal with |- context [nadd ?x NaN] => rewrite (proj1 (K x x)) | |- context [nadd NaN ?x] => rewrite (proj2 (K x x)) | |- context [nscale ?k NaN] => cbn [nscale] end; reflexivity.
Qed.
Lemma sobel_values (z : Z -> Z -> Q) : (forall a b, r - 1 <= a <= r + 1 -> c - 1 <= b <= c + 1 -> at_ a b = Num (z a b)) ->
  (exists q, sobel_x g r c = Num q /\ forall x, ~ (x == 0)%Q -> (q / (8 * x) == rise_east z x r c)%Q) /\
  (exists q, sobel_y g r c = Num q /\ forall y, ~ (y == 0)%Q -> (q / (8 * y) == - rise_north z y r c)%Q).
Proof.
  intros H. split; eexists; (split; [first [rewrite sobel_x_nine|rewrite sobel_y_nine]; cbv beta zeta; rewrite !H by lia; cbn [nadd nscale]; reflexivity|]).
  - intros x Hx. unfold rise_east. field. exact Hx.
  - intros y Hy. unfold rise_north. field. exact Hy.
Qed.
End Pixel.

Lemma mask_missing nodata x : (match nodata, x with Some n, Num q => if Qeq_bool q n then NaN else x | _, _ => x end) = NaN <-> no_height nodata x.
Proof.
  unfold no_height. destruct nodata as [n|], x as [|q]; try (split; [auto|reflexivity]); try (split; [discriminate|contradiction]).
  - destruct (Qeq_bool q n) eqn:E; [apply Qeq_bool_iff in E; tauto|]. split; [discriminate|]. intros C. apply Qeq_bool_iff in C. congruence.
Qed.
Lemma mask_value nodata q : ~ no_height nodata (Num q) ->
  (match nodata, Num q with Some n, Num q => if Qeq_bool q n then NaN else Num q | _, _ => Num q end) = Num q.
Proof.
  unfold no_height. destruct nodata as [n|]; [|reflexivity]. intros H. destruct (Qeq_bool q n) eqn:E; [|reflexivity].
  apply Qeq_bool_iff in E. contradiction.
Qed.

Lemma pixel_gradient nodata dem px py x y z r c : ~ (px == 0)%Q -> ~ (py == 0)%Q -> ~ (x == 0)%Q -> ~ (y == 0)%Q ->
  0 <= r < g_rows dem -> 0 <= c < g_cols dem ->
  (forall a b, r - 1 <= a <= r + 1 -> c - 1 <= b <= c + 1 ->
     g_at dem (border (g_rows dem) a) (border (g_cols dem) b) = Num (z a b) /\ ~ no_height nodata (Num (z a b))) ->
  exists gx gy,
    nscale (px / x) (nscale (1 / (8 * px)) (sobel_x (mask_nodata nodata dem) r c)) = Num gx /\
    nscale (py / y) (nscale (1 / (8 * py)) (sobel_y (mask_nodata nodata dem) r c)) = Num gy /\
    (gx == rise_east z x r c)%Q /\ (gy == - rise_north z y r c)%Q /\ g_at (mask_nodata nodata dem) r c = Num (z r c).
Proof.
  intros Hpx Hpy Hx Hy Hr Hc H. set (g := mask_nodata nodata dem).
  assert (V : forall a b, r - 1 <= a <= r + 1 -> c - 1 <= b <= c + 1 -> at_border g a b = Num (z a b)).
  { intros a b Ha Hb. destruct (H a b Ha Hb) as [E N]. unfold at_border, g, mask_nodata, gmap. cbn [g_at g_rows g_cols]. rewrite E. apply mask_value. exact N. }
  destruct (sobel_values g r c Hr Hc z V) as [(qx & E1 & V1) (qy & E2 & V2)]. rewrite E1, E2. cbn [nscale]. eexists. eexists.
  split; [reflexivity|]. split; [reflexivity|]. split; [rewrite <- (V1 x Hx); field; auto|]. split; [rewrite <- (V2 y Hy); field; auto|].
  specialize (V r c ltac:(lia) ltac:(lia)). unfold at_border in V. rewrite !border_id in V by assumption. exact V.
Qed.
Lemma num_or_nan (x : num) : x = NaN \/ exists q, x = Num q. Proof. destruct x; eauto. Qed.
Lemma slope_missing slope_fn aspect_fn nodata dem px py xm ym r c :
  0 <= r < g_rows dem -> 0 <= c < g_cols dem ->
  (g_at (fst (get_slope_aspect slope_fn aspect_fn nodata dem px py xm ym)) r c = NaN <->
   exists a b, r - 1 <= a <= r + 1 /\ c - 1 <= b <= c + 1 /\ no_height nodata (g_at dem (border (g_rows dem) a) (border (g_cols dem) b))) /\
  ((exists a b, r - 1 <= a <= r + 1 /\ c - 1 <= b <= c + 1 /\ no_height nodata (g_at dem (border (g_rows dem) a) (border (g_cols dem) b))) ->
   g_at (snd (get_slope_aspect slope_fn aspect_fn nodata dem px py xm ym)) r c = 9).
Proof.
  intros Hr Hc. set (g := mask_nodata nodata dem).
  assert (F : forall a b, no_height nodata (g_at dem (border (g_rows dem) a) (border (g_cols dem) b)) -> at_border g a b = NaN).
  { intros a b H. apply mask_missing in H. exact H. }
  assert (B : (exists a b, r - 1 <= a <= r + 1 /\ c - 1 <= b <= c + 1 /\ no_height nodata (g_at dem (border (g_rows dem) a) (border (g_cols dem) b))) ->
     sobel_x g r c = NaN).
  { intros (a & b & Ha & Hb & H). apply (sobel_nan g r c Hr Hc a b Ha Hb). apply F. exact H. }
  unfold get_slope_aspect. cbv zeta. cbn [fst snd g_at]. fold g. split.
  - split.
    + intros E. destruct (num_or_nan (g_at g r c)) as [M|(q & M)].
      * exists r, c. split; [lia|]. split; [lia|]. rewrite !border_id by assumption. apply mask_missing. exact M.
      * rewrite M in E.
        assert (D : forall (P : Z -> Z -> Prop), (forall a b, P a b \/ ~ P a b) -> 
           (exists a b, r - 1 <= a <= r + 1 /\ c - 1 <= b <= c + 1 /\ P a b) \/ (forall a b, r - 1 <= a <= r + 1 -> c - 1 <= b <= c + 1 -> ~ P a b)).
        { intros P DP. 
          assert (D1 : forall a, (exists b, c - 1 <= b <= c + 1 /\ P a b) \/ (forall b, c - 1 <= b <= c + 1 -> ~ P a b)).
          { intros a. destruct (DP a (c - 1)) as [Y|N1]; [left; exists (c - 1); split; [lia|exact Y]|].
            destruct (DP a c) as [Y|N2]; [left; exists c; split; [lia|exact Y]|].
            destruct (DP a (c + 1)) as [Y|N3]; [left; exists (c + 1); split; [lia|exact Y]|].
            right. intros b Hb. assert (X : b = c - 1 \/ b = c \/ b = c + 1) by lia. destruct X as [-> | [-> | ->]]; assumption. }
          destruct (D1 (r - 1)) as [(b & Hb & Y)|N1]; [left; exists (r - 1), b; split; [lia|auto]|].
          destruct (D1 r) as [(b & Hb & Y)|N2]; [left; exists r, b; split; [lia|auto]|].
          destruct (D1 (r + 1)) as [(b & Hb & Y)|N3]; [left; exists (r + 1), b; split; [lia|auto]|].
          right. intros a b Ha. assert (X : a = r - 1 \/ a = r \/ a = r + 1) by lia. destruct X as [-> | [-> | ->]]; auto. }
        destruct (D (fun a b => at_border g a b = NaN)) as [(a & b & Ha & Hb & Y)|N].
        { intros a b. destruct (at_border g a b); [left; reflexivity|right; discriminate]. }
        { exists a, b. split; [exact Ha|]. split; [exact Hb|]. apply mask_missing. exact Y. }
        exfalso. set (z := fun a b => match at_border g a b with Num q => q | NaN => 0%Q end).
        destruct (sobel_values g r c Hr Hc z) as [(qx & E1 & _) (qy & E2 & _)].
        { intros a b Ha Hb. specialize (N a b Ha Hb). unfold z. destruct (at_border g a b); [contradiction N; reflexivity|reflexivity]. }
        rewrite E1, E2 in E. cbn [nscale] in E. discriminate E.
    + intros H. apply B in H. rewrite H. cbn [nscale]. destruct (g_at g r c); reflexivity.
  - intros H. apply B in H. rewrite H. cbn [nscale]. reflexivity.
Qed.

From Coq Require Import Lra.
Local Open Scope R_scope.
Lemma Q2R_0 x : (x == 0)%Q -> Q2R x = 0.
Proof. intros H. rewrite (Qeq_eqR _ _ H). unfold Q2R; cbn [Qnum Qden]; field. Qed.
Lemma Q2R_nonzero x : ~ (x == 0)%Q -> Q2R x <> 0.
Proof. intros H C. apply H. apply eqR_Qeq. rewrite C. unfold Q2R; cbn [Qnum Qden]; field. Qed.
Lemma Q2R_inject (k : Z) : Q2R (inject_Z k) = IZR k.
Proof. unfold Q2R, inject_Z. cbn. field. Qed.

(** The compass heading is the downhill bearing, up to whole turns. *)
Lemma heading_downhill x y b : x <> 0 \/ y <> 0 -> downhill x (- y) b ->
  exists k : Z, 450 - degrees (atan2 y (- x)) = b + 360 * IZR k.
Proof.
  intros N [S C]. set (t := atan2 y (- x)). pose proof (atan2_cos y (- x)) as Kc. pose proof (atan2_sin y (- x)) as Ks. fold t in Kc, Ks.
  assert (E : norm2 (- x) y = norm2 x (- y)) by (unfold norm2; f_equal; ring).
  assert (P : 0 < norm2 x (- y)) by (apply norm2_pos; destruct N as [N|N]; [left; exact N|right; intros X; apply N; lra]).
  rewrite E in Kc, Ks. rewrite Ropp_involutive in C.
  assert (cos (PI / 2 - t) = cos (b * PI / 180)) as E1. { rewrite cos_shift. apply (Rmult_eq_reg_l (norm2 x (- y))); lra. }
  assert (sin (PI / 2 - t) = sin (b * PI / 180)) as E2. { rewrite sin_shift. apply (Rmult_eq_reg_l (norm2 x (- y))); lra. }
  destruct (same_angle _ _ E1 E2) as (k & K). exists (k + 1)%Z. rewrite plus_IZR. unfold degrees. pose proof PI_RGT_0 as Hp.
  assert (T : t = PI / 2 - b * PI / 180 - 2 * IZR k * PI) by lra. rewrite T. field. lra.
Qed.
Lemma bearing_sector eps d (a : Q) b : 0 <= eps -> (exists k : Z, Rabs (Q2R a - b + 360 * IZR k) <= eps) ->
  Q2R (bearing d) - 22.5 + eps <= b < Q2R (bearing d) + 22.5 - eps -> in_sector d a.
Proof.
  intros He (k & K) [L U]. exists k. assert (V : Q2R (a + 360 * inject_Z k) = Q2R a + 360 * IZR k).
  { rewrite Q2R_plus, Q2R_mult, Q2R_inject. unfold Q2R at 2; cbn [Qnum Qden]; field. }
  assert (K' : - eps <= Q2R a - b + 360 * IZR k <= eps) by (unfold Rabs in K; destruct (Rcase_abs _) in K; lra).
  split; [apply Rle_Qle; rewrite Q2R_minus, V|apply Rlt_Qlt; rewrite V, Q2R_plus]; lra.
Qed.
