(** * Proofs about netCDF requests (C46, C47). *)
From Coq Require Import Ascii String.
From Verif Require Import Base PyStr BaseLemmas NcModel NcSpec.
Open Scope Z_scope.

Section Nc.
Variable cast : string -> num -> num.

(** ** The state after the dimensions *)
Definition names (f : ncfile) : list string := map fst (nf_dims f).
Definition consistent (f : ncfile) : Prop := map nv_name (nf_vars f) = names f.
Definition coord (d : dimreq) : ncvar :=
  NcVar (dim_name d) [dim_name d] [dim_len d]
        (fun ix => cast (str_or (dr_dtype d)) (nth (Z.to_nat (hd 0 (squeeze [dim_len d] ix))) (list_or (dr_values d)) NaN))
        (list_or (dr_atts d)).
Definition ext (f : ncfile) (dims : list dimreq) : ncfile :=
  NcFile (nf_dims f ++ map (fun d => (dim_name d, dim_len d)) dims) (nf_vars f ++ map coord dims) (nf_atts f) (nf_open f).

Lemma has_dim_iff f n : has_dim f n = true <-> In n (names f).
Proof.
  unfold has_dim, names. rewrite existsb_exists, in_map_iff. split.
  - intros (d & I & E). apply String.eqb_eq in E. exists d. auto.
  - intros (d & E & I). exists d. split; [exact I|]. apply String.eqb_eq. exact E.
Qed.
Lemma has_var_iff f n : consistent f -> (has_var f n = true <-> In n (names f)).
Proof.
  intros C. rewrite <- C. unfold has_var. rewrite existsb_exists, in_map_iff. split.
  - intros (d & I & E). apply String.eqb_eq in E. exists d. auto.
  - intros (d & E & I). exists d. split; [exact I|]. apply String.eqb_eq. exact E.
Qed.
Lemma existsb_false {A} (p : A -> bool) l : existsb p l = false -> forall x, In x l -> p x = false.
Proof. intros H x I. destruct (p x) eqn:E; [|reflexivity]. rewrite <- H. symmetry. apply existsb_exists. exists x. auto. Qed.

Lemma find_new {A} (p : A -> bool) l x : existsb p l = false -> p x = true -> find p (l ++ [x]) = Some x.
Proof.
  induction l as [|a l IH]; cbn; [intros _ ->; reflexivity|]. intros H. apply orb_false_iff in H. destruct H as [-> H]. apply IH. exact H.
Qed.
Lemma upd_new f n v g : has_var f n = false -> nv_name v = n ->
  upd_var (NcFile (nf_dims f) (nf_vars f ++ [v]) (nf_atts f) (nf_open f)) n g = NcFile (nf_dims f) (nf_vars f ++ [g v]) (nf_atts f) (nf_open f).
Proof.
  intros H E. unfold upd_var. cbn [nf_dims nf_vars nf_atts nf_open]. f_equal. rewrite map_app. cbn [map]. rewrite E, String.eqb_refl. f_equal.
  transitivity (map (fun v => v) (nf_vars f)); [|apply map_id]. apply map_ext_in. intros w I. unfold has_var in H. rewrite (existsb_false _ _ H w I). reflexivity.
Qed.

Lemma create_dim_spec f n vals t a : consistent f -> ~ In n (names f) ->
  nc_create_dim cast f n vals t a = (ext f [DimReq (Some n) (Some vals) (Some t) (Some a)], None).
Proof.
  intros C N. unfold nc_create_dim, create_dimension. assert (Hd : has_dim f n = false) by (destruct (has_dim f n) eqn:E; [apply has_dim_iff in E; contradiction|reflexivity]).
  assert (Hv : has_var f n = false) by (destruct (has_var f n) eqn:E; [apply has_var_iff in E; [contradiction|exact C]|reflexivity]).
  rewrite Hd. unfold nc_then at 1. cbn [fst snd]. unfold create_variable.
  assert (Hv' : has_var (NcFile (nf_dims f ++ [(n, zlen vals)]) (nf_vars f) (nf_atts f) (nf_open f)) n = false) by exact Hv. rewrite Hv'.
  cbn [dim_sizes]. unfold dim_size. cbn [nf_dims]. rewrite find_new by (try exact Hd; cbn [fst]; apply String.eqb_refl). cbn [snd].
  unfold nc_then at 1. cbn [fst snd nf_dims nf_vars nf_atts nf_open].
  unfold assign_all. cbn [nf_vars]. rewrite find_new by (try exact Hv; cbn [nv_name]; apply String.eqb_refl). cbn [nv_shape a_shape broadcastable].
  rewrite Z.eqb_refl. cbn [orb andb]. unfold nc_then. cbn [fst snd].
  set (f1 := NcFile (nf_dims f ++ [(n, zlen vals)]) (nf_vars f) (nf_atts f) (nf_open f)).
  change (nf_dims f ++ [(n, zlen vals)]) with (nf_dims f1). change (nf_vars f) with (nf_vars f1) at 1. 
  change (nf_atts f) with (nf_atts f1). change (nf_open f) with (nf_open f1).
  rewrite (upd_new f1 n) by (try exact Hv'; reflexivity). cbn [nv_name nv_dims nv_shape nv_atts].
  destruct a as [|p a].
  - reflexivity.
  - unfold set_atts. do 2 (try (rewrite (upd_new f1 n) by (try exact Hv'; reflexivity))). reflexivity.
Qed.
Lemma create_dim_dup f n vals t a : In n (names f) -> nc_create_dim cast f n vals t a = (f, Some RuntimeError).
Proof. intros N. unfold nc_create_dim, create_dimension. rewrite (proj2 (has_dim_iff f n) N). reflexivity. Qed.

Lemma ext_cons f d ds : ext (ext f [d]) ds = ext f (d :: ds).
Proof. unfold ext. cbn [nf_dims nf_vars nf_atts nf_open map]. rewrite <- !app_assoc. reflexivity. Qed.
Lemma ext_consistent f ds : consistent f -> consistent (ext f ds).
Proof. unfold consistent, ext, names. cbn [nf_dims nf_vars]. intros C. rewrite !map_app, C, !map_map. reflexivity. Qed.
Lemma ext_names f ds : names (ext f ds) = names f ++ map dim_name ds.
Proof. unfold names, ext. cbn [nf_dims]. rewrite map_app, map_map. reflexivity. Qed.

Definition fresh (f : ncfile) (ds : list dimreq) : Prop := forall n, In n (map dim_name ds) -> ~ In n (names f).

Lemma save_dims_ok ds : forall f, consistent f -> good_dims ds -> fresh f ds -> save_dims cast f ds = (ext f ds, None).
Proof.
  induction ds as [|d ds IH]; intros f C [G N] F.
  - cbn. unfold ext. cbn [map]. rewrite !app_nil_r. destruct f; reflexivity.
  - inversion G as [|? ? (A1 & A2 & A3 & A4) G']; subst. cbn [map] in N. inversion N as [|? ? Nd N']; subst.
    destruct d as [[n|] [v|] [t|] [a|]]; cbn in A1, A2, A3, A4; try congruence. cbn [save_dims].
    rewrite create_dim_spec by (try exact C; apply F; left; reflexivity). unfold nc_then. cbn [fst snd]. rewrite IH.
    + rewrite ext_cons. reflexivity.
    + apply ext_consistent. exact C.
    + split; assumption.
    + intros x Hx. rewrite ext_names. rewrite in_app_iff. intros [K|K]; [apply (F x); [right; exact Hx|exact K]|]. cbn in K. destruct K as [<-|[]]. exact (Nd Hx).
Qed.
Lemma save_dims_app ds1 ds2 f : save_dims cast f (ds1 ++ ds2) = nc_then (save_dims cast f ds1) (fun f => save_dims cast f ds2).
Proof.
  revert f. induction ds1 as [|d ds1 IH]; intros f; [reflexivity|]. cbn [app save_dims].
  destruct d as [[n|] [v|] [t|] [a|]]; try reflexivity. unfold nc_then. destruct (nc_create_dim cast f n v t a) as [f' [e|]]; cbn [fst snd]; [reflexivity|]. apply IH.
Qed.
Lemma complete_dec d : complete_dim d \/ ~ complete_dim d.
Proof. unfold complete_dim. destruct d as [[n|] [v|] [t|] [a|]]; cbn; first [left; repeat split; discriminate|right; intros (? & ? & ? & ?); congruence]. Qed.
Lemma save_dims_bad ds : forall f, consistent f -> snd (save_dims cast f ds) = None -> good_dims ds /\ fresh f ds.
Proof.
  induction ds as [|d ds IH]; intros f C H.
  - split; [split; constructor|intros n []].
  - cbn [save_dims] in H. destruct d as [[n|] [v|] [t|] [a|]]; try discriminate.
    destruct (in_dec String.string_dec n (names f)) as [I|N].
    + rewrite create_dim_dup in H by exact I. discriminate.
    + rewrite create_dim_spec in H by assumption. unfold nc_then in H. cbn [fst snd] in H. destruct (IH _ (ext_consistent _ _ C) H) as [[G ND] F].
      split; [split|].
      * constructor; [unfold complete_dim; cbn; repeat split; discriminate|exact G].
      * cbn [map]. constructor; [|exact ND]. intros K. apply (F _ K). rewrite ext_names. apply in_app_iff. right. left. reflexivity.
      * intros x Hx K. cbn [map] in Hx. destruct Hx as [<-|Hx]; [exact (N K)|]. apply (F x Hx). rewrite ext_names. apply in_app_iff. left. exact K.
Qed.
Lemma new_consistent : consistent nc_new. Proof. reflexivity. Qed.
Lemma new_fresh ds : fresh nc_new ds. Proof. intros n _ []. Qed.

(** ** Sizes *)
Definition after (dims : list dimreq) : ncfile := ext nc_new dims.
Lemma after_names dims : names (after dims) = map dim_name dims.
Proof. unfold after. rewrite ext_names. reflexivity. Qed.
Lemma dim_size_declared dims n z : good_dims dims -> (dim_size (after dims) n = Some z <-> declared dims n z).
Proof.
  intros [_ ND]. unfold dim_size, after, ext, declared. cbn [nf_dims nc_new app]. induction dims as [|d dims IH].
  - cbn. split; [discriminate|intros (d & [] & _)].
  - cbn [map find fst]. inversion ND as [|? ? N ND']; subst. destruct (String.eqb_spec (dim_name d) n) as [E|E].
    + cbn [snd]. split.
      * intros H. injection H as <-. exists d. split; [left; reflexivity|auto].
      * intros (d' & [<-|I] & E' & <-); [reflexivity|]. exfalso. apply N. cbn in *. rewrite E, <- E'. apply in_map. exact I.
    + specialize (IH ND'). rewrite IH. split.
      * intros (d' & I & X). exists d'. split; [right; exact I|exact X].
      * intros (d' & [<-|I] & E' & X); [contradiction|]. exists d'. auto.
Qed.
Lemma dim_sizes_spec dims l : good_dims dims ->
  (incl l (map dim_name dims) -> exists sh, dim_sizes (after dims) l = Some sh /\ Forall2 (declared dims) l sh) /\
  (forall sh, dim_sizes (after dims) l = Some sh -> incl l (map dim_name dims) /\ Forall2 (declared dims) l sh).
Proof.
  intros G. induction l as [|n l [IH1 IH2]].
  - split; [intros _; exists []; split; [reflexivity|constructor]|]. cbn. intros sh H. injection H as <-. split; [intros x []|constructor].
  - cbn [dim_sizes]. split.
    + intros I. destruct (IH1 (fun x Hx => I x (or_intror Hx))) as (sh & -> & F). specialize (I n (or_introl eq_refl)). apply in_map_iff in I.
      destruct I as (d & E & Id). assert (D : declared dims n (dim_len d)) by (exists d; auto). rewrite (proj2 (dim_size_declared dims n _ G) D).
      exists (dim_len d :: sh). split; [reflexivity|constructor; assumption].
    + intros sh H. destruct (dim_size (after dims) n) as [z|] eqn:Z1; [|discriminate]. destruct (dim_sizes (after dims) l) as [zs|] eqn:Z2; [|discriminate]. injection H as <-.
      destruct (IH2 zs eq_refl) as [I F]. apply dim_size_declared in Z1; [|exact G]. split; [|constructor; assumption].
      intros x [<-|Hx]; [|apply I; exact Hx]. destruct Z1 as (d & Id & <- & _). apply in_map. exact Id.
Qed.
Lemma declared_fun dims n z z' : good_dims dims -> declared dims n z -> declared dims n z' -> z = z'.
Proof. intros G H H'. apply dim_size_declared in H, H'; try exact G. congruence. Qed.

Lemma broadcast_iff sh : forall tgt, broadcastable sh tgt = true <-> Forall2 (fun n m => n = m \/ n = 1) sh tgt.
Proof.
  induction sh as [|n sh IH]; intros [|m tgt]; cbn [broadcastable].
  - split; [constructor|reflexivity].
  - split; [discriminate|intros H; inversion H].
  - split; [discriminate|intros H; inversion H].
  - rewrite andb_true_iff, orb_true_iff, !Z.eqb_eq, IH. split; [intros [A B]; constructor; assumption|intros H; inversion H; subst; auto].
Qed.
Lemma fits_iff dims sh vd shp : good_dims dims -> Forall2 (declared dims) vd shp ->
  (broadcastable sh shp = true <-> Forall2 (fun n s => exists size, declared dims s size /\ (n = size \/ n = 1)) sh vd).
Proof.
  intros G F. rewrite broadcast_iff. revert sh. induction F as [|s z vd shp D F IH]; intros sh.
  - split; intros H; inversion H; constructor.
  - split; intros H; inversion H; subst; constructor; try (apply IH; assumption).
    + exists z. auto.
    + match goal with K : exists size, _ |- _ => destruct K as (z' & D' & X) end. rewrite (declared_fun dims s z z' G D D'). exact X.
Qed.

(** ** The variable *)
Definition stored (wd : bool) (nodata : Q) (v : varreq) (shp : list Z) : ncvar :=
  NcVar (var_name v) (var_dims v) shp
    (fun ix => match var_array v with
               | Some x => if wd then cast (str_or (vr_dtype v)) (a_at x (squeeze (a_shape x) ix)) else Num nodata
               | None => Num nodata end)
    (list_or (vr_atts v)).
Definition title_atts (t : option string) : atts := match t with Some s => [("title"%string, AText s)] | None => [] end.
Definition saved (wd keep : bool) (nodata : Q) (t : option string) (ga : atts) (dims : list dimreq) (v : varreq) (w : ncvar) : ncfile :=
  NcFile (map (fun d => (dim_name d, dim_len d)) dims) (map coord dims ++ [w]) (ga ++ title_atts t) keep.

(** Two variables with the same values everywhere. *)
Definition var_same (a b : ncvar) : Prop :=
  nv_name a = nv_name b /\ nv_dims a = nv_dims b /\ nv_shape a = nv_shape b /\ nv_atts a = nv_atts b /\ forall ix, nv_at a ix = nv_at b ix.

Lemma save_var_ok nodata t ga wd keep dims v : good_dims dims -> good_var wd dims v ->
  exists shp w, Forall2 (declared dims) (var_dims v) shp /\ var_same w (stored wd nodata v shp) /\
    save_var cast nodata t ga wd keep (after dims) v = (saved wd keep nodata t ga dims v w, None).
Proof.
  intros G ((A1 & A2 & A3 & A4 & A5) & N & I & V). destruct v as [[n|] [vals|] [ty|] [vd|] [a|]]; cbn in A1, A2, A3, A4, A5; try congruence.
  cbn [var_name var_dims vr_name vr_dims str_or list_or var_array vr_values] in *. cbn [save_var].
  destruct (dim_sizes_spec dims vd G) as [D _]. destruct (D I) as (shp & E & F).
  assert (Hv : has_var (after dims) n = false).
  { destruct (has_var (after dims) n) eqn:X; [|reflexivity]. apply has_var_iff in X; [|apply ext_consistent, new_consistent]. rewrite after_names in X. contradiction. }
  exists shp. set (f := after dims) in *.
  destruct vals as [x|].
  - destruct V as [V1 V2]. rewrite (proj2 (Z.eqb_eq (zlen vd) (zlen (a_shape x)))) by lia. unfold create_variable. rewrite Hv, E. unfold nc_then at 1. cbn [fst snd].
    destruct wd.
    + unfold assign_all. cbn [nf_vars]. rewrite find_new by (try exact Hv; cbn [nv_name]; apply String.eqb_refl). cbn [nv_shape a_shape].
      rewrite (proj2 (fits_iff dims (a_shape x) vd shp G F) (V2 eq_refl)). unfold nc_then. cbn [fst snd]. rewrite (upd_new f n) by (try exact Hv; reflexivity).
      unfold set_atts. rewrite (upd_new f n) by (try exact Hv; reflexivity). cbn [nv_name nv_dims nv_shape nv_at nv_atts app].
      eexists. split; [exact F|]. split; [|destruct t, keep; unfold saved, set_gatts, nc_close, title_atts; cbn [nf_dims nf_vars nf_atts nf_open after ext nc_new app f]; rewrite ?app_nil_r; reflexivity].
      unfold var_same, stored. cbn. repeat split.
    + unfold nc_then. cbn [fst snd]. unfold set_atts. rewrite (upd_new f n) by (try exact Hv; reflexivity). cbn [nv_name nv_dims nv_shape nv_at nv_atts app].
      eexists. split; [exact F|]. split; [|destruct t, keep; unfold saved, set_gatts, nc_close, title_atts; cbn [nf_dims nf_vars nf_atts nf_open after ext nc_new app f]; rewrite ?app_nil_r; reflexivity].
      unfold var_same, stored. cbn. repeat split.
  - unfold create_variable. rewrite Hv, E. unfold nc_then. cbn [fst snd]. unfold set_atts. rewrite (upd_new f n) by (try exact Hv; reflexivity). cbn [nv_name nv_dims nv_shape nv_at nv_atts app].
    eexists. split; [exact F|]. split; [|destruct t, keep; unfold saved, set_gatts, nc_close, title_atts; cbn [nf_dims nf_vars nf_atts nf_open after ext nc_new app f]; rewrite ?app_nil_r; reflexivity].
    unfold var_same, stored. cbn. repeat split.
Qed.
Lemma save_var_bad nodata t ga wd keep dims v : good_dims dims ->
  snd (save_var cast nodata t ga wd keep (after dims) v) = None -> good_var wd dims v.
Proof.
  intros G H. destruct v as [[n|] [vals|] [ty|] [vd|] [a|]]; try discriminate. cbn [save_var] in H.
  unfold good_var. split; [unfold complete_var; cbn; repeat split; discriminate|]. cbn [var_name var_dims vr_name vr_dims str_or list_or var_array vr_values] in *.
  assert (K : forall k, snd (nc_then (create_variable (after dims) n vd (Num nodata)) k) = None ->
     ~ In n (map dim_name dims) /\ exists shp, dim_sizes (after dims) vd = Some shp /\
       snd (k (NcFile (nf_dims (after dims)) (nf_vars (after dims) ++ [NcVar n vd shp (fun _ => Num nodata) []]) (nf_atts (after dims)) (nf_open (after dims)))) = None).
  { intros k K. unfold create_variable in K. destruct (has_var (after dims) n) eqn:Hv; [discriminate|]. destruct (dim_sizes (after dims) vd) as [shp|] eqn:E; [|discriminate].
    unfold nc_then in K. cbn [fst snd] in K. split; [|exists shp; auto]. intros X. rewrite <- after_names in X.
    apply has_var_iff in X; [congruence|apply ext_consistent, new_consistent]. }
  destruct vals as [x|].
  - destruct (zlen vd =? zlen (a_shape x)) eqn:Ez; [|discriminate]. apply Z.eqb_eq in Ez. apply K in H. destruct H as (N & shp & E & H).
    destruct (dim_sizes_spec dims vd G) as [_ D]. destruct (D shp E) as [I F]. split; [exact N|]. split; [exact I|]. split; [lia|]. intros ->.
    unfold nc_then, assign_all in H. cbn [nf_vars] in H.
    assert (Hv : has_var (after dims) n = false).
    { destruct (has_var (after dims) n) eqn:X; [|reflexivity]. apply has_var_iff in X; [|apply ext_consistent, new_consistent]. rewrite after_names in X. contradiction. }
    rewrite find_new in H by (try exact Hv; cbn [nv_name]; apply String.eqb_refl). cbn [nv_shape a_shape] in H.
    destruct (broadcastable (a_shape x) shp) eqn:B; [|discriminate]. apply (fits_iff dims (a_shape x) vd shp G F). exact B.
  - apply K in H. destruct H as (N & shp & E & _). destruct (dim_sizes_spec dims vd G) as [_ D]. destruct (D shp E) as [I F]. auto.
Qed.

(** ** The whole call *)
Lemma save_grid_ok dims v rest nodata t ga wd keep : good_dims dims -> good_var wd dims v ->
  exists shp w, Forall2 (declared dims) (var_dims v) shp /\ var_same w (stored wd nodata v shp) /\
    nc_save_grid cast dims (v :: rest) nodata t ga wd keep = (saved wd keep nodata t ga dims v w, None).
Proof.
  intros G V. unfold nc_save_grid. rewrite save_dims_ok by (try exact G; try apply new_consistent; apply new_fresh). unfold nc_then. cbn [fst snd]. apply save_var_ok; assumption.
Qed.
Lemma save_grid_iff dims vars nodata t ga wd keep :
  snd (nc_save_grid cast dims vars nodata t ga wd keep) = None <->
  good_dims dims /\ match vars with [] => True | v :: _ => good_var wd dims v end.
Proof.
  split.
  - intros H. unfold nc_save_grid in H. destruct (save_dims cast nc_new dims) as [f [e|]] eqn:E; [discriminate|].
    assert (G : good_dims dims) by (apply (save_dims_bad dims nc_new new_consistent); rewrite E; reflexivity). split; [exact G|].
    rewrite save_dims_ok in E by (try exact G; try apply new_consistent; apply new_fresh). injection E as <-. unfold nc_then in H. cbn [fst snd] in H.
    destruct vars as [|v rest]; [exact I|]. apply (save_var_bad _ _ _ _ _ _ _ G H).
  - intros [G V]. destruct vars as [|v rest].
    + unfold nc_save_grid. rewrite save_dims_ok by (try exact G; try apply new_consistent; apply new_fresh). reflexivity.
    + destruct (save_grid_ok dims v rest nodata t ga wd keep G V) as (shp & w & _ & _ & ->). reflexivity.
Qed.
Lemma squeeze_in sh ix : in_shape sh ix -> squeeze sh ix = ix.
Proof. induction 1 as [|n i sh ix H F IH]; [reflexivity|]. cbn. rewrite IH. destruct (Z.eqb_spec n 1); f_equal; lia. Qed.
End Nc.
