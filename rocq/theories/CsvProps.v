(** * C81: what the terrain table file means to a tile. *)
From Verif Require Import Base PyStr BaseLemmas TerrModel TerrSpec TerrProofs TerrProps ShldModel CsvModel CsvSpec CsvProofs.
From Coq Require Import Lia.
Open Scope Z_scope.

(** However the table is written down (bare or quoted fields, remarks, blank
    lines, any order of columns, extra columns, missing last newline), a pixel
    gets the multiplier of the roughness in the last row about its class, and
    zero when no row is about it. *)
Theorem C81_terrain num_of mz text h ds i j data :
  holds text h ds -> within h ds -> headed h "CATEGORY" i -> headed h "ROUGHNESS_LENGTH_m" j ->
  numeric num_of i ds -> numeric num_of j ds ->
  exists g, terrain_initial num_of mz (Some text) data = Ok g /\ g_rows g = g_rows data /\ g_cols g = g_cols data /\
    forall r c,
      (forall d x, last_about num_of i (g_at data r c) ds d -> num_of (field j d) = Some x -> g_at g r c = mz x) /\
      ((forall d, In d ds -> ~ about num_of i (g_at data r c) d) -> g_at g r c = Num 0).
Proof.
  intros H W Hi Hj Ni Nj. unfold terrain_initial, terrain_table.
  rewrite (table_rows num_of "ROUGHNESS_LENGTH_m" mz text h ds i j H W Hi Hj).
  rewrite (num_col_some num_of j ds Nj), (num_col_some num_of i ds Ni), keyed_rows. cbn [bind].
  eexists. split; [reflexivity|]. split; [reflexivity|]. split; [reflexivity|]. intros r c. unfold class2mz. cbn [g_at]. split.
  - intros d x L X. exact (rows_last num_of mz i j ds (g_at data r c) d x _ L X).
  - intros N. apply rows_none. exact N.
Qed.
Print Assumptions C81_terrain.

(** The same for the initial shielding, a percentage; pixels of no row have 1. *)
Theorem C81_shielding num_of cast nodata text h ds i j data :
  holds text h ds -> within h ds -> headed h "CATEGORY" i -> headed h "SHIELDING" j ->
  numeric num_of i ds -> numeric num_of j ds ->
  exists g, shield_initial num_of cast nodata (Some text) data = Ok g /\ g_rows g = g_rows data /\ g_cols g = g_cols data /\
    forall r c, nodata <> Some (g_at data r c) -> g_at data r c <> -99 ->
      (forall d, last_about num_of i (g_at data r c) ds d ->
         (forall q, num_of (field j d) = Some (Num q) -> g_at g r c = Num (q / 100)) /\
         (num_of (field j d) = Some NaN -> g_at g r c = NaN)) /\
      ((forall d, In d ds -> ~ about num_of i (g_at data r c) d) -> g_at g r c = Num 1).
Proof.
  intros H W Hi Hj Ni Nj. unfold shield_initial, shielding_table.
  rewrite (table_rows num_of "SHIELDING" percent text h ds i j H W Hi Hj).
  rewrite (num_col_some num_of j ds Nj), (num_col_some num_of i ds Ni), keyed_rows. cbn [bind].
  eexists. split; [reflexivity|]. split; [reflexivity|]. split; [reflexivity|]. intros r c H1 H2. unfold gmap. cbn [g_at].
  replace (match nodata with Some n => if g_at data r c =? n then cast (-99) else g_at data r c | None => g_at data r c end) with (g_at data r c).
  2:{ destruct nodata as [n|]; [|reflexivity]. destruct (Z.eqb_spec (g_at data r c) n); [congruence|reflexivity]. }
  destruct (Z.eqb_spec (g_at data r c) (-99)); [contradiction|]. split.
  - intros d L. split.
    + intros q X. exact (rows_last num_of percent i j ds (g_at data r c) d (Num q) _ L X).
    + intros X. exact (rows_last num_of percent i j ds (g_at data r c) d NaN _ L X).
  - intros N. apply rows_none. exact N.
Qed.
Print Assumptions C81_shielding.

(** Only the two columns looked up matter: two files that agree on them are
    interchangeable, whatever else they hold. *)
Theorem C81_same num_of mz text h ds i j text' h' ds' i' j' :
  holds text h ds -> within h ds -> headed h "CATEGORY" i -> headed h "ROUGHNESS_LENGTH_m" j ->
  holds text' h' ds' -> within h' ds' -> headed h' "CATEGORY" i' -> headed h' "ROUGHNESS_LENGTH_m" j' ->
  map (field i) ds = map (field i') ds' -> map (field j) ds = map (field j') ds' ->
  terrain_table num_of mz (Some text) = terrain_table num_of mz (Some text').
Proof.
  intros H W Hi Hj H' W' Hi' Hj' E1 E2. unfold terrain_table.
  rewrite (table_rows num_of "ROUGHNESS_LENGTH_m" mz text h ds i j H W Hi Hj).
  rewrite (table_rows num_of "ROUGHNESS_LENGTH_m" mz text' h' ds' i' j' H' W' Hi' Hj'). rewrite E1, E2. reflexivity.
Qed.
Print Assumptions C81_same.

(** When the table is refused, and how; both steps refuse alike. *)
Lemma wide_rows text h ds : holds text h ds -> ~ within h ds -> read_csv text = Err ValueError.
Proof.
  intros (doc & un & -> & L & R) W. unfold read_csv. rewrite file_run by assumption. rewrite R. cbn [bind].
  match goal with |- (if ?b then _ else _) = _ => destruct b eqn:E; [reflexivity|] end. exfalso. apply W.
  destruct ds as [|d0 ds]; [exact I|]. intros d J. rewrite <- not_true_iff_false, existsb_exists in E.
  destruct (Nat.le_gt_cases (length d) (Nat.max (length h) (length d0))) as [G|G].
  - destruct (Nat.max_spec (length h) (length d0)) as [(_ & X)|(_ & X)]; rewrite X in G; [right|left]; exact G.
  - exfalso. apply E. exists d. split; [exact J|]. apply Nat.ltb_lt. exact G.
Qed.
Lemma no_column num_of value f text h ds : holds text h ds -> within h ds -> ds <> [] ->
  ~ (In (lit "CATEGORY") h /\ In (lit value) h) -> table_of num_of (lit value) f text = Err KeyError.
Proof.
  intros H W D N. unfold table_of. rewrite (read_rows text h ds H W). cbn [bind fst snd].
  destruct ds as [|d ds]; [contradiction|]. unfold column.
  destruct (in_dec (list_eq_dec ascii_dec) (lit "CATEGORY") h) as [I|I].
  - destruct (headed_exists h "CATEGORY" I) as (i & Hi). rewrite (col_index_some h i _ Hi).
    rewrite (col_index_none h value) by tauto. reflexivity.
  - rewrite (col_index_none h "CATEGORY" I). reflexivity.
Qed.
Lemma not_numbers num_of value f text h ds j : holds text h ds -> within h ds ->
  In (lit "CATEGORY") h -> headed h value j -> (exists d, In d ds /\ num_of (field j d) = None) ->
  table_of num_of (lit value) f text = Err TypeError.
Proof.
  intros H W C Hj (d & I & E). destruct (headed_exists h "CATEGORY" C) as (i & Hi).
  rewrite (table_rows num_of value f text h ds i j H W Hi Hj), (num_col_none num_of j ds d I E). reflexivity.
Qed.
Lemma accepted num_of value f text h ds j : holds text h ds -> within h ds ->
  In (lit "CATEGORY") h -> headed h value j -> numeric num_of j ds -> exists t, table_of num_of (lit value) f text = Ok t.
Proof.
  intros H W C Hj N. destruct (headed_exists h "CATEGORY" C) as (i & Hi).
  rewrite (table_rows num_of value f text h ds i j H W Hi Hj), (num_col_some num_of j ds N).
  destruct (num_col num_of (map (field i) ds)); eexists; reflexivity.
Qed.

Theorem C81_outcome num_of mz text h ds : holds text h ds ->
  (~ within h ds -> terrain_table num_of mz (Some text) = Err ValueError /\ shielding_table num_of (Some text) = Err ValueError) /\
  (within h ds -> ds <> [] -> ~ (In (lit "CATEGORY") h /\ In (lit "ROUGHNESS_LENGTH_m") h) ->
     terrain_table num_of mz (Some text) = Err KeyError) /\
  (within h ds -> ds <> [] -> ~ (In (lit "CATEGORY") h /\ In (lit "SHIELDING") h) ->
     shielding_table num_of (Some text) = Err KeyError) /\
  (forall j, within h ds -> In (lit "CATEGORY") h -> headed h "ROUGHNESS_LENGTH_m" j ->
     ((exists d, In d ds /\ num_of (field j d) = None) -> terrain_table num_of mz (Some text) = Err TypeError) /\
     (numeric num_of j ds -> exists t, terrain_table num_of mz (Some text) = Ok t)) /\
  (forall j, within h ds -> In (lit "CATEGORY") h -> headed h "SHIELDING" j ->
     ((exists d, In d ds /\ num_of (field j d) = None) -> shielding_table num_of (Some text) = Err TypeError) /\
     (numeric num_of j ds -> exists t, shielding_table num_of (Some text) = Ok t)).
Proof.
  intros H. unfold terrain_table, shielding_table. split; [|split; [|split; [|split]]].
  - intros W. unfold table_of. rewrite (wide_rows text h ds H W). split; reflexivity.
  - intros W D N. exact (no_column num_of _ mz text h ds H W D N).
  - intros W D N. exact (no_column num_of _ percent text h ds H W D N).
  - intros j W C Hj. split; [exact (not_numbers num_of _ mz text h ds j H W C Hj)|exact (accepted num_of _ mz text h ds j H W C Hj)].
  - intros j W C Hj. split; [exact (not_numbers num_of _ percent text h ds j H W C Hj)|exact (accepted num_of _ percent text h ds j H W C Hj)].
Qed.
Print Assumptions C81_outcome.

(** Whether a line ends with a newline or with a carriage return and a newline, as
    editors under Windows write it, makes no difference. *)
Theorem C81_line_ends num_of mz doc doc' unended :
  (forall l, In l (all_lines doc unended) -> line_ok l) -> map fst doc = map fst doc' ->
  terrain_table num_of mz (Some (write_file doc unended)) = terrain_table num_of mz (Some (write_file doc' unended)) /\
  shielding_table num_of (Some (write_file doc unended)) = shielding_table num_of (Some (write_file doc' unended)).
Proof.
  intros L E. assert (A : all_lines doc unended = all_lines doc' unended) by (unfold all_lines; rewrite E; reflexivity).
  assert (T : tokenize (write_file doc unended) = tokenize (write_file doc' unended)).
  { rewrite !file_run; [unfold file_rows; rewrite A; reflexivity|rewrite <- A; exact L|exact L]. }
  unfold terrain_table, shielding_table, table_of, read_csv. rewrite T. split; reflexivity.
Qed.
Print Assumptions C81_line_ends.

(** A file without any row, and one with a field whose closing quote is
    missing, are refused. *)
Lemma open_quote_field s : ~ In dq s -> forall f r, tok InQuoted f r s = Err ValueError.
Proof.
  induction s as [|x s IH]; intros N f r; [reflexivity|]. cbn [tok].
  rewrite (eqb_no x quote) by (intros ->; apply N; left; reflexivity). apply IH. intros I. apply N. right. exact I.
Qed.
Lemma open_quote_row s cs : ~ In dq s -> Forall cell_ok cs -> forall r,
  tok StartField [] r (flat_map (fun c => written c ++ [sep]) cs ++ dq :: s) = Err ValueError.
Proof.
  intros N F. induction F as [|c cs C F IH]; intros r.
  - exact (open_quote_field s N [] r).
  - cbn [flat_map]. rewrite <- !app_assoc. cbn [app].
    apply (cell_run c r _ (fun _ => Err ValueError)); [exact C|discriminate| |intros _]; intros f; exact (IH _).
Qed.
Lemma open_quote_line s cs : ~ In dq s -> Forall cell_ok cs ->
  tok StartRecord [] [] (flat_map (fun c => written c ++ [sep]) cs ++ dq :: s) = Err ValueError.
Proof.
  intros N F. destruct cs as [|c cs]; [exact (open_quote_field s N [] [])|].
  pose proof (open_quote_row s (c :: cs) N F []) as E. cbn [flat_map] in *. rewrite <- !app_assoc in *. cbn [app] in *.
  pose proof (record_start c [Plain []] (flat_map (fun c => written c ++ [sep]) cs ++ dq :: s)) as R.
  unfold write_cells in R. cbn [flat_map written app] in R. rewrite <- !app_assoc in R. cbn [app] in R.
  rewrite R; [exact E| |discriminate].
  constructor; [exact (Forall_inv F)|]. constructor; [|constructor].
  split; [intros []|]. split; [intros []|]. split; [intros []|]. split; [intros []|discriminate].
Qed.
Lemma open_quote_text doc cs s : (forall l, In l (map fst doc) -> line_ok l) -> Forall cell_ok cs -> ~ In dq s ->
  tokenize (write_file doc None ++ flat_map (fun c => written c ++ [sep]) cs ++ dq :: s) = Err ValueError.
Proof.
  intros L F N. unfold tokenize, write_file. rewrite app_nil_r. induction doc as [|[l e] doc IH].
  - apply open_quote_line; assumption.
  - cbn [flat_map fst snd]. rewrite <- !app_assoc.
    match goal with |- tok _ _ _ (_ ++ write_end e ++ ?t) = _ => change (write_end e ++ t) with (rest (Some (e, t))) end.
    rewrite line_run by (apply L; left; reflexivity). cbn [then_]. rewrite IH by (intros l' I; apply L; right; exact I).
    destruct l; reflexivity.
Qed.
Theorem C81_unreadable num_of mz text :
  (exists doc unended, text = write_file doc unended /\ (forall l, In l (all_lines doc unended) -> line_ok l) /\ file_rows doc unended = []) \/
  (exists doc cs s, text = write_file doc None ++ flat_map (fun c => written c ++ [sep]) cs ++ dq :: s /\
     (forall l, In l (map fst doc) -> line_ok l) /\ Forall cell_ok cs /\ ~ In dq s) ->
  terrain_table num_of mz (Some text) = Err ValueError /\ shielding_table num_of (Some text) = Err ValueError.
Proof.
  intros H. assert (E : read_csv text = Err ValueError).
  { unfold read_csv. destruct H as [(doc & un & -> & L & R)|(doc & cs & s & -> & L & F & N)].
    - rewrite file_run by assumption. rewrite R. reflexivity.
    - rewrite open_quote_text by assumption. reflexivity. }
  unfold terrain_table, shielding_table, table_of. rewrite E. split; reflexivity.
Qed.
Print Assumptions C81_unreadable.

(** One category that is not a number makes the whole table ineffective,
    without any error: every terrain tile is skipped, and every pixel with data
    has the shielding of open ground. *)
Theorem C81_one_bad_category_refuted num_of mz fl cast nodata text h ds i j k data gw :
  holds text h ds -> within h ds -> headed h "CATEGORY" i -> headed h "ROUGHNESS_LENGTH_m" j -> headed h "SHIELDING" k ->
  numeric num_of j ds -> numeric num_of k ds ->
  (exists d, In d ds /\ num_of (field i d) = None) -> 1 <= g_rows data -> 1 <= g_cols data ->
  terrain_step num_of mz fl (Some text) data gw = Ok None /\
  exists g, shield_initial num_of cast nodata (Some text) data = Ok g /\
    forall r c, nodata <> Some (g_at data r c) -> g_at data r c <> -99 -> g_at g r c = Num 1.
Proof.
  intros H W Hi Hj Hk Nj Nk (d & I & E) R C. split.
  - unfold terrain_step, terrain_table. rewrite (table_rows num_of "ROUGHNESS_LENGTH_m" mz text h ds i j H W Hi Hj).
    rewrite (num_col_some num_of j ds Nj), (num_col_none num_of i ds d I E). cbn [bind].
    apply C24_skipped; [intros cat v []|assumption|assumption|]. intros r c _ _ [].
  - unfold shield_initial, shielding_table. rewrite (table_rows num_of "SHIELDING" percent text h ds i k H W Hi Hk).
    rewrite (num_col_some num_of k ds Nk), (num_col_none num_of i ds d I E). cbn [bind].
    eexists. split; [reflexivity|]. intros r c H1 H2. unfold gmap. cbn [g_at].
    replace (match nodata with Some n => if g_at data r c =? n then cast (-99) else g_at data r c | None => g_at data r c end) with (g_at data r c).
    2:{ destruct nodata as [n|]; [|reflexivity]. destruct (Z.eqb_spec (g_at data r c) n); [congruence|reflexivity]. }
    destruct (Z.eqb_spec (g_at data r c) (-99)); [contradiction|]. reflexivity.
Qed.
Print Assumptions C81_one_bad_category_refuted.

(** A run with one bad category does all its tiles and exits with success,
    without a terrain multiplier for any of them. *)
Theorem C81_bad_category_run_refuted num_of mz fl cast nodata text h ds i j k gw tiles :
  holds text h ds -> within h ds -> headed h "CATEGORY" i -> headed h "ROUGHNESS_LENGTH_m" j -> headed h "SHIELDING" k ->
  numeric num_of j ds -> numeric num_of k ds -> (exists d, In d ds /\ num_of (field i d) = None) ->
  (forall t, In t tiles -> 1 <= g_rows t /\ 1 <= g_cols t) ->
  let run := run_tables num_of mz fl cast nodata gw (Some text) tiles in
  fst run = tiles /\ exit_status (snd run) = 0 /\ forall t, In t tiles -> terrain_step num_of mz fl (Some text) t gw = Ok None.
Proof.
  intros H W Hi Hj Hk Nj Nk B P run. unfold run.
  assert (S : forall t, In t tiles -> terrain_step num_of mz fl (Some text) t gw = Ok None /\ exists g, shield_initial num_of cast nodata (Some text) t = Ok g).
  { intros t I. destruct (P t I) as [R C].
    destruct (C81_one_bad_category_refuted num_of mz fl cast nodata text h ds i j k t gw H W Hi Hj Hk Nj Nk B R C) as (A & g & G & _).
    split; [exact A|exists g; exact G]. }
  assert (E : run_tables num_of mz fl cast nodata gw (Some text) tiles = (tiles, None)).
  { clear P. induction tiles as [|t ts IH]; [reflexivity|]. cbn [run_tables].
    destruct (S t (or_introl eq_refl)) as (A & g & G). rewrite A, G, IH by (intros u I; apply S; right; exact I). reflexivity. }
  rewrite E. split; [reflexivity|]. split; [reflexivity|]. intros t I. apply S. exact I.
Qed.
Print Assumptions C81_bad_category_run_refuted.

(** A row cut short before the roughness (by a [#] in a bare description, say)
    leaves its class without a multiplier rather than being refused. *)
Theorem C81_short_row num_of mz text h ds i j data d r c :
  holds text h ds -> within h ds -> headed h "CATEGORY" i -> headed h "ROUGHNESS_LENGTH_m" j ->
  numeric num_of i ds -> numeric num_of j ds -> num_of [] = Some NaN ->
  last_about num_of i (g_at data r c) ds d -> (length d <= j)%nat ->
  exists g, terrain_initial num_of mz (Some text) data = Ok g /\ g_at g r c = mz NaN.
Proof.
  intros H W Hi Hj Ni Nj E L S. destruct (C81_terrain num_of mz text h ds i j data H W Hi Hj Ni Nj) as (g & Eg & _ & _ & K).
  exists g. split; [exact Eg|]. apply (proj1 (K r c) d NaN L). unfold field. rewrite nth_overflow by exact S. exact E.
Qed.
Print Assumptions C81_short_row.

(** The example table of the documentation is refused by both steps, whatever
    counts as a number. *)
Theorem C81_documented_table_refuted num_of mz :
  terrain_table num_of mz (Some documented) = Err ValueError /\ shielding_table num_of (Some documented) = Err ValueError.
Proof. split; reflexivity. Qed.
Print Assumptions C81_documented_table_refuted.

(** A class with the shielding 1.0 the documentation prescribes for open
    ground starts from a hundredth of that. *)
Theorem C81_documented_shielding_refuted num_of cast nodata text h ds i j data d r c :
  holds text h ds -> within h ds -> headed h "CATEGORY" i -> headed h "SHIELDING" j ->
  numeric num_of i ds -> numeric num_of j ds -> nodata <> Some (g_at data r c) -> g_at data r c <> -99 ->
  last_about num_of i (g_at data r c) ds d -> num_of (field j d) = Some (Num 1) ->
  exists g, shield_initial num_of cast nodata (Some text) data = Ok g /\ g_at g r c = Num (1 / 100).
Proof.
  intros H W Hi Hj Ni Nj H1 H2 L E. destruct (C81_shielding num_of cast nodata text h ds i j data H W Hi Hj Ni Nj) as (g & Eg & _ & _ & K).
  exists g. split; [exact Eg|]. destruct (K r c H1 H2) as (K1 & _). apply (K1 d L). exact E.
Qed.
Print Assumptions C81_documented_shielding_refuted.

(** Without the file a run of any number of tiles does none of them and still
    exits with success; a table that is refused makes it fail at the first tile. *)
Theorem C81_no_file_refuted num_of mz fl cast nodata gw t ts :
  let run := run_tables num_of mz fl cast nodata gw None (t :: ts) in fst run = [] /\ exit_status (snd run) = 0.
Proof. split; reflexivity. Qed.
Print Assumptions C81_no_file_refuted.
Theorem C81_refused num_of mz fl cast nodata gw text h ds t ts : holds text h ds ->
  (~ within h ds \/ ds <> [] /\ ~ (In (lit "CATEGORY") h /\ In (lit "ROUGHNESS_LENGTH_m") h) \/
   exists j, In (lit "CATEGORY") h /\ headed h "ROUGHNESS_LENGTH_m" j /\ exists d, In d ds /\ num_of (field j d) = None) ->
  let run := run_tables num_of mz fl cast nodata gw (Some text) (t :: ts) in fst run = [] /\ exit_status (snd run) = 1.
Proof.
  intros H C. destruct (C81_outcome num_of mz text h ds H) as (O1 & O2 & _ & O4 & _).
  assert (E : exists e, terrain_table num_of mz (Some text) = Err e /\ e <> SystemExit).
  { assert (D : within h ds \/ ~ within h ds).
    { destruct ds as [|d0 ds]; [left; exact I|]. cbn [within].
      set (P := fun d : list str => (length d <= length h \/ length d <= length d0)%nat).
      destruct (Forall_dec P) with (l := d0 :: ds) as [F|F].
      - intros d. unfold P. destruct (le_dec (length d) (length h)); [left; left; assumption|].
        destruct (le_dec (length d) (length d0)); [left; right; assumption|]. right. intros [X|X]; contradiction.
      - left. rewrite Forall_forall in F. exact F.
      - right. intros X. apply F. apply Forall_forall. exact X. }
    destruct D as [W|W].
    - destruct C as [C|[(D & C)|(j & C & Hj & X)]]; [contradiction| |].
      + exists KeyError. split; [apply O2; assumption|discriminate].
      + exists TypeError. split; [apply (O4 j W C Hj); exact X|discriminate].
    - exists ValueError. split; [apply O1; exact W|discriminate]. }
  destruct E as (e & E & N). cbn [run_tables]. unfold terrain_step. rewrite E. cbn [bind fst snd]. split; [reflexivity|].
  destruct e; try reflexivity. contradiction.
Qed.
Print Assumptions C81_refused.

(** What the shielding step goes on with is what the shielding model (C26, C65)
    takes as its table. *)
Theorem C81_shielding_model num_of cast nodata file data tbl :
  shielding_table num_of file = Ok (map (fun row => (fst row, Num (snd row / 100))) tbl) ->
  exists g, shield_initial num_of cast nodata file data = Ok g /\ g_rows g = g_rows data /\ g_cols g = g_cols data /\
    forall r c, g_at g r c = g_at (class2ms cast nodata tbl data) r c.
Proof.
  intros E. unfold shield_initial. rewrite E. cbn [bind]. eexists. split; [reflexivity|]. split; [reflexivity|]. split; [reflexivity|].
  intros r c. unfold class2ms, gmap. cbn [g_at].
  generalize (match nodata with Some n => if g_at data r c =? n then cast (-99) else g_at data r c | None => g_at data r c end).
  intros x. destruct (x =? -99); [reflexivity|]. generalize (Num 1). clear. induction tbl as [|row tbl IH]; intros acc; [reflexivity|].
  cbn [map fold_left fst snd]. apply IH.
Qed.
Print Assumptions C81_shielding_model.

(** Whole numbers, "0.5" and the empty field, for the examples. *)
Definition digit (c : ascii) : option Z :=
  let n := Z.of_nat (nat_of_ascii c) in if (48 <=? n) && (n <=? 57) then Some (n - 48) else None.
Fixpoint whole (acc : Z) (s : str) : option Z :=
  match s with [] => Some acc | c :: t => match digit c with Some d => whole (10 * acc + d) t | None => None end end.
Definition simple_num (s : str) : option num :=
  match s with [] => Some NaN | _ => if str_eqb s (lit "0.5") then Some (Num (1#2)) else match whole 0 s with Some z => Some (Num (inject_Z z)) | None => None end end.

Definition ex_doc : list (line * line_end) :=
  [(Comment (lit " a table"), Newline); (Row (Plain (lit "SHIELDING")) [Plain (lit "CATEGORY"); Quoted (lit "DESCRIPTION"); Plain (lit "ROUGHNESS_LENGTH_m")] None, ReturnNewline);
   (Blank (lit "  "), ReturnNewline); (Row (Plain (lit "85")) [Plain (lit "1"); Quoted (lit "City, ""tall"" # old"); Plain (lit "2")] (Some (lit " remark")), ReturnNewline);
   (Row (Plain (lit "90")) [Plain (lit "2"); Plain (lit "Grass "); Plain (lit "0.5")] None, Newline)].
Definition ex_tail : option line := Some (Row (Plain (lit "80")) [Plain (lit "1"); Plain (lit "Towers")] (Some (lit "3,2"))).

Example C81_example :
  exists h ds, holds (write_file ex_doc ex_tail) h ds /\ within h ds /\ headed h "CATEGORY" 1 /\ headed h "ROUGHNESS_LENGTH_m" 3 /\ headed h "SHIELDING" 0 /\
    numeric simple_num 1 ds /\ numeric simple_num 3 ds /\ numeric simple_num 0 ds /\
    last_about simple_num 1 1 ds [lit "80"; lit "1"; lit "Towers"] /\
    terrain_table simple_num (fun x => x) (Some (write_file ex_doc ex_tail)) = Ok [(1, Num 2); (2, Num (1#2)); (1, NaN)] /\
    shielding_table simple_num (Some (write_file ex_doc ex_tail)) = Ok [(1, Num (85 / 100)); (2, Num (90 / 100)); (1, Num (80 / 100))].
Proof.
  eexists. eexists. split.
  { exists ex_doc, ex_tail. split; [reflexivity|]. split; [|reflexivity].
    intros l I. cbn in I.
    assert (B : forall (a : ascii) (s : str), existsb (Ascii.eqb a) s = false -> ~ In a s).
    { intros a s E J. rewrite <- not_true_iff_false in E. apply E. apply existsb_exists. exists a. split; [exact J|apply Ascii.eqb_refl]. }
    assert (P : forall s, existsb (Ascii.eqb sep) s = false -> existsb (Ascii.eqb sharp) s = false -> existsb (Ascii.eqb nl) s = false -> existsb (Ascii.eqb ret) s = false ->
      (match s with [] => true | c :: _ => negb (Ascii.eqb c dq) end) = true -> cell_ok (Plain s)).
    { intros s E1 E2 E3 E5 E4. repeat split; try (apply B; assumption). intros s' ->. cbn in E4. discriminate E4. }
    destruct I as [<-|[<-|[<-|[<-|[<-|[<-|[]]]]]]].
    - split; apply B; reflexivity.
    - split; [|split; [discriminate|exact I]]. repeat constructor; apply P; reflexivity.
    - intros x [<-|[<-|[]]]; left; reflexivity.
    - split; [|split; [discriminate|]]. { repeat constructor; apply P; reflexivity. } split; [apply B; reflexivity|]. split; [apply B; reflexivity|exact I].
    - split; [|split; [discriminate|exact I]]. repeat constructor; apply P; reflexivity.
    - split; [|split; [discriminate|]]. { repeat constructor; apply P; reflexivity. } split; [apply B; reflexivity|]. split; [apply B; reflexivity|exact I]. }
  split. { intros d [<-|[<-|[<-|[]]]]; left; cbn; lia. }
  split. { split; [reflexivity|]. intros [|j] L; [discriminate|lia]. }
  split. { split; [reflexivity|]. intros [|[|[|j]]] L; try discriminate; lia. }
  split. { split; [reflexivity|]. intros j L. lia. }
  split. { intros d [<-|[<-|[<-|[]]]]; eexists; reflexivity. }
  split. { intros d [<-|[<-|[<-|[]]]]; eexists; reflexivity. }
  split. { intros d [<-|[<-|[<-|[]]]]; eexists; reflexivity. }
  split. { eexists [_; _], []. split; [reflexivity|]. split; [|intros d []]. exists (inject_Z 1). split; reflexivity. }
  split; vm_compute; reflexivity.
Qed.

Example C81_bad_category_example :
  let text := lit "CATEGORY,ROUGHNESS_LENGTH_m,SHIELDING" ++ [nl] ++ lit "1,2,85" ++ [nl] ++ lit "2a,1,90" in
  terrain_table simple_num (fun x => x) (Some text) = Ok [] /\
  terrain_step simple_num (fun x => x) (fun x => x) (Some text) (Grid 2 2 (fun _ _ => 1)) 25 = Ok None.
Proof. split; vm_compute; reflexivity. Qed.
