(** * Lemmas for C99. *)
From Verif Require Import Base BaseLemmas PyStr UtilModel UtilSpec UtilProofs ImpSpec ImpModel.
Open Scope Z_scope.

(** ** The files of the repository *)
Definition utilities_modules := map lit ["blrb"; "config"; "convert"; "files"; "get_pixel_size_grid"; "meta"; "mpi_runner"; "nctools"; "parallel"; "shapefiles"; "value_lookup"; "vincenty"]%string.
Definition topographic_modules := map lit ["findpeaks"; "make_path"; "mh"; "multiplier_calc"; "topo_mult"]%string.
Definition roots := map lit ["all_multipliers"; "pre_process"; "rasterize"; "conf"; "shielding"; "terrain"; "topographic"; "utilities"; "tests"]%string.
Definition keys : list (list str) :=
  map (fun n => [n]) roots ++ map (fun n => [lit "utilities"; n]) utilities_modules ++ [dd "terrain" "terrain_mult"; dd "shielding" "shield_mult"] ++ map (fun n => [lit "topographic"; n]) topographic_modules.
Lemma keys_in k : repo_file k <> None <-> In k keys.
Proof.
  split.
  - intros H. destruct (in_dec name_eq k keys) as [I|I]; [exact I|]. elim H. clear H.
    unfold repo_file. repeat match goal with |- context [name_eq ?a ?b] => fail | |- context [list_eq_dec (list_eq_dec ascii_dec) k ?b] => destruct (list_eq_dec (list_eq_dec ascii_dec) k b) as [E|_]; [elim I; rewrite E; vm_compute; tauto|]
      | |- context [in_dec (list_eq_dec (list_eq_dec ascii_dec)) k ?l] => destruct (in_dec (list_eq_dec (list_eq_dec ascii_dec)) k l) as [E|_]; [elim I; cbn [In] in E; repeat (destruct E as [<-|E]; [vm_compute; tauto|]); destruct E|] end.
    reflexivity.
  - intros I. assert (F : forallb (fun k => match repo_file k with Some _ => true | None => false end) keys = true) by (vm_compute; reflexivity).
    rewrite forallb_forall in F. specialize (F k I). destruct (repo_file k); congruence.
Qed.
Definition all_stmts : list stmt := flat_map (fun k => match repo_file k with Some (ss, _) => ss | None => [] end) keys.
Lemma stmts_in k ss defs : repo_file k = Some (ss, defs) -> forall s, In s ss -> In s all_stmts.
Proof.
  intros E s I. apply in_flat_map. exists k. split; [apply keys_in; congruence|]. rewrite E. exact I.
Qed.
Lemma top_root n : top_of Root n <-> repo_file [n] <> None.
Proof.
  rewrite keys_in. cbn [top_of]. unfold keys. rewrite in_app_iff, in_map_iff. split.
  - intros I. left. exists n. split; [reflexivity|exact I].
  - intros [(x & E & I)|I]; [injection E as <-; exact I|]. rewrite !in_app_iff, !in_map_iff in I. destruct I as [(x & E & _)|[[E|[E|[]]]|(x & E & _)]]; discriminate.
Qed.
Lemma top_inside p n : top_of (Inside p) n <-> repo_file [p; n] <> None.
Proof.
  rewrite keys_in. cbn [top_of]. unfold keys. rewrite !in_app_iff, !in_map_iff. cbn [In]. split.
  - intros [[-> I]|[[-> ->]|[[-> ->]|[-> I]]]].
    + right; left. exists n. split; [reflexivity|exact I].
    + right; right; left. left. reflexivity.
    + right; right; left. right; left. reflexivity.
    + right; right; right. exists n. split; [reflexivity|exact I].
  - intros [(x & E & _)|[(x & E & I)|[[E|[E|[]]]|(x & E & I)]]]; [discriminate| | | |]; injection E as <- <-; [left; split; [reflexivity|exact I]|right; left; auto|right; right; left; auto|right; right; right; split; [reflexivity|exact I]].
Qed.
Definition target_of (p : place) (n : str) : target := match p with Root => Own [n] | Inside q => Own [q; n] | Elsewhere has => Foreign has end.
Lemma find_first path n p : first_with n path p -> find_module path n = Some (target_of p n).
Proof.
  induction 1 as [p path T|p path q T F IH]; destruct p as [|r|has]; cbn [find_module target_of].
  - apply top_root in T. destruct (repo_file [n]); [reflexivity|contradiction].
  - apply top_inside in T. destruct (repo_file [r; n]); [reflexivity|contradiction].
  - cbn [top_of] in T. rewrite T. reflexivity.
  - rewrite top_root in T. destruct (repo_file [n]); [elim T; discriminate|exact IH].
  - rewrite top_inside in T. destruct (repo_file [r; n]); [elim T; discriminate|exact IH].
  - cbn [top_of] in T. destruct (has [n]); [congruence|exact IH].
Qed.
Lemma find_none path n : find_module path n = None <-> forall p, In p path -> ~ top_of p n.
Proof.
  induction path as [|p path IH]; [split; [intros _ p []|reflexivity]|].
  assert (D : find_module (p :: path) n = None <-> ~ top_of p n /\ find_module path n = None).
  { destruct p as [|r|has]; cbn [find_module].
    - rewrite top_root. destruct (repo_file [n]); [split; [discriminate|intros [H _]; elim H; discriminate]|tauto].
    - rewrite top_inside. destruct (repo_file [r; n]); [split; [discriminate|intros [H _]; elim H; discriminate]|tauto].
    - cbn [top_of]. destruct (has [n]); [split; [discriminate|intros [H _]; elim H; reflexivity]|]. split; [intros H; split; [discriminate|exact H]|tauto]. }
  rewrite D, IH. split; [intros [A B] q [<-|I]; [exact A|exact (B q I)]|]. intros H. split; [apply H; left; reflexivity|intros q I; apply H; right; exact I].
Qed.
Lemma find_some path n t : find_module path n = Some t -> exists p, first_with n path p /\ t = target_of p n.
Proof.
  induction path as [|p path IH]; [discriminate|]. destruct p as [|r|has]; cbn [find_module].
  - destruct (repo_file [n]) eqn:E; [intros H; injection H as <-; exists Root; split; [apply First_here, top_root; congruence|reflexivity]|].
    intros H. destruct (IH H) as (p & F & ->). exists p. split; [|reflexivity]. apply First_later; [rewrite top_root; congruence|exact F].
  - destruct (repo_file [r; n]) eqn:E; [intros H; injection H as <-; exists (Inside r); split; [apply First_here, top_inside; congruence|reflexivity]|].
    intros H. destruct (IH H) as (p & F & ->). exists p. split; [|reflexivity]. apply First_later; [rewrite top_inside; congruence|exact F].
  - destruct (has [n]) eqn:E; [intros H; injection H as <-; exists (Elsewhere has); split; [apply First_here; exact E|reflexivity]|].
    intros H. destruct (IH H) as (p & F & ->). exists p. split; [|reflexivity]. apply First_later; [cbn [top_of]; congruence|exact F].
Qed.
Lemma first_top n path p : first_with n path p -> top_of p n /\ In p path.
Proof. induction 1 as [p path T|p path q T F [IH1 IH2]]; [split; [exact T|left; reflexivity]|split; [exact IH1|right; exact IH2]]. Qed.

(** ** Imports depend on the path through the statements alone *)
Definition mod_of (s : stmt) : list str := match s with Imp m _ => m | From m _ => m end.
Definition wanted (s : stmt) : list str := match s with Imp _ _ => [] | From _ xs => map fst xs end.
Definition agree (f1 f2 : str -> option target) (s : stmt) : Prop :=
  let m := mod_of s in m <> [] /\
  match f1 (hd [] m), f2 (hd [] m) with
  | None, None => True
  | Some (Own a), Some (Own b) => a = b
  | Some (Foreign h1), Some (Foreign h2) => h1 m = h2 m /\ forall x, In x (wanted s) -> h1 (m ++ [x]) = h2 (m ++ [x])
  | _, _ => False
  end.
Definition own (f : str -> option target) (n : str) : option (list str) := match f n with Some (Own k) => Some k | _ => None end.
Lemma fold_ext {A B} (f g : A -> B -> A) l : (forall a b, In b l -> f a b = g a b) -> forall a, fold_left f l a = fold_left g l a.
Proof. induction l as [|b l IH]; intros H a; [reflexivity|]. cbn [fold_left]. rewrite (H a b (or_introl eq_refl)). apply IH. intros a' b' I. apply H. right. exact I. Qed.
Section Agree.
  Variables f1 f2 : str -> option target.
  Lemma exec_agree l1 l2 me s st : agree f1 f2 s -> (forall st m, own f1 (hd [] m) = own f2 (hd [] m) -> l1 st m = l2 st m) -> exec f1 l1 me st s = exec f2 l2 me st s.
  Proof.
    intros [N A] L. unfold exec. destruct st as [st|f]; [|reflexivity]. destruct s as [m y|m xs]; cbn [mod_of wanted] in *.
    - destruct (f1 (hd [] m)) as [[a|h1]|] eqn:E1, (f2 (hd [] m)) as [[b|h2]|] eqn:E2; try contradiction; [|destruct A as [-> _]; reflexivity|reflexivity].
      rewrite (L st m) by (unfold own; rewrite E1, E2; congruence). reflexivity.
    - destruct (f1 (hd [] m)) as [[a|h1]|] eqn:E1, (f2 (hd [] m)) as [[b|h2]|] eqn:E2; try contradiction; [| |reflexivity].
      + rewrite (L st m) by (unfold own; rewrite E1, E2; congruence). destruct (l2 st m) as [st'|f]; [|reflexivity]. apply fold_ext. intros [st2|f] [x z] I; [|reflexivity]. unfold from_one.
        destruct (get_loaded m st2) as [[key names]|]; [|reflexivity]. destruct (get_name x names); [reflexivity|]. destruct (repo_file (key ++ [x])); [|reflexivity].
        rewrite (L st2 (m ++ [x])); [reflexivity|]. destruct m as [|n m]; [contradiction|]. cbn [app hd] in *. unfold own. rewrite E1, E2. congruence.
      + destruct A as [-> A]. destruct (h2 m); [|reflexivity]. apply fold_ext. intros [st2|f] [x z] I; [|reflexivity]. cbn [fst snd]. rewrite A; [reflexivity|]. apply (in_map fst) in I. exact I.
  Qed.
  Hypothesis AG : forall s, In s all_stmts -> agree f1 f2 s.
  Lemma run_agree l1 l2 me key st : (forall st m, own f1 (hd [] m) = own f2 (hd [] m) -> l1 st m = l2 st m) -> run_file f1 l1 me key st = run_file f2 l2 me key st.
  Proof using AG.
    intros L. unfold run_file. destruct (repo_file key) as [[ss defs]|] eqn:E; [|reflexivity].
    rewrite (fold_ext (exec f1 l1 me) (exec f2 l2 me) ss); [reflexivity|]. intros st' s I. apply exec_agree; [apply AG; exact (stmts_in key ss defs E s I)|exact L].
  Qed.
  Lemma load_agree fuel : forall st m, own f1 (hd [] m) = own f2 (hd [] m) -> load f1 fuel st m = load f2 fuel st m.
  Proof using AG.
    induction fuel as [|fuel IH]; intros st m O; [reflexivity|]. cbn [load]. destruct (get_loaded m st); [reflexivity|]. destruct m as [|n [|b [|c m]]]; cbn [hd] in O; [reflexivity| | |reflexivity].
    - unfold own in O. destruct (f1 n) as [[a|h1]|], (f2 n) as [[c|h2]|]; try discriminate; try reflexivity. injection O as ->. apply run_agree. exact IH.
    - match goal with |- match ?a with _ => _ end = match ?b with _ => _ end => replace a with b by (symmetry; exact (IH st [n] O)) end.
      match goal with |- match ?a with _ => _ end = _ => destruct a as [st'|] end; [|reflexivity].
      match goal with |- match ?a with _ => _ end = _ => destruct a as [[key names]|] end; [|reflexivity].
      match goal with |- match ?a with _ => _ end = _ => destruct a end; [reflexivity|]. apply run_agree. exact IH.
  Qed.
  Lemma start_agree fuel me key st : run_file f1 (load f1 fuel) me key st = run_file f2 (load f2 fuel) me key st.
  Proof using AG. apply run_agree. apply load_agree. Qed.
End Agree.

(** ** The same answers in computable form *)
Definition same (f1 f2 : str -> option target) : Prop := forall n,
  match f1 n, f2 n with
  | None, None => True
  | Some (Own a), Some (Own b) => a = b
  | Some (Foreign h1), Some (Foreign h2) => forall q, h1 q = h2 q
  | _, _ => False
  end.
Lemma same_agree f1 f2 : same f1 f2 -> forall s, In s all_stmts -> agree f1 f2 s.
Proof.
  intros S s I. split.
  - assert (F : forallb (fun s => match mod_of s with [] => false | _ => true end) all_stmts = true) by (vm_compute; reflexivity).
    rewrite forallb_forall in F. specialize (F s I). destruct (mod_of s); congruence.
  - specialize (S (hd [] (mod_of s))). destruct (f1 (hd [] (mod_of s))) as [[a|h1]|], (f2 (hd [] (mod_of s))) as [[b|h2]|]; try contradiction; auto.
Qed.
Definition prefixes : list (list str) := flat_map (fun q => map (fun k => firstn k q) (seq 1 (length q))) needed.
Definition heads : list str := map (hd []) needed.
Definition stranger (f : str -> option target) (n : str) : list str -> bool := match f n with Some (Foreign h) => h | _ => fun _ => false end.
Definition libs (f : str -> option target) (tops : list (str * list str)) : str -> option target := fun n =>
  if in_dec (list_eq_dec ascii_dec) n heads then Some (Foreign (fun q => if in_dec name_eq q prefixes then if list_eq_dec ascii_dec (hd [] q) n then true else stranger f n q else stranger f n q))
  else match find (fun o => if list_eq_dec ascii_dec (fst o) n then true else false) tops with Some o => Some (Own (snd o)) | None => f n end.
Inductive answer := Absent | Mine (key : list str) | Strange (bs : list bool).
Definition answer_target (n : str) (names : list (list str)) (h : list str -> bool) (a : answer) : option target :=
  match a with
  | Absent => None
  | Mine key => Some (Own key)
  | Strange bs => Some (Foreign (fun q => match find (fun o => if name_eq (fst o) q then true else false) (combine (map (cons n) ([] :: names)) (true :: bs)) with Some o => snd o | None => h q end))
  end.
Definition answer_of (n : str) (names : list (list str)) (t : option target) : answer :=
  match t with None => Absent | Some (Own key) => Mine key | Some (Foreign has) => Strange (map (fun q => has (n :: q)) names) end.
Definition over (n0 : str) (t : option target) (f : str -> option target) : str -> option target := fun n => if list_eq_dec ascii_dec n n0 then t else f n.
Lemma same_refl (f : str -> option target) n : match f n, f n with None, None => True | Some (Own a), Some (Own b) => a = b | Some (Foreign h1), Some (Foreign h2) => forall q : list str, h1 q = h2 q | _, _ => False end.
Proof. destruct (f n) as [[a|h]|]; auto. Qed.
Lemma same_over f g n names : same f g -> (forall h, f n = Some (Foreign h) -> h [n] = true) ->
  same f (over n (answer_target n names (stranger f n) (answer_of n names (f n))) g).
Proof.
  intros S H k. unfold over. destruct (list_eq_dec ascii_dec k n) as [->|_]; [|exact (S k)]. unfold stranger. destruct (f n) as [[a|h]|]; cbn [answer_of answer_target]; [reflexivity| |exact Logic.I].
  intros q. specialize (H h eq_refl). assert (G : forall l, (forall o, In o l -> h (fst o) = snd o) -> h q = match find (fun o => if name_eq (fst o) q then true else false) l with Some o => snd o | None => h q end).
  { induction l as [|o l IH]; intros A; [reflexivity|]. cbn [find]. destruct (name_eq (fst o) q) as [E|_]; [rewrite <- E; apply A; left; reflexivity|]. apply IH. intros o' I. apply A. right. exact I. }
  apply G. clear G. intros o I. cbn [map combine] in I. destruct I as [<-|I]; [exact H|]. induction names as [|a names IH]; [destruct I|]. cbn [map combine] in I. destruct I as [<-|I]; [reflexivity|]. exact (IH I).
Qed.
Lemma same_libs path tops : installed path -> (forall n key, In (n, key) tops -> find_module path n = Some (Own key)) -> same (find_module path) (libs (find_module path) tops).
Proof.
  intros I T n. unfold libs. destruct (in_dec (list_eq_dec ascii_dec) n heads) as [J|J].
  - apply in_map_iff in J. destruct J as (q & E & J). destruct (I q J) as (has & F & H). rewrite E in F. apply find_first in F. cbn [target_of] in F.
    unfold stranger. rewrite F. intros r. destruct (in_dec name_eq r prefixes) as [P|_]; [|reflexivity]. destruct (list_eq_dec ascii_dec (hd [] r) n) as [Er|_]; [|reflexivity].
    apply in_flat_map in P. destruct P as (q' & J' & P). apply in_map_iff in P. destruct P as (k & <- & K). apply in_seq in K. destruct (I q' J') as (has' & F' & H').
    assert (E' : hd [] q' = n). { destruct q' as [|x q']; [cbn in K; lia|]. destruct k as [|k]; [lia|]. exact Er. }
    rewrite E' in F'. apply find_first in F'. rewrite F in F'. cbn [target_of] in F'. injection F' as ->. apply H'. lia.
  - destruct (find (fun o => if list_eq_dec ascii_dec (fst o) n then true else false) tops) as [[n' key]|] eqn:F; [|apply same_refl].
    apply List.find_some in F. destruct F as [F E]. cbn [fst] in E. destruct (list_eq_dec ascii_dec n' n) as [->|]; [|discriminate]. cbn [snd]. rewrite (T n key F). reflexivity.
Qed.
Lemma find_has path n h : find_module path n = Some (Foreign h) -> h [n] = true.
Proof. intros E. apply find_some in E. destruct E as (p & F & T). apply first_top in F. destruct F as [F _]. destruct p; try discriminate. injection T as <-. exact F. Qed.
Lemma root_find rest n : In n roots -> find_module (Root :: rest) n = Some (Own [n]).
Proof. intros I. exact (find_first (Root :: rest) n Root (First_here n Root rest I)). Qed.

(** ** The programs *)
Definition n_meta := lit "meta".
Definition n_convert := lit "convert".
Definition n_parallel := lit "parallel".
Definition n_utilities := lit "utilities".
Definition meta_names : list (list str) := [ds "print_call"].
Definition convert_names : list (list str) := [ds "Converter"; ds "create_sub_dirs_for_convert"].
Definition parallel_names : list (list str) := [ds "attempt_parallel"].
Definition utilities_names : list (list str) := [ds "convert"; dd "convert" "Converter"; dd "convert" "create_sub_dirs_for_convert"; ds "parallel"; dd "parallel" "attempt_parallel"].
Definition own_roots : list (str * list str) := map (fun n => (n, [n])) roots.
Definition canon (f : str -> option target) (hm hc hp : list str -> bool) (m c p : answer) : str -> option target :=
  over n_meta (answer_target n_meta meta_names hm m) (over n_convert (answer_target n_convert convert_names hc c) (over n_parallel (answer_target n_parallel parallel_names hp p) (libs f own_roots))).
Definition good (a : answer) : bool := match a with Absent => false | Mine _ => true | Strange bs => forallb id bs end.
Definition started (r : loaded + failure) : bool := match r with inl _ => true | inr _ => false end.
Definition bound (r : loaded + failure) (m : list str) (x : str) : option origin := match r with inl st => name_in st m x | inr _ => None end.
Definition made (n x : str) (a : answer) : option origin := match a with Mine _ => Some (Made [n] x) | Strange _ => Some (Library [n; x]) | Absent => None end.
Definition bools (n : nat) : list (list bool) := Nat.iter n (fun l => map (cons true) l ++ map (cons false) l) [[]].
Definition answers (n : str) (k : nat) : list answer := Absent :: Mine [n_utilities; n] :: map Strange (bools k).
Lemma in_bools bs : In bs (bools (length bs)).
Proof. induction bs as [|b bs IH]; [left; reflexivity|]. cbn [length bools Nat.iter]. apply in_or_app. destruct b; [left|right]; apply in_map; exact IH. Qed.
Lemma in_answers path n names : (forall p, top_of p n -> p = Inside n_utilities \/ exists h, p = Elsewhere h) -> In (answer_of n names (find_module path n)) (answers n (length names)).
Proof.
  intros H. unfold answers. destruct (find_module path n) as [t|] eqn:E; [|left; reflexivity]. right. apply find_some in E. destruct E as (p & F & ->). apply first_top in F. destruct F as [F _].
  destruct (H p F) as [->|[h ->]]; cbn [target_of answer_of]; [left; reflexivity|]. right. apply in_map. rewrite <- (map_length (fun q => h (n :: q)) names). apply in_bools.
Qed.
Lemma meta_places p : top_of p n_meta -> p = Inside n_utilities \/ exists h, p = Elsewhere h.
Proof. destruct p as [|q|h]; [|intros H|eauto]; [cbn; intuition discriminate|]. left. f_equal. cbn in H. intuition (try discriminate; auto). Qed.
Lemma convert_places p : top_of p n_convert -> p = Inside n_utilities \/ exists h, p = Elsewhere h.
Proof. destruct p as [|q|h]; [|intros H|eauto]; [cbn; intuition discriminate|]. left. f_equal. cbn in H. intuition (try discriminate; auto). Qed.
Lemma parallel_places p : top_of p n_parallel -> p = Inside n_utilities \/ exists h, p = Elsewhere h.
Proof. destruct p as [|q|h]; [|intros H|eauto]; [cbn; intuition discriminate|]. left. f_equal. cbn in H. intuition (try discriminate; auto). Qed.

Lemma same_canon rest : installed (Root :: rest) -> let f := find_module (Root :: rest) in
  same f (canon f (stranger f n_meta) (stranger f n_convert) (stranger f n_parallel) (answer_of n_meta meta_names (f n_meta)) (answer_of n_convert convert_names (f n_convert)) (answer_of n_parallel parallel_names (f n_parallel))).
Proof.
  intros I f. unfold canon. apply same_over; [|apply find_has]. apply same_over; [|apply find_has]. apply same_over; [|apply find_has].
  apply same_libs; [exact I|]. intros n key J. unfold own_roots in J. apply in_map_iff in J. destruct J as (x & E & J). injection E as <- <-. apply root_find. exact J.
Qed.
Definition origin_dec (a b : option origin) : {a = b} + {a <> b}.
Proof. repeat decide equality. Defined.
Definition binds (r : loaded + failure) (m : list str) (x : str) (o : option origin) : bool := if origin_dec (bound r m x) o then true else false.
Lemma binds_true r m x o : binds r m x o = true -> bound r m x = o.
Proof. unfold binds. destruct (origin_dec (bound r m x) o); [auto|discriminate]. Qed.
Definition run_all (f : str -> option target) (hm hc hp : list str -> bool) (m c p : answer) : loaded + failure :=
  let g := canon f hm hc hp m c p in run_file g (load g 60) main (ds "all_multipliers") [].
Definition check (r : loaded + failure) (m c p : answer) : bool :=
  (Bool.eqb (started r) (good m && good c && good p) &&
   match m with Absent => match r with inr (NotFound [n]) => if list_eq_dec ascii_dec n n_meta then true else false | _ => false end | _ => true end &&
   (if started r then
     binds r (dd "utilities" "blrb") (lit "print_call") (made n_meta (lit "print_call") m) &&
     binds r (dd "utilities" "mpi_runner") (lit "Converter") (made n_convert (lit "Converter") c) &&
     binds r (dd "utilities" "mpi_runner") (lit "create_sub_dirs_for_convert") (made n_convert (lit "create_sub_dirs_for_convert") c) &&
     binds r (dd "utilities" "mpi_runner") (lit "attempt_parallel") (made n_parallel (lit "attempt_parallel") p) &&
     binds r main (lit "attempt_parallel") (Some (Made (dd "utilities" "parallel") (lit "attempt_parallel"))) &&
     binds r main (lit "disable_on_workers") (Some (Made (dd "utilities" "parallel") (lit "disable_on_workers")))
    else true))%bool.
Lemma checked f hm hc hp : forallb (fun m => forallb (fun c => forallb (fun p => check (run_all f hm hc hp m c p) m c p) (answers n_parallel 1)) (answers n_convert 2)) (answers n_meta 1) = true.
Proof. vm_compute. reflexivity. Qed.
Lemma check_spec r m c p : check r m c p = true ->
  started r = (good m && good c && good p)%bool /\ (m = Absent -> r = inr (NotFound [n_meta])) /\
  (started r = true ->
    bound r (dd "utilities" "blrb") (lit "print_call") = made n_meta (lit "print_call") m /\
    bound r (dd "utilities" "mpi_runner") (lit "Converter") = made n_convert (lit "Converter") c /\
    bound r (dd "utilities" "mpi_runner") (lit "create_sub_dirs_for_convert") = made n_convert (lit "create_sub_dirs_for_convert") c /\
    bound r (dd "utilities" "mpi_runner") (lit "attempt_parallel") = made n_parallel (lit "attempt_parallel") p /\
    bound r main (lit "attempt_parallel") = Some (Made (dd "utilities" "parallel") (lit "attempt_parallel")) /\
    bound r main (lit "disable_on_workers") = Some (Made (dd "utilities" "parallel") (lit "disable_on_workers"))).
Proof.
  unfold check. intros K. apply andb_true_iff in K. destruct K as [K K3]. apply andb_true_iff in K. destruct K as [K1 K2].
  split; [apply Bool.eqb_prop; exact K1|]. split.
  - intros ->. destruct r as [st|[[|n [|n' l]]|l x|]]; try discriminate. destruct (list_eq_dec ascii_dec n n_meta) as [->|]; [reflexivity|discriminate].
  - intros S. rewrite S in K3. rewrite !andb_true_iff in K3. destruct K3 as [[[[[A1 A2] A3] A4] A5] A6].
    split; [exact (binds_true _ _ _ _ A1)|]. split; [exact (binds_true _ _ _ _ A2)|]. split; [exact (binds_true _ _ _ _ A3)|]. split; [exact (binds_true _ _ _ _ A4)|]. split; [exact (binds_true _ _ _ _ A5)|exact (binds_true _ _ _ _ A6)].
Qed.
Lemma computed f hm hc hp m c p : In m (answers n_meta 1) -> In c (answers n_convert 2) -> In p (answers n_parallel 1) -> check (run_all f hm hc hp m c p) m c p = true.
Proof.
  intros M C P.
  exact (proj1 (forallb_forall _ _) (proj1 (forallb_forall _ _) (proj1 (forallb_forall _ _) (checked f hm hc hp) m M) c C) p P).
Qed.

(** pre_process.py and rasterize.py *)
Definition run_own (f : str -> option target) (key : list str) : loaded + failure := let g := libs f own_roots in run_file g (load g 60) main key [].
Lemma checked_own f : (started (run_own f (ds "pre_process")) && started (run_own f (ds "rasterize")))%bool = true.
Proof. vm_compute. reflexivity. Qed.
Lemma same_own rest : installed (Root :: rest) -> same (find_module (Root :: rest)) (libs (find_module (Root :: rest)) own_roots).
Proof. intros I. apply same_libs; [exact I|]. intros n key J. unfold own_roots in J. apply in_map_iff in J. destruct J as (x & E & J). injection E as <- <-. apply root_find. exact J. Qed.

(** mpi_runner.py as a program *)
Definition own_utilities : list (str * list str) := map (fun n => (n, [n_utilities; n])) utilities_modules.
Definition run_mpi (f : str -> option target) (h : list str -> bool) (a : answer) : loaded + failure :=
  let g := over n_utilities (answer_target n_utilities utilities_names h a) (libs f own_utilities) in run_file g (load g 60) main (dd "utilities" "mpi_runner") [].
Definition check_mpi (r : loaded + failure) (a : answer) : bool :=
  (Bool.eqb (started r) (good a) &&
   (if started r then binds r main (lit "Converter") (Some (Made [n_convert] (lit "Converter"))) && binds r main (lit "attempt_parallel") (Some (Made [n_parallel] (lit "attempt_parallel"))) else true))%bool.
Definition mpi_answers : list answer := Absent :: Mine [n_utilities] :: map Strange (bools 5).
Lemma checked_mpi f h : forallb (fun a => check_mpi (run_mpi f h a) a) mpi_answers = true.
Proof. vm_compute. reflexivity. Qed.
Lemma utilities_places p : top_of p n_utilities -> p = Root \/ exists h, p = Elsewhere h.
Proof. destruct p as [|q|h]; [auto|intros H|eauto]. cbn in H. intuition discriminate. Qed.
Lemma in_mpi_answers path : In (answer_of n_utilities utilities_names (find_module path n_utilities)) mpi_answers.
Proof.
  unfold mpi_answers. destruct (find_module path n_utilities) as [t|] eqn:E; [|left; reflexivity]. right. apply find_some in E. destruct E as (p & F & ->). apply first_top in F. destruct F as [F _].
  destruct (utilities_places p F) as [->|[h ->]]; cbn [target_of answer_of]; [left; reflexivity|]. right. apply in_map. exact (in_bools (map (fun q => h (n_utilities :: q)) utilities_names)).
Qed.
Lemma same_mpi rest : installed (Inside n_utilities :: rest) -> let f := find_module (Inside n_utilities :: rest) in
  same f (over n_utilities (answer_target n_utilities utilities_names (stranger f n_utilities) (answer_of n_utilities utilities_names (f n_utilities))) (libs f own_utilities)).
Proof.
  intros I f. apply same_over; [|apply find_has]. apply same_libs; [exact I|]. intros n key J. unfold own_utilities in J. apply in_map_iff in J. destruct J as (x & E & J). injection E as <- <-.
  apply (find_first (Inside n_utilities :: rest) x (Inside n_utilities)). apply First_here. left. split; [reflexivity|exact J].
Qed.
Lemma start_all rest : installed (Root :: rest) -> let f := find_module (Root :: rest) in
  all_multipliers_py (Root :: rest) = run_all f (stranger f n_meta) (stranger f n_convert) (stranger f n_parallel) (answer_of n_meta meta_names (f n_meta)) (answer_of n_convert convert_names (f n_convert)) (answer_of n_parallel parallel_names (f n_parallel)).
Proof. intros I f. apply start_agree. apply same_agree. exact (same_canon rest I). Qed.
Lemma start_own rest key : installed (Root :: rest) -> start (Root :: rest) key = run_own (find_module (Root :: rest)) key.
Proof. intros I. apply start_agree. apply same_agree. exact (same_own rest I). Qed.
Lemma start_mpi rest : installed (Inside n_utilities :: rest) -> let f := find_module (Inside n_utilities :: rest) in
  mpi_runner_py (Inside n_utilities :: rest) = run_mpi f (stranger f n_utilities) (answer_of n_utilities utilities_names (f n_utilities)).
Proof. intros I f. apply start_agree. apply same_agree. exact (same_mpi rest I). Qed.
Lemma skip_root rest n : ~ top_of Root n -> find_module (Root :: rest) n = find_module rest n.
Proof. rewrite top_root. intros H. cbn [find_module]. destruct (repo_file [n]); [elim H; discriminate|reflexivity]. Qed.
Lemma all_checked rest : installed (Root :: rest) ->
  let a n names := answer_of n names (find_module rest n) in
  check (all_multipliers_py (Root :: rest)) (a n_meta meta_names) (a n_convert convert_names) (a n_parallel parallel_names) = true.
Proof.
  intros I a. rewrite (start_all rest I). unfold a. rewrite <- !(skip_root rest) by (cbn; intuition discriminate). apply computed; [apply (in_answers _ _ meta_names)|apply (in_answers _ _ convert_names)|apply (in_answers _ _ parallel_names)]; auto using meta_places, convert_places, parallel_places.
Qed.
Lemma good_offers rest n names : (forall p, top_of p n -> p = Inside n_utilities \/ exists h, p = Elsewhere h) ->
  (good (answer_of n (map (fun x => [x]) names) (find_module rest n)) = true <-> offers rest n names).
Proof.
  intros H. unfold offers. split.
  - intros G. destruct (find_module rest n) as [t|] eqn:E; [|discriminate]. apply find_some in E. destruct E as (p & F & ->). pose proof (proj1 (first_top _ _ _ F)) as T.
    destruct (H p T) as [->|[h ->]]; [left; exact F|]. right. exists h. split; [exact F|]. cbn [target_of answer_of good] in G. rewrite forallb_forall in G. intros x J. apply (G (h [n; x])). rewrite map_map. apply (in_map (fun y => h [n; y])). exact J.
  - intros [F|(h & F & X)]; rewrite (find_first _ _ _ F); cbn [target_of answer_of good]; [reflexivity|]. apply forallb_forall. intros b J. rewrite map_map in J. apply in_map_iff in J. destruct J as (x & <- & J). apply X. exact J.
Qed.
