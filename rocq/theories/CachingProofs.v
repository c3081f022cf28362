(** Proofs about the cache files of Pretty.v. *)
From Verif Require Import Base PySort PyText PyExpr PyExprProofs SpecData Pretty PrettyProofs.
Set Implicit Arguments.

Lemma prefix_cases {A} (p more a b : list A) : p ++ more = a ++ b ->
  (exists l, a = p ++ l /\ more = l ++ b /\ l <> []) \/ (exists l, p = a ++ l /\ b = l ++ more).
Proof.
  revert a. induction p as [|x p IH]; intros a; cbn.
  - intros ->. destruct a as [|y a]; [right; exists []; easy | left; exists (y :: a); easy].
  - destruct a as [|y a]; cbn.
    + intros <-. right. exists (x :: p). easy.
    + intros E. inv E. destruct (IH a ltac:(assumption)) as [[l [-> H]]|[l [-> H]]]; [left | right]; eauto.
Qed.

Section Caching.
Variable printable : N -> bool.

Definition line (name t : pystr) : pystr := name ++ $" = " ++ t ++ [NEWLINE].

Lemma span_space t : good_start t -> span (fun c => c == 32%N) t = ([], t).
Proof.
  intros [c [r [-> Hc]]]. cbn [span]. destruct (eqb_reflect c 32%N) as [->|_]; [discriminate Hc | easy].
Qed.

Lemma read_module_name fuel name r : is_identifier name = true ->
  read_module (S fuel) (name ++ $" = " ++ r) =
  match read fuel (snd (span (fun c => c == 32%N) r)) with
  | None => None
  | Some (e, []) => Some [(name, e)]
  | Some (e, c :: r') =>
      if c == NEWLINE then option_map (cons (name, e)) (read_module fuel r') else None
  end.
Proof.
  intros H. destruct name as [|c name]; [easy|]. set (n := c :: name) in *.
  assert (E : span is_ident_char (n ++ $" = " ++ r) = (n, $" = " ++ r)).
  { apply span_app; [now apply identifier_chars | easy]. }
  change (n ++ $" = " ++ r) with (c :: (name ++ $" = " ++ r)) at 1.
  cbn [read_module]. change (c :: (name ++ $" = " ++ r)) with (n ++ $" = " ++ r).
  rewrite E. cbn [fst snd]. rewrite H.
  change (span (fun c => c == 32%N) ($" = " ++ r)) with ([32%N], 61%N :: 32%N :: r). cbn [snd].
  change (61%N == 61%N) with true. cbn iota.
  change (snd (span (fun c0 : N => c0 == 32%N) (32%N :: r))) with (snd (span (fun c0 : N => c0 == 32%N) r)). reflexivity.
Qed.

(** What reading a cut file can give, as far as its first line is concerned *)
Lemma read_module_cut fuel p more name t e rest bs :
  is_identifier name = true -> shows printable e t ->
  p ++ more = line name t ++ rest -> read_module (S fuel) p = Some bs ->
  bs = []
  \/ (exists e' t' cut, bs = [(name, e')] /\ p = name ++ $" = " ++ t' /\ t = t' ++ cut /\ read fuel t' = Some (e', []))
  \/ (exists p' bs', p = line name t ++ p' /\ p' ++ more = rest /\ bs = (name, e) :: bs' /\ read_module fuel p' = Some bs').
Proof.
  intros Hn Hs E R. unfold line in *.
  assert (E' : p ++ more = name ++ $" = " ++ t ++ NEWLINE :: rest).
  { rewrite E, <- !app_assoc. reflexivity. }
  clear E. destruct (prefix_cases _ _ _ _ E') as [[l [En [_ Nl]]]|[p1 [-> E1]]].
  - (* cut within the name *)
    destruct p as [|c p]; [left; cbn in R; congruence|]. exfalso.
    assert (Hp : forallb is_ident_char (c :: p) = true).
    { apply identifier_chars in Hn. rewrite En, forallb_app in Hn. now apply andb_true_iff in Hn as [-> _]. }
    pose proof (span_app is_ident_char (c :: p) [] Hp eq_refl) as Hsp. rewrite app_nil_r in Hsp.
    cbn [read_module] in R. rewrite Hsp in R. cbn [fst snd span] in R. destruct (is_identifier (c :: p)); discriminate R.
  - destruct p1 as [|c1 p1].
    { exfalso. rewrite app_nil_r in R. destruct name as [|c name]; [easy|].
      pose proof (span_app is_ident_char (c :: name) [] (identifier_chars _ Hn) eq_refl) as Hsp. rewrite app_nil_r in Hsp.
      cbn [read_module] in R. rewrite Hsp in R. cbn [fst snd span] in R. destruct (is_identifier _); discriminate R. }
    cbn [app] in E1. injection E1 as <- E1. destruct p1 as [|c2 p1].
    { exfalso. destruct name as [|c name]; [easy|].
      pose proof (span_app is_ident_char (c :: name) [32%N] (identifier_chars _ Hn) eq_refl) as Hsp.
      cbn [read_module app] in R, Hsp. rewrite Hsp in R. cbn [fst snd span] in R. 
      change (32%N == 32%N) with true in R. cbn in R. destruct (is_letter c && _); discriminate R. }
    injection E1 as <- E1. destruct p1 as [|c3 p1].
    { exfalso. destruct name as [|c name]; [easy|].
      pose proof (span_app is_ident_char (c :: name) [32%N; 61%N] (identifier_chars _ Hn) eq_refl) as Hsp.
      cbn [read_module app] in R, Hsp. rewrite Hsp in R. cbn [fst snd] in R. rewrite Hn in R.
      change (snd (span (fun c => c == 32%N) [32%N; 61%N])) with [61%N] in R. cbn iota in R.
      change (61%N == 61%N) with true in R. cbn [snd span] in R. destruct fuel; discriminate R. }
    injection E1 as <- E1. change (32%N :: 61%N :: 32%N :: p1) with ($" = " ++ p1) in *.
    rewrite read_module_name in R by assumption.
    assert (Hsp : span (fun c => c == 32%N) p1 = ([], p1)).
    { destruct p1 as [|c p1]; [easy|]. pose proof (proj1 (shows_start_all printable) _ _ Hs) as [d [r [Et Hd]]].
      rewrite Et in E1. cbn [app] in E1. injection E1 as <- _. apply span_space. now exists d, p1. }
    rewrite Hsp in R. cbn [snd] in R.
    destruct (@shows_read_rest printable e t (NEWLINE :: rest) Hs eq_refl) as [n0 Hfull].
    destruct (read fuel p1) as [[e' [|c r]]|] eqn:Er; [| |easy].
    + inv R. right. left.
      symmetry in E1. destruct (prefix_cases _ _ _ _ E1) as [[l [Et _]]|[l [Ep El]]].
      * exists e', p1, l. auto.
      * exists e', p1, (@nil N). destruct l as [|c l]; [rewrite app_nil_r in *; subst; auto|].
        exfalso. cbn [app] in El. injection El as <- El.
        destruct (@shows_read_rest printable e t (NEWLINE :: l) Hs eq_refl) as [n1 Hl].
        specialize (Hl n1 (le_n _)). rewrite <- Ep in Hl. pose proof (read_unique _ _ _ Er Hl). discriminate.
    + destruct (eqb_reflect c NEWLINE) as [->|_]; [|easy].
      pose proof (read_then _ _ more Er) as Er'. rewrite <- E1 in Er'.
      pose proof (read_unique _ _ _ Er' (Hfull n0 (le_n _))) as U. inv U.
      destruct (read_module fuel r) as [bs'|] eqn:Em; [|easy]. cbn in R. inv R.
      right. right. exists r, bs'. repeat split; auto.
      rewrite <- !app_assoc. f_equal. f_equal. cbn [app].
      apply (app_inv_tail more). rewrite <- app_assoc. cbn [app]. congruence.
Qed.

(** A string literal cut short does not read. *)
Lemma string_cut fuel s t' cut e : valid_str s -> repr_str printable s = t' ++ cut ->
  read fuel t' = Some (e, []) -> cut = [].
Proof.
  intros Hv E R. destruct (read_repr_str printable s [] Hv) as [q [t [Eq [Hq Hr]]]]. rewrite app_nil_r in Hr.
  rewrite E in Eq. destruct fuel as [|fuel]; [easy|]. destruct t' as [|c t']; [easy|]. cbn [app] in Eq. injection Eq as -> <-.
  cbn [read] in R. replace ((q == QUOTE) || (q == DOUBLE_QUOTE)) with true in R
    by (destruct Hq as [-> | ->]; reflexivity).
  destruct (read_string q Plain_char t') as [[s' r]|] eqn:Es; cbn [with_rest] in R; [|easy].
  pose proof (read_string_local q _ _ _ _ cut Es) as Es'. rewrite Hr in Es'. inv Es'.
  symmetry in H1. now apply app_eq_nil in H1.
Qed.

Record cache_line := mk_line { l_name : pystr; l_text : pystr; l_expr : expr }.
Definition lines_text (ls : list cache_line) : pystr := flat_map (fun l => line (l_name l) (l_text l)) ls.
Definition good_line (l : cache_line) : Prop :=
  is_identifier (l_name l) = true /\ shows printable (l_expr l) (l_text l).
Definition binding (l : cache_line) : pystr * expr := (l_name l, l_expr l).

Lemma read_module_prefix fuel ls p more bs version s :
  Forall good_line ls -> is_identifier version = true -> valid_str s ->
  p ++ more = lines_text (ls ++ [mk_line version (repr_str printable s) (EString s)]) ->
  read_module fuel p = Some bs ->
  (exists n, map fst bs = firstn n (map l_name ls))
  \/ (bs = map binding ls ++ [(version, EString s)] /\ (more = [] \/ more = [NEWLINE])).
Proof.
  intros F Hver Hv. revert fuel p bs. induction F as [|l ls [Hn Hs] F IH]; intros fuel p bs E R;
    (destruct fuel as [|fuel]; [discriminate R|]); unfold lines_text in *; cbn [flat_map app] in E.
  - destruct (@read_module_cut fuel p more version (repr_str printable s) (EString s) [] bs)
      as [-> | [[e' [t' [cut [-> [Ep [Et Er]]]]]] | [p' [bs' [-> [Ep [-> Er]]]]]]]; auto.
    + now constructor.
    + left. now exists 0.
    + right. pose proof (@string_cut _ _ _ _ _ Hv Et Er) as ->. rewrite app_nil_r in Et. subst t'.
      destruct (@shows_read_rest printable _ _ [] (@sh_string printable s Hv) eq_refl) as [n0 H0].
      rewrite app_nil_r in H0. pose proof (read_unique _ _ _ Er (H0 n0 (le_n _))) as U. inv U. split; [easy|].
      right. apply (app_inv_head (version ++ $" = " ++ repr_str printable s)). rewrite E. unfold line.
      now rewrite !app_nil_r, <- !app_assoc.
    + right. apply app_eq_nil in Ep as [-> ->]. destruct fuel; [discriminate Er|]. cbn in Er. inv Er. auto.
  - destruct (@read_module_cut fuel p more (l_name l) (l_text l) (l_expr l)
       (lines_text (ls ++ [mk_line version (repr_str printable s) (EString s)])) bs)
      as [-> | [[e' [t' [cut [-> [Ep [Et Er]]]]]] | [p' [bs' [-> [Ep [-> Er]]]]]]]; auto.
    + left. now exists 0.
    + left. now exists 1.
    + destruct (IH _ _ _ Ep Er) as [[n Hb]|[-> Hm]].
      * left. exists (S n). cbn. now rewrite Hb.
      * right. split; [reflexivity | easy].
Qed.

(** The whole file reads. *)
Lemma read_module_lines ls : Forall good_line ls ->
  ev (fun m => read_module m (lines_text ls) = Some (map binding ls)).
Proof.
  induction 1 as [|l ls [Hn Hs] F IH].
  - exists 1. intros [|m] Hm; [lia | easy].
  - destruct (@shows_read_rest printable _ _ (NEWLINE :: lines_text ls) Hs eq_refl) as [n1 H1].
    eapply (ev_step2 IH); [exists n1; exact H1|]. cbn beta. intros m Hls Hread.
    unfold lines_text in *. cbn [flat_map]. unfold line at 1. rewrite <- !app_assoc. cbn [app] in *.
    change (32%N :: 61%N :: 32%N :: ?x) with ($" = " ++ x). rewrite read_module_name by assumption.
    rewrite span_space by (apply good_start_app, (proj1 (shows_start_all printable) _ _ Hs)). cbn [snd].
    rewrite Hread. change (NEWLINE == NEWLINE) with true. cbn iota. rewrite Hls. reflexivity.
Qed.

(** ** Loading *)
Lemma run_bindings_names bs ns : run_bindings bs = Some ns -> map fst ns = map fst bs.
Proof.
  revert ns. induction bs as [|[n e] bs IH]; intros ns; cbn; [intros H; now inv H|].
  destruct (evaluate e); [|easy]. destruct (run_bindings bs); [|easy]. intros H. inv H. cbn. f_equal. auto.
Qed.
Lemma attribute_in n ns d : attribute n ns = Some d -> In n (map fst ns).
Proof.
  induction ns as [|[m d'] ns IH]; cbn; [easy|]. destruct (attribute n ns); [auto|].
  destruct (eqb_reflect n m) as [->|]; [auto | easy].
Qed.
Lemma attributes_in names ns ds n : attributes names ns = Some ds -> In n names -> In n (map fst ns).
Proof.
  revert ds. induction names as [|m names IH]; intros ds; cbn; [easy|].
  destruct (attribute m ns) eqn:E; [|easy]. destruct (attributes names ns); [|easy].
  intros _ [<-|H]; [eapply attribute_in, E | eauto].
Qed.
Lemma attribute_absent n ns : ~ In n (map fst ns) -> attribute n ns = None.
Proof. intros H. destruct (attribute n ns) eqn:E; [|easy]. now apply attribute_in in E. Qed.
Lemma attributes_all ns pre : NoDup (map fst (pre ++ ns)) -> attributes (map fst ns) (pre ++ ns) = Some (map snd ns).
Proof.
  revert pre. induction ns as [|[n d] ns IH]; intros pre H; cbn; [easy|].
  assert (A : attribute n (pre ++ (n, d) :: ns) = Some d).
  { rewrite map_app in H. cbn in H. pose proof (NoDup_remove_2 _ _ _ H) as Hn.
    clear - Hn. induction pre as [|[m d'] pre IH]; cbn in *.
    - rewrite attribute_absent by assumption. now rewrite eqb_refl.
    - rewrite IH; tauto. }
  rewrite A. specialize (IH (pre ++ [(n, d)])). rewrite <- app_assoc in IH. cbn in IH. now rewrite IH.
Qed.

Lemma attributes_exact ns names : names = map fst ns -> NoDup names -> attributes names ns = Some (map snd ns).
Proof. intros -> H. exact (@attributes_all ns [] H). Qed.

Lemma firstn_In {A} n (l : list A) x : In x (firstn n l) -> In x l.
Proof. revert n. induction l; intros [|n]; cbn; [easy.. | intros [->|H]; eauto]. Qed.

(** *** Lines written by [save] *)
Definition saved_line (l : cache_line) (nv : pystr * data) (d : data) : Prop :=
  l_name l = fst nv /\ l_text l = repr_from printable (snd nv) 4 0 /\ evaluate (l_expr l) = Some d
  /\ data_equal (snd nv) d /\ shows printable (l_expr l) (l_text l).

Lemma saved_lines values : Forall (fun nv => proper (snd nv)) values ->
  exists xs : list (cache_line * data), Forall2 (fun nv x => saved_line (fst x) nv (snd x)) values xs.
Proof.
  intros H. apply Forall_choose. eapply Forall_impl; [|exact H]. intros [n v] Hp. cbn [snd] in Hp.
  destruct (repr_from_reads_back printable v Hp 4 0) as [[e d] [Hs [He [Hd _]]]]. cbn [fst snd] in *.
  exists (mk_line n (repr_from printable v 4 0) e, d). unfold saved_line. cbn. auto.
Qed.

Lemma saved_text values xs : Forall2 (fun nv (x : cache_line * data) => saved_line (fst x) nv (snd x)) values xs ->
  file_text printable values = lines_text (map fst xs).
Proof.
  induction 1 as [|nv x values xs [H1 [H2 _]] F IH]; [easy|]. unfold file_text, lines_text in *. cbn [flat_map map].
  rewrite IH. f_equal. unfold line. now rewrite H1, H2, <- ?app_assoc.
Qed.
Lemma saved_good values xs : Forall2 (fun nv (x : cache_line * data) => saved_line (fst x) nv (snd x)) values xs ->
  Forall (fun nv => is_identifier (fst nv) = true) values -> Forall good_line (map fst xs).
Proof.
  induction 1 as [|nv x values xs [H1 [H2 [H3 [H4 H5]]]] F IH]; cbn; intros Hi; inv Hi; constructor; auto.
  split; [congruence | easy].
Qed.
Lemma saved_names values xs : Forall2 (fun nv (x : cache_line * data) => saved_line (fst x) nv (snd x)) values xs ->
  map l_name (map fst xs) = map fst values.
Proof. induction 1 as [|nv x values xs [H1 _] F IH]; cbn; congruence. Qed.
Lemma saved_run values xs : Forall2 (fun nv (x : cache_line * data) => saved_line (fst x) nv (snd x)) values xs ->
  run_bindings (map binding (map fst xs)) = Some (combine (map fst values) (map snd xs)).
Proof.
  induction 1 as [|nv x values xs [H1 [H2 [H3 _]]] F IH]; [easy|]. cbn. now rewrite H1, H3, IH.
Qed.
Lemma saved_equal values xs : Forall2 (fun nv (x : cache_line * data) => saved_line (fst x) nv (snd x)) values xs ->
  Forall2 data_equal (map snd values) (map snd xs).
Proof. induction 1 as [|nv x values xs [_ [_ [_ [H _]]]] F IH]; cbn; constructor; auto. Qed.

Lemma run_bindings_app xs ys nx ny : run_bindings xs = Some nx -> run_bindings ys = Some ny ->
  run_bindings (xs ++ ys) = Some (nx ++ ny).
Proof.
  revert nx. induction xs as [|[n e] xs IH]; intros nx; cbn; [intros H; now inv H|].
  destruct (evaluate e); [|easy]. destruct (run_bindings xs) eqn:E; [|easy]. intros H Hy. inv H. now rewrite (IH l).
Qed.

Lemma map_fst_combine {A B} (l : list A) (l' : list B) : length l = length l' -> map fst (combine l l') = l.
Proof. revert l'. induction l; intros [|]; cbn; intros H; try easy. f_equal. apply IHl. lia. Qed.
Lemma map_snd_combine {A B} (l : list A) (l' : list B) : length l = length l' -> map snd (combine l l') = l'.
Proof. revert l'. induction l; intros [|]; cbn; intros H; try easy. f_equal. apply IHl. lia. Qed.

(** *** The complete file *)
Theorem load_saved values version s :
  Forall (fun nv => is_identifier (fst nv) = true /\ proper (snd nv)) values ->
  is_identifier version = true -> valid_str s -> NoDup (map fst values ++ [version]) ->
  exists ds, Forall2 data_equal (map snd values) ds
    /\ (ev (fun m => load m (map fst values ++ [version])
                         (Some (file_text printable (values ++ [(version, DStr s)]))) = Some (ds ++ [DStr s])))
    /\ forall fuel p more r, p ++ more = file_text printable (values ++ [(version, DStr s)]) ->
         load fuel (map fst values ++ [version]) (Some p) = Some r ->
         r = ds ++ [DStr s] /\ (more = [] \/ more = [NEWLINE]).
Proof.
  intros Hv Hver Hs Hnd.
  assert (Hi : Forall (fun nv : pystr * data => is_identifier (fst nv) = true) values) by (eapply Forall_impl; [|exact Hv]; intros ? [? ?]; auto).
  assert (Hp : Forall (fun nv : pystr * data => proper (snd nv)) values) by (eapply Forall_impl; [|exact Hv]; intros ? [? ?]; auto).
  destruct (saved_lines Hp) as [xs F]. pose proof (saved_good F Hi) as Hg. pose proof (saved_names F) as Hnames.
  pose proof (saved_run F) as Hrun. pose proof (saved_equal F) as Heq.
  set (last := mk_line version (repr_str printable s) (EString s)).
  assert (Etext : file_text printable (values ++ [(version, DStr s)]) = lines_text (map fst xs ++ [last])).
  { unfold file_text, lines_text. rewrite !flat_map_app. change (flat_map _ values) with (file_text printable values).
    now rewrite (saved_text F). }
  assert (Elen : length (map fst values) = length (map snd xs)).
  { rewrite !map_length. clear - F. induction F; cbn; congruence. }
  assert (Hall : run_bindings (map binding (map fst xs) ++ [(version, EString s)])
                 = Some (combine (map fst values) (map snd xs) ++ [(version, DStr s)])).
  { apply run_bindings_app; [exact Hrun | easy]. }
  assert (Hatt : attributes (map fst values ++ [version]) (combine (map fst values) (map snd xs) ++ [(version, DStr s)])
                 = Some (map snd xs ++ [DStr s])).
  { rewrite attributes_exact; [|now rewrite map_app, map_fst_combine | exact Hnd].
    now rewrite map_app, map_snd_combine. }
  exists (map snd xs). split; [exact Heq|]. split.
  - eapply ev_impl; [apply (@read_module_lines (map fst xs ++ [last]))|].
    + apply Forall_app. split; [exact Hg|]. constructor; [|constructor]. split; [exact Hver | now constructor].
    + cbn beta. intros m Hm. unfold load. rewrite Etext, Hm, map_app.
      change (map binding [last]) with [(version, EString s)]. now rewrite Hall, Hatt.
  - intros fuel p more r E L. unfold load in L.
    destruct (read_module fuel p) as [bs|] eqn:Em; [|easy].
    rewrite Etext in E. destruct (@read_module_prefix _ _ _ _ _ _ _ Hg Hver Hs E Em) as [[n Hn]|[-> Hm]].
    + exfalso. destruct (run_bindings bs) as [ns|] eqn:Er; [|easy].
      pose proof (@attributes_in _ _ _ version L ltac:(apply in_or_app; right; now left)) as Hin.
      rewrite (run_bindings_names _ Er), Hn, Hnames in Hin. apply firstn_In in Hin.
      apply NoDup_remove_2 in Hnd. apply Hnd. now rewrite app_nil_r.
    + rewrite Hall, Hatt in L. inv L. auto.
Qed.

(** ** Starting *)
Section Start.
Variables (names : list pystr) (version_name : pystr).
Hypothesis names_good : Forall (fun n => is_identifier n = true) names.
Hypothesis version_good : is_identifier version_name = true.
Hypothesis names_nodup : NoDup (names ++ [version_name]).

Definition saved_file (build : list data) (s : pystr) : pystr :=
  file_text printable (combine names build ++ [(version_name, DStr s)]).

Lemma load_saved_file build s : length build = length names -> Forall proper build -> valid_str s ->
  exists ds, Forall2 data_equal build ds
    /\ ev (fun m => load m (names ++ [version_name]) (Some (saved_file build s)) = Some (ds ++ [DStr s]))
    /\ forall fuel p more r, p ++ more = saved_file build s ->
         load fuel (names ++ [version_name]) (Some p) = Some r ->
         r = ds ++ [DStr s] /\ (more = [] \/ more = [NEWLINE]).
Proof.
  intros Hl Hp Hs.
  assert (E1 : map fst (combine names build) = names) by (apply map_fst_combine; congruence).
  assert (E2 : map snd (combine names build) = build) by (apply map_snd_combine; congruence).
  destruct (@load_saved (combine names build) version_name s) as [ds H]; auto.
  - clear - names_good Hl Hp. revert build Hl Hp. induction names_good as [|n l Hn F IH]; intros [|d build] Hl Hp; try discriminate Hl;
      [constructor|]. inv Hp. cbn [combine]. constructor; [cbn; auto|]. apply IH; auto.
  - now rewrite E1.
  - exists ds. rewrite E1, E2 in H. exact H.
Qed.

(** A cut file is never used in place of the whole one. *)
Lemma start_cut fuel build0 s p more version main build :
  length build0 = length names -> Forall proper build0 -> valid_str s ->
  p ++ more = saved_file build0 s ->
  let r := start printable fuel names version_name version main build (Some p) in
  rebuilt r = false ->
  Forall2 data_equal build0 (used r) /\ version = DStr s /\ (more = [] \/ more = [NEWLINE]).
Proof.
  intros Hl Hp Hs E. cbn zeta. unfold start.
  destruct (load_saved_file Hl Hp Hs) as [ds [H1 [_ H2]]].
  destruct (load fuel (names ++ [version_name]) (Some p)) as [vs|] eqn:L; [|now destruct main].
  destruct (H2 _ _ _ _ E L) as [-> Hm]. rewrite rev_app_distr. cbn [rev app].
  destruct (eqb_reflect (DStr s) version) as [<-|_]; [|now destruct main]. cbn. intros _.
  rewrite rev_involutive. auto.
Qed.

(** The file written is the one used next. *)
Lemma start_again build0 s :
  length build0 = length names -> Forall proper build0 -> valid_str s ->
  ev (fun fuel => forall main build,
        let r := start printable fuel names version_name (DStr s) main build (Some (saved_file build0 s)) in
        rebuilt r = false /\ Forall2 data_equal build0 (used r) /\ file_after r = Some (saved_file build0 s)).
Proof.
  intros Hl Hp Hs. destruct (load_saved_file Hl Hp Hs) as [ds [H1 [H _]]].
  eapply ev_impl; [exact H|]. cbn beta zeta. intros m L main build. unfold start. rewrite L, rev_app_distr. cbn [rev app].
  rewrite eqb_refl. cbn. rewrite rev_involutive. auto.
Qed.

(** Another version is never used. *)
Lemma start_other_version fuel file version main build :
  rebuilt (start printable fuel names version_name version main build file) = false ->
  exists ds, load fuel (names ++ [version_name]) file = Some (ds ++ [version])
    /\ used (start printable fuel names version_name version main build file) = ds.
Proof.
  unfold start. destruct (load fuel (names ++ [version_name]) file) as [vs|]; [|now destruct main].
  destruct (rev vs) as [|v ds] eqn:E; [now destruct main|].
  destruct (eqb_reflect v version) as [->|_]; [|now destruct main]. intros _.
  exists (rev ds). split; [|easy]. f_equal. rewrite <- (rev_involutive vs), E. reflexivity.
Qed.

Lemma start_rebuilt_main fuel file version build :
  let r := start printable fuel names version_name version true build file in
  rebuilt r = true -> used r = build /\
    file_after r = Some (file_text printable (combine names build ++ [(version_name, version)])).
Proof.
  cbn zeta. unfold start. destruct (load _ _ _) as [vs|]; [|easy]. destruct (rev vs) as [|v ds]; [easy|].
  now destruct (v == version).
Qed.
Lemma start_other_process fuel file version build :
  let r := start printable fuel names version_name version false build file in
  file_after r = file /\ (rebuilt r = true -> used r = map (fun _ => DDict []) names).
Proof.
  cbn zeta. unfold start. destruct (load _ _ _) as [vs|]; [|easy]. destruct (rev vs) as [|v ds]; [easy|].
  now destruct (v == version).
Qed.

(** *** Histories *)
(** What the file may hold after starts of various versions, each saving the data it
    built, interrupted at any point, and after removals; with the list of what was
    built by which version. *)
Inductive history : list (pystr * list data) -> option pystr -> Prop :=
| h_none log : history log None
| h_read log file fuel s main build :
    history log file ->
    rebuilt (start printable fuel names version_name (DStr s) main build file) = false ->
    history log (file_after (start printable fuel names version_name (DStr s) main build file))
| h_other log file fuel s build :
    history log file ->
    history log (file_after (start printable fuel names version_name (DStr s) false build file))
| h_write log file fuel s build text p more :
    history log file -> valid_str s -> length build = length names -> Forall proper build ->
    rebuilt (start printable fuel names version_name (DStr s) true build file) = true ->
    file_after (start printable fuel names version_name (DStr s) true build file) = Some text ->
    p ++ more = text ->   (* stopped after [p] *)
    history ((s, build) :: log) (Some p).

Lemma read_keeps_file fuel version main build file :
  rebuilt (start printable fuel names version_name version main build file) = false ->
  file_after (start printable fuel names version_name version main build file) = file.
Proof.
  unfold start. destruct (load _ _ _) as [vs|]; [|now destruct main]. destruct (rev vs) as [|v ds]; [now destruct main|].
  destruct (v == version); [easy | now destruct main].
Qed.

Lemma history_file log file : history log file -> file = None \/
  exists s build p more, file = Some p /\ p ++ more = saved_file build s /\ In (s, build) log
    /\ valid_str s /\ length build = length names /\ Forall proper build.
Proof.
  induction 1 as [|log file fuel s main build H IH Hr|log file fuel s build H IH|log file fuel s build text p more H IH Hs Hl Hp Hr Hf E].
  - auto.
  - now rewrite read_keeps_file.
  - now rewrite (proj1 (start_other_process fuel file (DStr s) build)).
  - right. exists s, build, p, more. repeat split; auto; [|now left].
    destruct (start_rebuilt_main _ _ _ _ Hr) as [_ Hf']. rewrite Hf in Hf'. injection Hf' as ->. exact E.
Qed.

Theorem history_start log file fuel version main build :
  history log file ->
  let r := start printable fuel names version_name version main build file in
  rebuilt r = false ->
  exists s build0, In (s, build0) log /\ version = DStr s /\ Forall2 data_equal build0 (used r).
Proof.
  intros H. cbn zeta. intros Hr. destruct (history_file H) as [->|[s [build0 [p [more [-> [E [Hin [Hs [Hl Hp]]]]]]]]]].
  - unfold start in Hr. cbn in Hr. now destruct main.
  - destruct (@start_cut fuel build0 s p more version main build Hl Hp Hs E Hr) as [H1 [H2 _]]. eauto.
Qed.
End Start.
End Caching.
