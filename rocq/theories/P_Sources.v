(** Properties C61 and C62: modules of the standard library. *)
From Verif Require Import Base Catalog SpecCatalog CatalogProofs Sources SourcesProofs.

(** ** C61 *)
(** Stubs are the files named by something without dots and ".pyi" (with any number
    of dots before). *)
Theorem C61_stubs :
  forall name, is_stub name = true <->
    exists dots stem, stem <> [] /\ ~ In dot stem /\ name = repeat dot dots ++ stem ++ $".pyi".
Proof. exact is_stub_iff. Qed.
Print Assumptions C61_stubs.

(** a/b.pyi is a.b and a/b/__init__.pyi is a.b. *)
Theorem C61_module_of_stub :
  forall all_suffixes parents stem,
    In $".py" all_suffixes -> (forall s, In s all_suffixes -> exists r, s = dot :: r) -> stem <> [] -> ~ In dot stem ->
    stub_to_module_path all_suffixes parents (stem ++ $".pyi")
    = if stem == $"__init__" then parents else parents ++ [stem].
Proof.
  intros all parents stem P D Ne N. unfold stub_to_module_path, relative_file_path_to_module_path.
  change $".pyi" with (dot :: $"pyi"). rewrite with_suffix_spec; [|exact Ne|discriminate|cbn; intuition discriminate].
  rewrite getmodulename_stem by auto. reflexivity.
Qed.
Print Assumptions C61_module_of_stub.
Example C61_module_example :
  stub_to_module_path [$".py"; $".pyc"; $".abi3.so"; $".so"] [$"a"] $"b.pyi" = [$"a"; $"b"]
  /\ stub_to_module_path [$".py"; $".pyc"; $".abi3.so"; $".so"] [$"a"; $"b"] $"__init__.pyi" = [$"a"; $"b"].
Proof. vm_compute. auto. Qed.

(** Only a module and a package of the same name have the same path. *)
Theorem C61_stubs_of_a_module :
  forall all_suffixes parents stem parents' stem',
    In $".py" all_suffixes -> (forall s, In s all_suffixes -> exists r, s = dot :: r) ->
    stem <> [] -> ~ In dot stem -> stem' <> [] -> ~ In dot stem' ->
    (stub_to_module_path all_suffixes parents (stem ++ $".pyi") = stub_to_module_path all_suffixes parents' (stem' ++ $".pyi") <->
     (parents = parents' /\ stem = stem')
     \/ (stem <> $"__init__" /\ parents' = parents ++ [stem] /\ stem' = $"__init__")
     \/ (stem' <> $"__init__" /\ parents = parents' ++ [stem'] /\ stem = $"__init__")).
Proof.
  intros all ps s ps' s' P D Ne N Ne' N'. rewrite !C61_module_of_stub by auto.
  destruct (eqb_reflect s $"__init__") as [->|A], (eqb_reflect s' $"__init__") as [->|B].
  - split; [auto|]. intros [[E _]|[(F & _)|(F & _)]]; [exact E|easy|easy].
  - split; [auto 6|]. intros [[_ E]|[(F & _)|(_ & E & _)]]; [congruence|easy|exact E].
  - split; [auto 6|]. intros [[_ E]|[(_ & E & _)|(F & _)]]; [congruence|now symmetry|easy].
  - split.
    + intros E. apply app_inj_tail in E. auto.
    + intros [[-> ->]|[(_ & _ & F)|(_ & _ & F)]]; [reflexivity|easy|easy].
Qed.
Print Assumptions C61_stubs_of_a_module.

(** The cache has a stub for a module exactly if there is one. *)
Theorem C61_cache :
  forall all_suffixes files m,
    (forall f, dget m (to_stubs_cache all_suffixes files) = Some f ->
       In f files /\ is_stub (snd f) = true /\ stub_to_module_path all_suffixes (fst f) (snd f) = m)
    /\ (dget m (to_stubs_cache all_suffixes files) = None <->
        forall f, In f files -> is_stub (snd f) = true -> stub_to_module_path all_suffixes (fst f) (snd f) <> m).
Proof.
  intros all files m. unfold to_stubs_cache. set (items := map _ _).
  assert (G : forall (items : list (path * (path * pystr))) d,
    (forall f, dget m (fold_left (fun d ka => dset (fst ka) (snd ka) d) items d) = Some f -> In (m, f) items \/ dget m d = Some f)
    /\ (dget m (fold_left (fun d ka => dset (fst ka) (snd ka) d) items d) = None <->
        dget m d = None /\ forall f, ~ In (m, f) items)).
  { clear. induction items as [|[k f] r IH]; intros d; cbn [fold_left fst snd].
    - split; [auto|]. split; [intros E; split; [exact E|intros f []]|now intros [E _]].
    - destruct (IH (dset k f d)) as [S C]. split.
      + intros f' E. destruct (S f' E) as [I|E']; [left; now right|]. rewrite dget_dset in E'.
        destruct (eqb_reflect m k) as [->|_]; [|now right]. injection E' as ->. left. now left.
      + rewrite C, dget_dset. destruct (eqb_reflect m k) as [->|Ne].
        * split; [intros [F _]; discriminate|]. intros [_ F]. now destruct (F f (or_introl eq_refl)).
        * split; intros [A B]; (split; [exact A|]); intros f'; [intros [[= -> _]|I]; [easy|now apply (B f')]|].
          intros I. apply (B f'). now right. }
  destruct (G items []) as [S C]. unfold dict_of. split.
  - intros f E. destruct (S f E) as [I|F]; [|discriminate]. apply in_map_iff in I as (f' & [= <- <-] & I).
    apply filter_In in I as [I T]. auto.
  - rewrite C. split.
    + intros [_ N] f I T <-. apply (N f). apply in_map_iff. exists f. split; [reflexivity|]. apply filter_In. auto.
    + intros N. split; [reflexivity|]. intros f I. apply in_map_iff in I as (f' & [= E <-] & I). apply filter_In in I as [I T].
      now apply (N f' I T).
Qed.
Print Assumptions C61_cache.

(** Sources: a name without dots and one of the suffixes. *)
Theorem C61_sources :
  forall source_suffixes name,
    (forall s, In s source_suffixes -> exists r, s = dot :: r /\ (forall q, r <> q ++ [dot]) /\ r <> []) ->
    (is_source source_suffixes name = true <->
     exists dots stem s, In s source_suffixes /\ stem <> [] /\ ~ In dot stem /\ name = repeat dot dots ++ stem ++ s).
Proof. exact is_source_iff. Qed.
Print Assumptions C61_sources.
Theorem C61_module_of_source :
  forall all_suffixes parents stem s,
    (forall s, In s all_suffixes -> exists r, s = dot :: r) -> In s all_suffixes -> ~ In dot stem ->
    relative_file_path_to_module_path all_suffixes parents (stem ++ s) = if stem == $"__init__" then parents else parents ++ [stem].
Proof.
  intros all parents stem s D I N. unfold relative_file_path_to_module_path. now rewrite getmodulename_stem by auto.
Qed.
Print Assumptions C61_module_of_source.
Example C61_source_example :
  is_source [$".py"; $".cpython-311-x86_64-linux-gnu.so"; $".so"] $"_ssl.cpython-311-x86_64-linux-gnu.so" = true
  /\ relative_file_path_to_module_path [$".py"; $".pyc"; $".cpython-311-x86_64-linux-gnu.so"; $".so"] []
       $"_ssl.cpython-311-x86_64-linux-gnu.so" = [$"_ssl"].
Proof. vm_compute. auto. Qed.

(** The suffix of a file name is what follows its last dot, with the dot, if something is
    on both sides of it: hidden files and names that end with a dot have none. *)
Theorem C61_suffix :
  forall name,
    (forall stem rest, stem <> [] -> rest <> [] -> ~ In dot rest -> name = stem ++ dot :: rest -> suffix name = dot :: rest)
    /\ ((forall stem rest, stem <> [] -> rest <> [] -> ~ In dot rest -> name <> stem ++ dot :: rest) -> suffix name = []).
Proof.
  intros name. split.
  - intros a b Na Nb N ->. unfold suffix. rewrite (rfind_dot_app a b N), app_length. cbn [length].
    assert (0 < length a) by (destruct a; cbn; [easy|lia]). assert (0 < length b) by (destruct b; cbn; [easy|lia]).
    rewrite (proj2 (Nat.ltb_lt _ _)) by lia. rewrite (proj2 (Nat.ltb_lt _ _)) by lia. cbn [andb].
    rewrite skipn_app, skipn_all, Nat.sub_diag. reflexivity.
  - intros H. unfold suffix. destruct (in_dec N.eq_dec dot name) as [I|N]; [|now rewrite rfind_dot_none].
    assert (E : exists a b, name = a ++ dot :: b /\ ~ In dot b).
    { clear H. induction name as [|x r IH]; [destruct I|]. destruct (in_dec N.eq_dec dot r) as [J|J].
      - destruct (IH J) as (a & b & -> & Nb). exists (x :: a), b. auto.
      - destruct I as [->|I]; [|easy]. exists [], r. auto. }
    destruct E as (a & b & -> & N). rewrite (rfind_dot_app a b N), app_length. cbn [length].
    destruct a as [|x a]; [reflexivity|]. destruct b as [|y b]; [|now destruct (H (x :: a) (y :: b))].
    rewrite (proj2 (Nat.ltb_ge _ (length (x :: a) + 1 - 1))) by lia. now rewrite andb_false_r.
Qed.
Print Assumptions C61_suffix.
Example C61_suffix_example :
  map suffix [$"a.tar.gz"; $".hidden"; $"a."; $"a"; $".a.b"] = [$".gz"; []; []; []; $".b"].
Proof. vm_compute. reflexivity. Qed.

(** Valid module paths *)
Theorem C61_valid :
  forall is_identifier m,
    is_valid_module_path is_identifier m = true <->
    m <> [] /\ ~ In $"test" m /\ ~ In $"tests" m /\ (forall r, m <> r ++ [$"__main__"])
    /\ forall part, In part m ->
         is_identifier part = true
         /\ ~ (exists r, part = $"_test" ++ r) /\ ~ (exists r, part = $"test_" ++ r) /\ ~ (exists r, part = r ++ $"_test").
Proof.
  intros ident m. unfold is_valid_module_path. rewrite !andb_true_iff, !negb_true_iff, forallb_forall, !mem_not_In, eqb_neq.
  assert (A : is_nil m = false <-> m <> []) by (now destruct m).
  assert (P : forall part, (ident part && negb (starts_with $"_test" part || starts_with $"test_" part) && negb (ends_with $"_test" part)) = true
    <-> ident part = true /\ ~ (exists r, part = $"_test" ++ r) /\ ~ (exists r, part = $"test_" ++ r) /\ ~ (exists r, part = r ++ $"_test")).
  { intros part. rewrite <- !starts_with_iff, <- ends_with_iff, !andb_true_iff, !negb_true_iff, orb_false_iff, !not_true_iff_false. tauto. }
  assert (L : m <> [] -> (last m [] <> $"__main__" <-> forall r, m <> r ++ [$"__main__"])).
  { intros Ne. destruct (snoc_cases m) as [->|(q & x & ->)]; [easy|]. rewrite last_last. split.
    - intros N r E. apply app_inj_tail in E as [_ E]. auto.
    - intros N ->. now apply (N q). }
  rewrite A. split.
  - intros ((((Ne & T) & Ts) & M) & F). split; [exact Ne|]. split; [exact T|]. split; [exact Ts|]. split; [now apply L|].
    intros part I. apply P. now apply F.
  - intros (Ne & T & Ts & M & F). split; [split; [split; [split; [exact Ne|exact T]|exact Ts]|now apply L]|].
    intros part I. apply P. now apply F.
Qed.
Print Assumptions C61_valid.
Example C61_valid_example :
  let ident := fun s => negb (mem 45%N s) in
  map (is_valid_module_path ident) [[$"os"; $"path"]; []; [$"ctypes"; $"test"]; [$"idlelib"; $"__main__"]; [$"_testcapi"]; [$"x-y"]]
  = [true; false; false; false; false; false].
Proof. vm_compute. reflexivity. Qed.

(** The modules of the standard library: the built-in ones and the valid ones, each
    once, in order of appearance. *)
Theorem C61_stdlib_modules :
  forall is_identifier names modules,
    NoDup (stdlib_modules_paths is_identifier names modules)
    /\ forall m, In m (stdlib_modules_paths is_identifier names modules) <->
         (exists name, In name names /\ spelled dot m name) \/ (In m modules /\ is_valid_module_path is_identifier m = true).
Proof.
  intros ident names modules. unfold stdlib_modules_paths, dict_of. set (keys := _ ++ _).
  assert (G : forall (keys : list path) d,
     (NoDup (dkeys d) -> NoDup (dkeys (fold_left (fun d ka => dset (fst ka) (snd ka) d) (map (fun m => (m, tt)) keys) d)))
     /\ forall m, In m (dkeys (fold_left (fun d ka => dset (fst ka) (snd ka) d) (map (fun m => (m, tt)) keys) d)) <-> In m (dkeys d) \/ In m keys).
  { clear. induction keys as [|k r IH]; intros d; cbn [map fold_left fst snd].
    - split; [auto|]. intros m. cbn. tauto.
    - destruct (IH (dset k tt d)) as [N I]. split; [intros Nd; apply N; now apply NoDup_dset|]. intros m. rewrite I, dkeys_dset.
      destruct (dmem k d) eqn:M.
      + apply dmem_In in M. cbn [In]. split; [intros [A|A]; auto|]. intros [A|[<-|A]]; auto.
      + rewrite in_app_iff. cbn [In]. tauto. }
  destruct (G keys []) as [N I]. split; [apply N; constructor|]. intros m. rewrite I. cbn [dkeys map In]. unfold keys.
  rewrite in_app_iff, filter_In, in_map_iff. split.
  - intros [[]|[(name & <- & J)|J]]; [|now right]. left. exists name. split; [exact J|]. now apply split_spelled.
  - intros [(name & J & S)|J]; [|auto]. right. left. exists name. split; [|exact J]. now apply split_spelled.
Qed.
Print Assumptions C61_stdlib_modules.

(** The modules of the standard library, from the files of its directories: besides the
    built-in ones, those of the sources and extension modules, packages being those of
    their __init__; only the names of the files count that can be imported. *)
Theorem C61_stdlib_files :
  forall is_identifier all_suffixes source_suffixes names files m,
    (forall s, In s all_suffixes -> exists r, s = dot :: r) ->
    (forall s, In s source_suffixes -> exists r, s = dot :: r /\ (forall q, r <> q ++ [dot]) /\ r <> []) ->
    incl source_suffixes all_suffixes ->
    (forall s, is_identifier s = true -> s <> [] /\ ~ In dot s) ->
    (In m (stdlib_modules_paths is_identifier names (to_modules_paths all_suffixes source_suffixes files)) <->
     (exists name, In name names /\ spelled dot m name)
     \/ ((exists parents stem s, In (parents, stem ++ s) files /\ In s source_suffixes /\ stem <> [] /\ ~ In dot stem
           /\ (stem = $"__init__" /\ m = parents \/ stem <> $"__init__" /\ m = parents ++ [stem]))
         /\ is_valid_module_path is_identifier m = true)).
Proof.
  intros ident all sources names files m A S Inc Id. rewrite (proj2 (C61_stdlib_modules ident names _) m).
  unfold to_modules_paths. rewrite in_map_iff.
  assert (G : is_valid_module_path ident m = true ->
    ((exists f, relative_file_path_to_module_path all (fst f) (snd f) = m /\ In f (filter (fun f => is_source sources (snd f)) files)) <->
     exists parents stem s, In (parents, stem ++ s) files /\ In s sources /\ stem <> [] /\ ~ In dot stem
           /\ (stem = $"__init__" /\ m = parents \/ stem <> $"__init__" /\ m = parents ++ [stem]))).
  { intros V. split.
    - intros ([parents name] & E & I). cbn [fst snd] in *. apply filter_In in I as [I T]. cbn [snd] in T.
      apply (C61_sources sources name S) in T as (dots & stem & s & Is & Ne & N & ->).
      destruct dots as [|dots].
      + cbn [repeat app] in *. rewrite C61_module_of_source in E by auto. exists parents, stem, s. repeat split; auto.
        destruct (eqb_reflect stem $"__init__"); [left|right]; auto.
      + exfalso. cbn [repeat app] in E. unfold relative_file_path_to_module_path in E.
        destruct (getmodulename all _) as [n|] eqn:F.
        * apply getmodulename_iff in F as (x & Ix & F & _).
          assert (B : ident n = false).
          { apply not_true_is_false. intros B. apply Id in B as [B1 B2]. destruct n as [|y n]; [easy|].
            injection F as <- F. apply B2. now left. }
          destruct (eqb_reflect n init_module_name) as [->|_].
          -- discriminate F.
          -- subst m. apply C61_valid in V as (_ & _ & _ & _ & V). destruct (V n) as [V' _]; [apply in_or_app; right; now left|congruence].
        * assert (getmodulename all (dot :: repeat dot dots ++ stem ++ s) <> None); [|easy]. clear - Inc Is.
          unfold getmodulename. destruct (find _ _) eqn:F; [discriminate|]. exfalso.
          pose proof (find_none _ _ F s (proj2 (sorted_In all s) (Inc s Is))) as H. cbn beta in H.
          assert (ends_with s (dot :: repeat dot dots ++ stem ++ s) = true); [|congruence].
          apply ends_with_iff. exists (dot :: repeat dot dots ++ stem). cbn. now rewrite app_assoc.
    - intros (parents & stem & s & I & Is & Ne & N & E). exists (parents, stem ++ s). cbn [fst snd]. split.
      + rewrite C61_module_of_source by auto. destruct (eqb_reflect stem $"__init__"); destruct E as [[]|[]]; congruence.
      + apply filter_In. split; [exact I|]. cbn [snd]. apply (C61_sources sources (stem ++ s) S).
        exists 0, stem, s. auto. }
  split; (intros [B|[B V]]; [now left|right; split; [now apply G|exact V]]).
Qed.
Print Assumptions C61_stdlib_files.
Example C61_stdlib_files_example :
  stdlib_modules_paths (fun s => negb (is_nil s || mem dot s)) [$"sys"]
    (to_modules_paths [$".py"; $".pyc"; $".so"] [$".py"; $".so"]
      [([$"a"], $"b.py"); ([$"a"], $"__init__.py"); ([], $".hidden.py"); ([], $"c.so"); ([], $"d.txt"); ([$"test"], $"e.py")])
  = [[$"sys"]; [$"a"; $"b"]; [$"a"]; [$"c"]].
Proof. vm_compute. reflexivity. Qed.

(** ** C62 *)
(** [name] is the dotted name of a module or of a package it is in. *)
Definition at_or_below (name : pystr) (m : path) : Prop :=
  exists text, spelled dot m text /\ (text = name \/ exists rest, text = name ++ dot :: rest).

Lemma at_or_below_prefix name m : m <> [] -> Forall (fun part => ~ In dot part) m ->
  at_or_below name m <-> exists r, m = path_from_string name ++ r.
Proof.
  intros Ne F. unfold at_or_below, path_from_string. split.
  - intros (text & S & [->|(rest & ->)]).
    + exists []. rewrite app_nil_r. symmetry. now apply spelled_split.
    + exists (split_on dot rest). apply spelled_split in S. rewrite <- S.
      assert (G : forall part, split_from dot part (name ++ dot :: rest) = split_from dot part name ++ split_from dot [] rest).
      { clear. induction name as [|x r IH]; intros part; cbn [app split_from]; [now rewrite N.eqb_refl|].
        destruct (N.eqb x dot); [cbn [app]; f_equal; apply IH|apply IH]. }
      apply G.
  - intros (r & E). exists (join [dot] m). split; [now apply join_spelled|].
    destruct r as [|p r].
    + left. rewrite app_nil_r in E. subst m. apply join_split.
    + right. exists (join [dot] (p :: r)). subst m. rewrite <- (join_split dot name) at 2. clear.
      pose proof (split_on_nonempty dot name) as N. induction (split_on dot name) as [|a t IH]; [easy|].
      destruct t as [|b t]; [reflexivity|]. cbn [app] in *. rewrite !join_cons, IH by easy. now rewrite <- !app_assoc.
Qed.

(** A module is supported exactly when it is known and neither it nor a package it is
    in was declared unsupported (nor is it internal to PyPy, there). *)
Theorem C62_supported :
  forall stdlib i m,
    (forall m, In m stdlib -> m <> [] /\ Forall (fun part => ~ In dot part) m) ->
    (In m (supported_stdlib_modules_paths stdlib i) <->
     In m stdlib
     /\ (forall names name, In names (declarations i) -> In name names -> ~ at_or_below name m)
     /\ (is_pypy i = true -> is_pypy_path m = false)).
Proof.
  intros stdlib i m W. unfold supported_stdlib_modules_paths. rewrite filter_In, negb_true_iff, mem_not_In.
  split; intros [I U]; destruct (W m I) as [Ne F]; (split; [exact I|]).
  - unfold unsupported_stdlib_modules_paths in U. rewrite in_app_iff, (updates_In stdlib _ _ m I) in U. split.
    + intros names name J K B. apply (at_or_below_prefix name m Ne F) in B as [r E]. apply U. left. right. eauto 8.
    + intros P. apply not_true_is_false. intros Q. apply U. right. rewrite P. apply filter_In. auto.
  - destruct U as [D P]. unfold unsupported_stdlib_modules_paths. rewrite in_app_iff, (updates_In stdlib _ _ m I).
    intros [[Z|(names & name & r & J & K & E)]|Q]; [destruct Z| |].
    + apply (D names name J K). apply (at_or_below_prefix name m Ne F). eauto.
    + destruct (is_pypy i); [|destruct Q]. apply filter_In in Q as [_ Q]. rewrite P in Q by reflexivity. discriminate.
Qed.
Print Assumptions C62_supported.

(** The supported modules keep their order: the list is the known modules with the
    unsupported ones left out. *)
Theorem C62_order :
  forall stdlib i (supported : path -> bool),
    (forall m, In m stdlib -> m <> [] /\ Forall (fun part => ~ In dot part) m) ->
    (forall m, In m stdlib -> (supported m = true <->
       (forall names name, In names (declarations i) -> In name names -> ~ at_or_below name m)
       /\ (is_pypy i = true -> is_pypy_path m = false))) ->
    supported_stdlib_modules_paths stdlib i = filter supported stdlib.
Proof.
  intros stdlib i s W H. unfold supported_stdlib_modules_paths. apply filter_ext_in. intros m I.
  pose proof (C62_supported stdlib i m W) as S. unfold supported_stdlib_modules_paths in S. rewrite filter_In in S.
  specialize (H m I). apply eq_true_iff_eq. tauto.
Qed.
Print Assumptions C62_order.

(** [distutils.command.bdist_wininst] was removed in Python 3.10: CPython's is
    declared unsupported before only; on PyPy it always is. *)
Theorem C62_removed_module :
  forall i, (exists names, In names (declarations i) /\ In $"distutils.command.bdist_wininst" names)
    <-> is_pypy i = true \/ (minor_version i < 10)%nat.
Proof.
  intros [[] o v]; cbn [is_pypy minor_version].
  - split; [auto|]. intros _. unfold declarations. cbn [is_pypy on minor_version].
    destruct o; cbn [app]; eexists; (split; [right; right; left; reflexivity|]); apply mem_In; reflexivity.
  - split.
    + intros (names & H & K). right.
      destruct (Nat.ltb_spec v 10) as [L|L]; [exact L|exfalso].
      assert (A : forallb (fun names => negb (mem $"distutils.command.bdist_wininst" names))
        (declarations (mk_interpreter false o v)) = true).
      { unfold declarations. cbn [is_pypy minor_version on]. rewrite (proj2 (Nat.ltb_ge _ _) L). destruct o; reflexivity. }
      rewrite forallb_forall in A. specialize (A names H). apply Bool.negb_true_iff, mem_not_In in A. contradiction.
    + intros [|L]; [discriminate|]. exists [$"distutils.command.bdist_wininst"]. split; [|now left].
      unfold declarations. cbn [is_pypy minor_version]. apply Nat.ltb_lt in L. rewrite L.
      apply in_or_app. right. apply in_or_app. right. now left.
Qed.
Print Assumptions C62_removed_module.

(** Internal to PyPy is what is in a [__pycache__] or in a package whose name
    starts like PyPy's. *)
Theorem C62_internal_to_pypy :
  forall part rest, is_pypy_path (part :: rest) = true <->
    In $"__pycache__" (part :: rest)
    \/ exists r, part = $"__pypy" ++ r \/ part = $"_hpy" ++ r \/ part = $"_pypy" ++ r \/ part = $"hpy" ++ r.
Proof.
  intros part rest. unfold is_pypy_path. rewrite Bool.orb_true_iff, mem_In, existsb_exists. split.
  - intros [(p & I & S)|H]; [right|now left]. apply starts_with_iff in S as [r ->]. exists r.
    cbn in I. intuition subst; auto.
  - intros [H|(r & H)]; [now right|left].
    decompose [or] H; eexists; (split; [|apply starts_with_iff; eexists; eassumption]); cbn; auto.
Qed.
Print Assumptions C62_internal_to_pypy.

Example C62_example :
  supported_stdlib_modules_paths
    [[$"os"]; [$"os"; $"path"]; [$"tkinter"]; [$"tkinter"; $"ttk"]; [$"thisx"]; [$"asyncio"; $"windows_utils"]; [$"asyncio"]]
    (mk_interpreter false OtherPlatform 11)
  = [[$"os"]; [$"os"; $"path"]; [$"thisx"]; [$"asyncio"]].
Proof. vm_compute. reflexivity. Qed.
