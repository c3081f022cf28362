(** Property C107: names of cache files. *)
From Verif Require Import Base PyText Catalog CatalogProofs Sources SourcesProofs Files CacheNames SpecCacheNames CacheNamesProofs.

(** Data of one environment never get into the file of another one, nor those of one of
    the two modules into the file of the other: [n], [n']: their names, [s], [s'] their
    suffixes, whether or not they are compiled. *)
Theorem C107_separate :
  forall e e' n n' s s',
    plain e -> plain e' ->
    n <> [] -> s <> [] -> ~ In dot s -> ~ In underscore n ->
    n' <> [] -> s' <> [] -> ~ In dot s' -> ~ In underscore n' ->
    cache_name e (n ++ dot :: s) = cache_name e' (n' ++ dot :: s') -> e = e' /\ n = n'.
Proof.
  intros e e' n n' s s' P P' N1 N2 N3 N4 M1 M2 M3 M4 E.
  assert (X : forall n s, n <> [] -> s <> [] -> ~ In dot s -> ~ In underscore n -> ~ In underscore (with_suffix FILE_SUFFIX (n ++ dot :: s))).
  { intros a b A1 A2 A3 A4 H. rewrite with_suffix_spec in H by assumption. apply in_app_or in H as [H|H]; [contradiction|]. cbn in H. intuition discriminate. }
  destruct (names_separate e e' _ _ P P' (X _ _ N1 N2 N3 N4) (X _ _ M1 M2 M3 M4) E) as [-> F]. split; [reflexivity|].
  rewrite !with_suffix_spec in F by assumption. now apply app_inv_tail in F.
Qed.
Print Assumptions C107_separate.

(** What [load] imports is, in the package of caching.py, the module whose source [save]
    writes: versions of mypy have dots, but names of modules must not. [package]: the name
    of the package, [caching]: that of the module in it *)
Theorem C107_loaded :
  forall e n s package caching,
    ~ In dot (platform e) -> ~ In dot (implementation e) -> ~ In dot (releaselevel e) ->
    n <> [] -> s <> [] -> ~ In dot n -> ~ In dot s -> ~ In dot caching ->
    exists m,
      cache_name e (n ++ dot :: s) = m ++ $".py"
      /\ path_from_string (loaded_module (package ++ dot :: caching) (cache_name e (n ++ dot :: s))) = path_from_string package ++ [m]
      /\ path_from_string (loaded_module $"__main__" (cache_name e (n ++ dot :: s))) = [m].
Proof.
  intros e n s package caching P I R N1 N2 N3 N4 C.
  destruct (name_without_dots e n P I R N3 (n ++ dot :: s)) as (m & E & D & Nm); [now apply with_suffix_spec|].
  exists m. split; [exact E|]. rewrite E. unfold loaded_module. rewrite stem_suffix by exact Nm.
  replace (mem (package ++ dot :: caching) [$"__main__"; $"__mp_main__"]) with false.
  - rewrite before_last by exact C. replace (mem $"__main__" [$"__main__"; $"__mp_main__"]) with true by reflexivity. cbn [app]. split; unfold path_from_string.
    + apply split_spelled. rewrite <- app_assoc. cbn [app]. change (package ++ $"." ++ m) with (package ++ dot :: m).
      rewrite <- (join_split dot package) at 2. change (dot :: m) with ([dot] ++ join [dot] [m]).
      rewrite <- join_app by (try apply split_on_nonempty; discriminate). apply join_spelled.
      * intros X. apply app_eq_nil in X as [_ X]. discriminate.
      * apply Forall_app. split; [|now repeat constructor].
        apply (proj2 (spelled_parts (proj1 (split_spelled dot (split_on dot package) package) eq_refl))).
    + apply split_spelled. now constructor.
  - symmetry. unfold mem. cbn [existsb]. destruct (eqb_reflect (package ++ dot :: caching) $"__main__") as [X|_];
      [|destruct (eqb_reflect (package ++ dot :: caching) $"__mp_main__") as [X|_]; [|reflexivity]];
      exfalso; assert (Y : In dot (package ++ dot :: caching)) by (apply in_or_app; right; now left); rewrite X in Y; cbn in Y; intuition discriminate.
Qed.
Print Assumptions C107_loaded.

Module Environments.
Definition linux := mk_environment $"1.5.1" $"linux" $"cpython" 3 11 10 $"final" 0.
Definition pypy := mk_environment $"1.5.1" $"linux" $"pypy" 3 9 17 $"final" 0.
End Environments.
Import Environments.
Example C107_example :
  plain linux /\ plain pypy
  /\ cache_name linux $"modules.py" = $"_mypy_1_5_1_linux_cpython_3_11_10_final_0_modules.py"
  /\ cache_name linux $"stubs.pyc" = $"_mypy_1_5_1_linux_cpython_3_11_10_final_0_stubs.py"
  /\ cache_name pypy $"stubs.py" = $"_mypy_1_5_1_linux_pypy_3_9_17_final_0_stubs.py"
  /\ loaded_module $"paradigm._core.caching" (cache_name linux $"stubs.py")
     = $"paradigm._core._mypy_1_5_1_linux_cpython_3_11_10_final_0_stubs".
Proof. unfold plain. repeat split; try (vm_compute; reflexivity); cbn; intuition discriminate. Qed.
(** Without [plain] two environments may share a file. *)
Example C107_underscores :
  cache_name (mk_environment $"1.5" $"a_b" $"c" 3 11 10 $"final" 0) $"stubs.py"
  = cache_name (mk_environment $"1.5" $"a" $"b_c" 3 11 10 $"final" 0) $"stubs.py".
Proof. vm_compute. reflexivity. Qed.
