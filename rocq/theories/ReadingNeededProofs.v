(** Only modules that are needed are read, each once. *)
From Verif Require Import Base Ast Conversion Catalog Arboreal Generics GenericsProofs Scoping ScopingProofs Signatures Stubs StubsProofs SpecReadingDepth.

Section Needed.
Variable source : path -> option (list stmt).
Variable is_package : path -> bool.
Variable condition : list (pystr * qualified_path) -> expr -> res bool.
(** What is needed once some modules are read *)
Variable R : list path -> path -> Prop.
Hypothesis Rm : forall v v' x, incl v v' -> R v x -> R v' x.
Hypothesis Rb : forall v, R v builtins_path.
Hypothesis Ri : forall v m x body s s', R v m -> In m v -> source m = Some body -> In s' body -> written_in s s' -> names_module is_package m x s -> R v x.

Record inv (st : state) : Prop := mk_inv {
  inv_visited : forall m, In m (visited st) -> R (visited st) m;
  inv_once : NoDup (visited st);
  inv_submodules : forall m s, In s (dget_or m [] (submodules (db st))) -> R (visited st) s;
  inv_references : forall m p q, dget p (dget_or m [] (references (db st))) = Some q -> R (visited st) (fst q) }.
Definition kept (st st' : state) : Prop := inv st' /\ incl (visited st) (visited st').
Definition good {A} (Q : list path -> A -> Prop) (st : state) (x : step A) : Prop :=
  match x with Done st' a => kept st st' /\ Q (visited st') a | Missing st' => kept st st' | Fails _ => True end.
Definition any {A} (v : list path) (a : A) := True.
Definition to_needed (v : list path) (q : qualified_path) := R v (fst q).
Lemma kept_refl st : inv st -> kept st st.
Proof. intros H. split; [exact H|apply incl_refl]. Qed.
Lemma kept_trans a b c : kept a b -> kept b c -> kept a c.
Proof. intros [_ I] [J K]. split; [exact J|]. eapply incl_tran; eauto. Qed.
Lemma kept_same st st' : inv st -> submodules (db st') = submodules (db st) -> references (db st') = references (db st) -> visited st' = visited st -> kept st st'.
Proof. intros [I1 I2 I3 I4] S F E. split; [constructor; rewrite ?S, ?F, ?E; auto|rewrite E; apply incl_refl]. Qed.
Lemma good_same {A} (Q : list path -> A -> Prop) st st' (a : A) : inv st -> submodules (db st') = submodules (db st) -> references (db st') = references (db st) -> visited st' = visited st ->
  Q (visited st) a -> good Q st (Done st' a).
Proof. intros. split; [now apply kept_same|congruence]. Qed.
Lemma good_refl {A} (Q : list path -> A -> Prop) st (a : A) : inv st -> Q (visited st) a -> good Q st (Done st a).
Proof. intros. now apply good_same. Qed.
Lemma good_from {A} (Q : list path -> A -> Prop) st st' (x : step A) : kept st st' -> good Q st' x -> good Q st x.
Proof. intros K. destruct x; cbn; auto; [intros [K' ?]; split; auto|intros K']; eapply kept_trans; eauto. Qed.
Lemma good_bind {A B} (P : list path -> A -> Prop) (Q : list path -> B -> Prop) st (x : step A) (F : state -> A -> step B) :
  good P st x -> (forall st' a, inv st' -> incl (visited st) (visited st') -> P (visited st') a -> good Q st' (F st' a)) -> good Q st (sbind x F).
Proof.
  intros H K. destruct x as [st' a|st'|e]; cbn in *; auto. destruct H as [H Pa]. apply good_from with st'; [exact H|]. apply K; [apply H|apply H|exact Pa].
Qed.
Lemma good_pure {A} st (x : res A) : inv st -> good any st (pure st x).
Proof. intros I. destruct x; cbn; [split; [now apply kept_refl|exact Logic.I]|exact Logic.I]. Qed.
Lemma good_each {A} (f : A -> state -> step unit) xs :
  forall st, (forall x st', In x xs -> inv st' -> incl (visited st) (visited st') -> good any st' (f x st')) -> inv st -> good any st (each f xs st).
Proof.
  induction xs as [|x r IH]; intros st H I; cbn [each]; [now apply good_refl|].
  apply good_bind with any; [apply H; auto; [now left|apply incl_refl]|]. intros st' _ I' V _. apply IH; [|exact I'].
  intros y st'' Y I'' V'. apply H; auto; [now right|]. eapply incl_tran; eauto.
Qed.
Lemma kept_reference st m p q : inv st -> R (visited st) (fst q) -> kept st (add_reference m p q st).
Proof.
  intros [I1 I2 I3 I4] Q. split; [|apply incl_refl]. constructor; auto. intros m' p' q' H. cbn in H. unfold dmodify, dget_or in H.
  rewrite dget_dset in H. destruct (m' == m) eqn:E.
  - rewrite dget_dset in H. destruct (p' == p); [injection H as <-; exact Q|]. apply (I4 m p'). exact H.
  - apply (I4 m' p'). exact H.
Qed.
Lemma kept_submodule st m s : inv st -> R (visited st) s -> kept st (add_submodule m s st).
Proof.
  intros [I1 I2 I3 I4] Q. split; [|apply incl_refl]. constructor; auto. intros m' s' H. cbn in H. unfold dmodify, dget_or in H.
  rewrite dget_dset in H. destruct (m' == m) eqn:E.
  - apply in_app_or in H as [H|[<-|[]]]; [|exact Q]. apply (I3 m). exact H.
  - apply (I3 m'). exact H.
Qed.
Ltac up := unfold to_needed in *; eauto 6 using Rm, incl_tran, kept_refl.
Section Reading.
Variable parse : path -> state -> step scope.
Hypothesis Hp : forall m st, R (visited st) m -> inv st -> good any st (parse m st).
Lemma good_submodules (f : path -> state -> step qualified_path) subs :
  (forall s st, R (visited st) s -> inv st -> good to_needed st (f s st)) ->
  forall st, (forall s, In s subs -> R (visited st) s) -> inv st -> good (fun v q => match q with Some q => to_needed v q | None => True end) st (try_submodules f subs st).
Proof.
  intros H. induction subs as [|s r IH]; intros st O I; cbn [try_submodules]; [now apply good_refl|].
  pose proof (H s st (O s (or_introl eq_refl)) I) as E. destruct (f s st) as [st' q|st'|e]; [exact E| |exact E]. cbn in E.
  apply good_from with st'; [exact E|]. apply IH; [|apply E]. intros x X. apply (Rm (visited st)); [apply E|apply O; now right].
Qed.
Lemma good_resolve fuel : forall m parent o st, R (visited st) m -> inv st -> good to_needed st (resolve_in parse fuel m parent o st).
Proof.
  induction fuel as [|fuel IH]; intros m parent o st N I; [exact Logic.I|]. cbn [resolve_in].
  destruct o as [|first rest]; [exact Logic.I|]. apply good_bind with any; [now apply Hp|]. intros st1 scope I1 V1 _.
  destruct (scope_contains_path scope (parent ++ [first])); [apply good_refl; up|].
  destruct (dmem first (entries scope)); [apply good_refl; up|].
  eapply good_bind; [apply good_submodules; [intros s st2 Rs I2; now apply IH| |exact I1]|].
  - intros s S. now apply (inv_submodules _ I1 m).
  - intros st2 found I2 V2 Q. cbv beta in Q. destruct found as [q|]; [now apply good_refl|].
    unfold pure, fetch. destruct (dget m (references (db st2))) as [refs|] eqn:E; [|exact Logic.I]. cbn [sbind].
    destruct (longest_reference refs (first :: rest) (length (first :: rest))) as [[referent rest']|] eqn:L.
    + apply good_refl; [exact I2|]. unfold to_needed. cbn [fst]. destruct (longest_reference_Some _ _ _ L) as (j & _ & Hq & _).
      pose proof (inv_references _ I2 m (firstn j (first :: rest)) referent) as H. apply H. unfold dget_or.
      match goal with |- context [match dget m ?b with _ => _ end] => replace (dget m b) with (Some refs) by (symmetry; exact E) end. exact Hq.
    + destruct (dget builtins_path (definitions (db st2))); [|exact Logic.I]. cbn [sbind].
      destruct (scope_contains_path _ _); [apply good_refl; [exact I2|apply Rb]|now apply kept_refl].
Qed.
Section Visiting.
Variable resolve : path -> path -> path -> state -> step qualified_path.
Hypothesis Hr : forall m parent o st, R (visited st) m -> inv st -> good to_needed st (resolve m parent o st).
Lemma good_qualified m parent o st : R (visited st) m -> inv st -> good to_needed st (to_qualified_path resolve m parent o st).
Proof.
  intros N I. unfold to_qualified_path. pose proof (Hr m parent o st N I) as E. destruct (resolve m parent o st) as [st' q|st'|e]; [exact E| |exact E].
  cbn in E. apply good_from with st'; [exact E|]. apply good_same; auto; [apply E|]. apply (Rm (visited st)); [apply E|exact N].
Qed.
Lemma good_is_type_var m parent o st : R (visited st) m -> inv st -> good any st (is_type_var_object_path parse resolve m parent o st).
Proof.
  intros N I. unfold is_type_var_object_path. apply good_bind with to_needed; [now apply good_qualified|]. intros st1 q I1 V1 Q.
  apply good_bind with any; [now apply Hp|]. intros st2 sc I2 V2 _.
  apply good_bind with any; [now apply good_pure|]. intros st3 ns I3 V3 _.
  assert (F : good any st3 (Done st3 false)) by now apply good_refl.
  assert (Y : forall func, good any st3 (match to_maybe_path func with None => Done st3 false | Some p => sbind (resolve (fst q) [] p st3) (fun st c => Done st (c == TypeVar_path)) end)).
  { intros func. destruct (to_maybe_path func); [|exact F]. eapply good_bind; [apply Hr; up|]. intros st4 c I4 _ _. now apply good_refl. }
  destruct (dget_or (snd q) [] ns) as [|s [|s' r]]; [exact F| |].
  - destruct s as [t a [v|]|ts v| | | | | | | ]; try exact F; destruct v; first [exact F|apply Y].
  - destruct s as [t a [v|]|ts v| | | | | | | ]; try exact F; destruct v; exact F.
Qed.
Lemma good_type_variables m parent arguments : forall st, R (visited st) m -> inv st -> good any st (type_variables parse resolve m parent arguments st).
Proof.
  induction arguments as [|a r IH]; intros st N I; cbn [type_variables]; [now apply good_refl|]. destruct (to_maybe_path a); [|now apply IH].
  apply good_bind with any; [now apply good_is_type_var|]. intros st1 b I1 V1 _. apply good_bind with any; [apply IH; up|].
  intros st2 rest I2 _ _. now apply good_refl.
Qed.
Lemma good_base m parent name body base st : R (visited st) m -> inv st -> good any st (visit_base parse resolve m parent name body base st).
Proof.
  intros N I. unfold visit_base.
  assert (P : good any st (sbind (pure st (to_path base)) (fun st p => sbind (to_qualified_path resolve m parent p st) (fun st q =>
                 if q == NamedTuple_path then sbind (pure st (named_tuple_to_constructor name body)) (fun st constructor =>
                   Done (add_superclass m (parent ++ [name]) q (add_ast_node m parent [name] constructor st)) [])
                 else if q == Protocol_path then Done st [] else if q == Generic_path then Fails AssertionError
                 else Done (add_base (m, parent ++ [name]) base st) ([] : list path))))).
  { apply good_bind with any; [now apply good_pure|]. intros st1 p I1 V1 _.
    eapply good_bind; [apply good_qualified; up|]. intros st2 q I2 _ _.
    destruct (q == NamedTuple_path); [|destruct (q == Protocol_path); [now apply good_refl|]; destruct (q == Generic_path); [exact Logic.I|now apply good_same]].
    apply good_bind with any; [now apply good_pure|]. intros st3 c I3 _ _. now apply good_same. }
  destruct base; try exact P. clear P.
  apply good_bind with any; [now apply good_pure|]. intros st1 arguments I1 V1 _.
  apply good_bind with any; [apply good_type_variables; up|]. intros st2 vars I2 V2 _.
  destruct (to_maybe_path base1); [|now apply good_same]. eapply good_bind; [apply Hr; up|]. intros st3 q I3 _ _.
  destruct (mem q [Generic_path; Protocol_path]); now apply good_same.
Qed.
Lemma good_bases m parent name body bases : forall st, R (visited st) m -> inv st -> good any st (visit_bases parse resolve m parent name body bases st).
Proof.
  induction bases as [|b r IH]; intros st N I; cbn [visit_bases]; [now apply good_refl|].
  apply good_bind with any; [now apply good_base|]. intros st1 vars I1 V1 _. apply good_bind with any; [apply IH; up|].
  intros st2 rest I2 _ _. now apply good_refl.
Qed.
Lemma good_names m parent names : forall st, R (visited st) m -> inv st -> good any st (resolve_names resolve m parent names st).
Proof.
  induction names as [|x r IH]; intros st N I; cbn [resolve_names]; [now apply good_refl|].
  eapply good_bind; [now apply Hr|]. intros st1 q I1 V1 _. apply good_bind with any; [apply IH; up|].
  intros st2 rest I2 _ _. now apply good_refl.
Qed.
Lemma good_import m a st : (forall x, names_module is_package m x (SImport [a]) -> R (visited st) x) -> inv st -> kept st (visit_import m a st).
Proof.
  intros H I. unfold visit_import. destruct (alias_asname a) as [n|] eqn:E.
  - apply kept_reference; [exact I|]. apply H. eapply names_imported_as; [now left|exact E|reflexivity].
  - assert (P : forall x, In x (prefixes (path_from_string (alias_name a))) -> R (visited st) x).
    { intros x X. unfold prefixes in X. apply in_map_iff in X as (k & <- & K). apply in_seq in K. apply H.
      eapply names_imported; [now left|exact E| |symmetry; apply firstn_skipn].
      intros Z. apply (f_equal (@length _)) in Z. rewrite firstn_length in Z. cbn in Z. lia. }
    clear H. revert P. generalize (prefixes (path_from_string (alias_name a))). intros ps. revert st I.
    induction ps as [|p ps IHp]; intros st I P; cbn [fold_left]; [now apply kept_refl|].
    assert (K : kept st (add_reference m p (p, []) st)) by (apply kept_reference; [exact I|apply P; now left]).
    eapply kept_trans; [exact K|]. apply IHp; [apply K|intros; apply P; now right].
Qed.
Lemma good_imports m names : forall st, (forall v x, incl (visited st) v -> names_module is_package m x (SImport names) -> R v x) ->
  inv st -> kept st (fold_left (fun st a => visit_import m a st) names st).
Proof.
  induction names as [|a r IH]; intros st H I; cbn [fold_left]; [now apply kept_refl|].
  assert (K : kept st (visit_import m a st)).
  { apply good_import; [|exact I]. intros x X. apply H; [apply incl_refl|]. inversion X; subst; [eapply names_imported|eapply names_imported_as]; eauto;
      match goal with J : In _ [a] |- _ => destruct J as [<-|[]]; now left end. }
  eapply kept_trans; [exact K|]. apply IH; [|apply K]. intros v x V X. apply H; [eapply incl_tran; [apply K|exact V]|].
  inversion X; subst; [eapply names_imported|eapply names_imported_as]; eauto; now right.
Qed.
Lemma good_imports_from m pm names : forall st, R (visited st) pm -> inv st -> kept st (fold_left (fun st a => visit_import_from m pm a st) names st).
Proof.
  induction names as [|a r IH]; intros st N I; cbn [fold_left]; [now apply kept_refl|].
  assert (K : kept st (visit_import_from m pm a st)).
  { unfold visit_import_from. destruct (alias_name a == $"*"); [now apply kept_submodule|now apply kept_reference]. }
  eapply kept_trans; [exact K|]. apply IH; [|apply K]. apply (Rm (visited st)); [apply K|exact N].
Qed.
Lemma good_visit m s : (forall v x s', R v m -> In m v -> written_in s' s -> names_module is_package m x s' -> R v x) ->
  forall parent st, In m (visited st) -> inv st -> good any st (visit is_package condition parse resolve m parent s st).
Proof.
  induction s as [t a v|ts v|f|f|name bases body IH|test b o IHb IHo|ns|mo ns l|ch IH] using stmt_ind'; intros S parent st M I; cbn [visit];
    pose proof (inv_visited _ I m M) as N.
  - apply good_bind with any; [now apply good_pure|]. intros st1 p I1 V1 _.
    destruct (match v with None => None | Some v => to_maybe_path v end); [|now apply good_same].
    apply good_bind with to_needed; [apply good_qualified; up|]. intros st2 q I2 _ Q. split; [now apply kept_reference|exact Logic.I].
  - destruct (to_maybe_path v).
    + apply good_bind with to_needed; [now apply good_qualified|]. intros st1 q I1 V1 Q. apply good_each; [|exact I1].
      intros x st2 _ I2 V2. apply good_bind with any; [now apply good_pure|]. intros st3 p' I3 V3 _. split; [apply kept_reference; up|exact Logic.I].
    + apply good_each; [|exact I]. intros x st2 _ I2 _. apply good_bind with any; [now apply good_pure|]. intros st3 p' I3 _ _. now apply good_same.
  - now apply good_same.
  - now apply good_same.
  - rewrite Forall_forall in IH. cbv zeta.
    match goal with |- good _ _ (sbind (visit_bases _ _ _ _ _ _ _ ?x) _) =>
      assert (K0 : kept st x) by (apply kept_same; [exact I|reflexivity..]); apply (good_from _ st x _ K0); revert K0; generalize x end.
    intros st0 [I0 V0]. apply good_bind with any; [apply good_bases; up|]. intros st1 vars I1 V1 _.
    match goal with |- good _ _ (each _ _ ?y) =>
      assert (K2 : kept st1 y) by (destruct (is_nil (dedupe vars)); apply kept_same; solve [exact I1|reflexivity]); apply (good_from _ st1 y _ K2); revert K2; generalize y end.
    intros st2 [I2 V2]. apply good_each; [|exact I2]. intros x st3 X3 I3 V3. apply IH; auto.
    intros v y s' Nv Mv W Z. apply (S v y s'); [exact Nv|exact Mv|econstructor; eauto|exact Z].
  - rewrite Forall_forall in IHb, IHo. apply good_bind with any; [now apply good_names|]. intros st1 bindings I1 V1 _.
    apply good_bind with any; [now apply good_pure|]. intros st2 c I2 V2 _. apply good_each; [|exact I2].
    intros x st3 Hx I3 V3.
    assert (W : In x (b ++ o) -> forall v y s', R v m -> In m v -> written_in s' x -> names_module is_package m y s' -> R v y).
    { intros J v y s' Nv Mv W Z. apply (S v y s'); [exact Nv|exact Mv|econstructor; eauto|exact Z]. }
    destruct c; [apply IHb|apply IHo]; auto; apply W; apply in_or_app; auto.
  - split; [|exact Logic.I]. apply good_imports; [|exact I]. intros v x V X. apply (S v x _ (Rm _ _ _ V N) (V m M) (written_itself _) X).
  - destruct (to_parent_module_path l mo m (is_package m)) as [pm|e] eqn:Q; [|exact Logic.I]. split; [|exact Logic.I].
    apply good_imports_from; [|exact I]. apply (S _ pm _ N M (written_itself _)). now constructor.
  - rewrite Forall_forall in IH. apply good_each; [|exact I]. intros x st3 Hx I3 V3. apply IH; auto.
    intros v y s' Nv Mv W Z. apply (S v y s'); [exact Nv|exact Mv|econstructor; eauto|exact Z].
Qed.
End Visiting.
End Reading.
Lemma good_stub fuel : forall m st, R (visited st) m -> inv st -> good any st (parse_stub_scope source is_package condition fuel m st)
  /\ match parse_stub_scope source is_package condition fuel m st with Done st' _ => In m (visited st') | _ => True end.
Proof.
  induction fuel as [|fuel IH]; intros m st N I; cbn [parse_stub_scope]; destruct (mem m (visited st)) eqn:V.
  1,3: split; [now apply good_pure|apply mem_In in V; unfold pure; destruct (fetch _ _); auto].
  - now split.
  - destruct (source m) as [body|] eqn:E; [|now split]. cbv zeta.
    match goal with |- good _ _ (sbind (each _ _ ?x) _) /\ _ => assert (K : kept st x) end.
    { assert (L : incl (visited st) (visited st ++ [m])) by (intros y Y; apply in_or_app; now left).
      split; [|exact L]. destruct I as [I1 I2 I3 I4]. constructor; cbn.
      - intros y Y. apply (Rm _ _ _ L). apply in_app_or in Y as [Y|[<-|[]]]; auto.
      - apply NoDup_app_single; [exact I2|]. intros Y. apply mem_In in Y. congruence.
      - intros m' s S. apply (Rm _ _ _ L). now apply (I3 m').
      - intros m' p q H. apply (Rm _ _ _ L). unfold dget_or in H. rewrite dget_dset in H. destruct (m' == m); [discriminate H|]. apply (I4 m' p). exact H. }
    match goal with |- good _ _ (sbind (each _ _ ?x) _) /\ _ => assert (M : In m (visited x)) by (cbn; apply in_or_app; right; now left) end.
    match goal with |- good _ _ (sbind (each ?f _ ?x) _) /\ _ => assert (G : good any x (each f body x)) end.
    { apply good_each; [|apply K]. intros s st' S I' V'. apply good_visit; auto.
      - intros m' st'' R' I''. apply IH; auto.
      - intros m' parent o st'' R' I''. apply good_resolve; auto. intros m'' st''' R'' I'''. now apply IH.
      - intros v x s' Nv Mv W Z. eapply Ri; eauto. }
    match goal with |- good _ _ (sbind (each _ _ ?x) _) /\ _ => revert K M G; generalize x end. intros x K M G.
    split.
    + apply good_from with x; [exact K|]. eapply good_bind; [exact G|]. intros st1 _ I1 _ _. now apply good_pure.
    + destruct (each _ body x) as [st1 u|st1|e]; cbn [sbind]; auto. destruct G as [[_ G] _]. unfold pure. destruct (fetch _ _); auto.
Qed.
Lemma good_modules fuel ms st : (forall v m, In m ms -> R v m) -> parse_modules source is_package condition fuel ms = Done st tt ->
  (forall m, In m (visited st) -> R (visited st) m) /\ NoDup (visited st) /\ forall m, In m (builtins_path :: ms) -> In m (visited st).
Proof.
  intros H. unfold parse_modules.
  assert (I : inv empty_state) by (constructor; [intros m []|constructor|intros m s []|intros m p q; discriminate]).
  assert (H' : forall v m, In m (builtins_path :: ms) -> R v m) by (intros v m [<-|M]; auto).
  clear H. revert H' I. generalize (builtins_path :: ms). intros l. generalize empty_state.
  induction l as [|m r IH]; intros s0 H I E; cbn [each] in E.
  - injection E as <-. split; [apply I|]. split; [apply I|intros m []].
  - assert (N : R (visited s0) m) by (apply H; now left). destruct (good_stub fuel m s0 N I) as [G V].
    destruct (parse_stub_scope source is_package condition fuel m s0) as [s1 u|s1|e]; [|discriminate E..]. cbn [sbind] in E. destruct G as [[I1 _] _].
    assert (G : good any s1 (each (fun m st => sbind (parse_stub_scope source is_package condition fuel m st) (fun st _ => Done st tt)) r s1)).
    { apply good_each; [|exact I1]. intros x st' X I' _. eapply good_bind; [apply good_stub; [apply H; now right|exact I']|].
      intros st'' _ I'' _ _. now apply good_refl. }
    destruct (IH s1 (fun v x X => H v x (or_intror X)) I1 E) as (A & B & C). split; [exact A|]. split; [exact B|].
    intros x [<-|X]; [|now apply C]. rewrite E in G. destruct G as [[_ G] _]. now apply G.
Qed.
End Needed.
