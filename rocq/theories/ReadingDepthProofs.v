(** What is read within some recursion depth is read alike within any greater one. *)
From Verif Require Import Base Ast Conversion Catalog Scoping ScopingProofs Signatures Stubs StubsProofs.

(** ** Steps *)
Definition more {A} (x y : step A) : Prop := x = Fails RecursionError \/ y = x.
Lemma more_refl {A} (x : step A) : more x x.
Proof. now right. Qed.
Lemma more_bind {A B} (x y : step A) (F G : state -> A -> step B) :
  more x y -> (forall st a, more (F st a) (G st a)) -> more (sbind x F) (sbind y G).
Proof. intros [->| ->] H; [now left|]. destruct x; [apply H|now right|now right]. Qed.
Lemma more_each {A} (f g : A -> state -> step unit) xs : (forall x st, In x xs -> more (f x st) (g x st)) ->
  forall st, more (each f xs st) (each g xs st).
Proof.
  induction xs as [|x r IH]; intros H st; cbn [each]; [apply more_refl|].
  apply more_bind; [apply H; now left|]. intros st' _. apply IH. intros y st'' I. apply H. now right.
Qed.

Section Reading.
Variable source : path -> option (list stmt).
Variable is_package : path -> bool.
Variable condition : list (pystr * qualified_path) -> expr -> res bool.
Section Parsing.
Variables parse1 parse2 : path -> state -> step scope.
Hypothesis Hp : forall m st, more (parse1 m st) (parse2 m st).
Lemma more_submodules f g subs : (forall s st, more (f s st) (g s st)) -> forall st, more (try_submodules f subs st) (try_submodules g subs st).
Proof.
  intros H. induction subs as [|s r IH]; intros st; cbn [try_submodules]; [apply more_refl|].
  destruct (H s st) as [E|E]; rewrite E; [now left|]. destruct (f s st); [now right|apply IH|now right].
Qed.
Lemma more_resolve f1 : forall f2 m parent o st, f1 <= f2 -> more (resolve_in parse1 f1 m parent o st) (resolve_in parse2 f2 m parent o st).
Proof.
  induction f1 as [|f1 IH]; intros f2 m parent o st L; [now left|]. destruct f2 as [|f2]; [lia|]. cbn [resolve_in].
  destruct o as [|first rest]; [apply more_refl|]. apply more_bind; [apply Hp|]. intros st1 scope.
  destruct (scope_contains_path scope (parent ++ [first])); [apply more_refl|].
  destruct (dmem first (entries scope)); [apply more_refl|].
  apply more_bind; [|intros; apply more_refl]. apply more_submodules. intros s st2. apply IH. lia.
Qed.
Section Visiting.
Variables resolve1 resolve2 : path -> path -> path -> state -> step qualified_path.
Hypothesis Hr : forall m parent o st, more (resolve1 m parent o st) (resolve2 m parent o st).
Lemma more_qualified m parent o st : more (to_qualified_path resolve1 m parent o st) (to_qualified_path resolve2 m parent o st).
Proof. unfold to_qualified_path. destruct (Hr m parent o st) as [E|E]; rewrite E; [now left|now right]. Qed.
Lemma more_is_type_var m parent o st : more (is_type_var_object_path parse1 resolve1 m parent o st) (is_type_var_object_path parse2 resolve2 m parent o st).
Proof.
  unfold is_type_var_object_path. apply more_bind; [apply more_qualified|]. intros st1 q. apply more_bind; [apply Hp|]. intros st2 _.
  apply more_bind; [apply more_refl|]. intros st3 ns.
  assert (X : forall func, more (match to_maybe_path func with None => Done st3 false | Some p => sbind (resolve1 (fst q) [] p st3) (fun st c => Done st (c == TypeVar_path)) end)
                                (match to_maybe_path func with None => Done st3 false | Some p => sbind (resolve2 (fst q) [] p st3) (fun st c => Done st (c == TypeVar_path)) end)).
  { intros func. destruct (to_maybe_path func); [|apply more_refl]. apply more_bind; [apply Hr|]. intros; apply more_refl. }
  destruct (dget_or (snd q) [] ns) as [|s [|s' r]]; [apply more_refl| |destruct s; try apply more_refl].
  - destruct s as [t a [v|]|ts v| | | | | | | ]; try apply more_refl; destruct v; first [apply more_refl|apply X].
Qed.
Lemma more_type_variables m parent arguments : forall st, more (type_variables parse1 resolve1 m parent arguments st) (type_variables parse2 resolve2 m parent arguments st).
Proof.
  induction arguments as [|a r IH]; intros st; cbn [type_variables]; [apply more_refl|]. destruct (to_maybe_path a); [|apply IH].
  apply more_bind; [apply more_is_type_var|]. intros st1 b. apply more_bind; [apply IH|]. intros; apply more_refl.
Qed.
Lemma more_base m parent name body base st : more (visit_base parse1 resolve1 m parent name body base st) (visit_base parse2 resolve2 m parent name body base st).
Proof.
  unfold visit_base.
  assert (P : more (sbind (pure st (to_path base)) (fun st p => sbind (to_qualified_path resolve1 m parent p st) (fun st q =>
                 if q == NamedTuple_path then sbind (pure st (named_tuple_to_constructor name body)) (fun st constructor =>
                   Done (add_superclass m (parent ++ [name]) q (add_ast_node m parent [name] constructor st)) [])
                 else if q == Protocol_path then Done st [] else if q == Generic_path then Fails AssertionError
                 else Done (add_base (m, parent ++ [name]) base st) ([] : list path))))
               (sbind (pure st (to_path base)) (fun st p => sbind (to_qualified_path resolve2 m parent p st) (fun st q =>
                 if q == NamedTuple_path then sbind (pure st (named_tuple_to_constructor name body)) (fun st constructor =>
                   Done (add_superclass m (parent ++ [name]) q (add_ast_node m parent [name] constructor st)) [])
                 else if q == Protocol_path then Done st [] else if q == Generic_path then Fails AssertionError
                 else Done (add_base (m, parent ++ [name]) base st) [])))).
  { apply more_bind; [apply more_refl|]. intros st1 p. apply more_bind; [apply more_qualified|]. intros; apply more_refl. }
  destruct base; try exact P. clear P.
  apply more_bind; [apply more_refl|]. intros st1 arguments. apply more_bind; [apply more_type_variables|]. intros st2 vars.
  destruct (to_maybe_path base1); [|apply more_refl]. apply more_bind; [apply Hr|]. intros; apply more_refl.
Qed.
Lemma more_bases m parent name body bases : forall st, more (visit_bases parse1 resolve1 m parent name body bases st) (visit_bases parse2 resolve2 m parent name body bases st).
Proof.
  induction bases as [|b r IH]; intros st; cbn [visit_bases]; [apply more_refl|].
  apply more_bind; [apply more_base|]. intros st1 vars. apply more_bind; [apply IH|]. intros; apply more_refl.
Qed.
Lemma more_names m parent names : forall st, more (resolve_names resolve1 m parent names st) (resolve_names resolve2 m parent names st).
Proof.
  induction names as [|n r IH]; intros st; cbn [resolve_names]; [apply more_refl|].
  apply more_bind; [apply Hr|]. intros st1 q. apply more_bind; [apply IH|]. intros; apply more_refl.
Qed.
Lemma more_visit m s : forall parent st, more (visit is_package condition parse1 resolve1 m parent s st) (visit is_package condition parse2 resolve2 m parent s st).
Proof.
  induction s as [t a v|ts v|f|f|name bases body IH|test b o IHb IHo|ns|mo ns l|ch IH] using stmt_ind'; intros parent st; cbn [visit]; try apply more_refl.
  - apply more_bind; [apply more_refl|]. intros st1 p. destruct (match v with None => None | Some v => to_maybe_path v end); [|apply more_refl].
    apply more_bind; [apply more_qualified|]. intros; apply more_refl.
  - destruct (to_maybe_path v); [|apply more_refl]. apply more_bind; [apply more_qualified|]. intros; apply more_refl.
  - rewrite Forall_forall in IH. apply more_bind; [apply more_bases|]. intros st1 vars. apply more_each. intros x st2 I. now apply IH.
  - rewrite Forall_forall in IHb, IHo. apply more_bind; [apply more_names|]. intros st1 bindings. apply more_bind; [apply more_refl|].
    intros st2 c. apply more_each. intros x st3 I. destruct c; [now apply IHb|now apply IHo].
  - rewrite Forall_forall in IH. apply more_each. intros x st2 I. now apply IH.
Qed.
End Visiting.
End Parsing.
Lemma more_scope f1 : forall f2 m st, f1 <= f2 -> more (parse_stub_scope source is_package condition f1 m st) (parse_stub_scope source is_package condition f2 m st).
Proof.
  induction f1 as [|f1 IH]; intros f2 m st L.
  - cbn [parse_stub_scope]. destruct f2; cbn [parse_stub_scope]; [apply more_refl|]. destruct (mem m (visited st)); [apply more_refl|now left].
  - destruct f2 as [|f2]; [lia|]. cbn [parse_stub_scope]. destruct (mem m (visited st)); [apply more_refl|].
    destruct (source m); [|apply more_refl]. apply more_bind; [|intros; apply more_refl].
    assert (P : forall m st, more (parse_stub_scope source is_package condition f1 m st) (parse_stub_scope source is_package condition f2 m st))
      by (intros; apply IH; lia).
    apply more_each. intros x st2 _. apply more_visit; [exact P|]. intros. apply more_resolve; [exact P|lia].
Qed.
Lemma more_modules f1 f2 ms : f1 <= f2 -> more (parse_modules source is_package condition f1 ms) (parse_modules source is_package condition f2 ms).
Proof.
  intros L. apply more_each. intros m st _. apply more_bind; [now apply more_scope|]. intros; apply more_refl.
Qed.
End Reading.

(** ** Specialisations *)
Definition rmore {A} (x y : res A) : Prop := x = Err RecursionError \/ y = x.
Lemma rmore_refl {A} (x : res A) : rmore x x.
Proof. now right. Qed.
Lemma rmore_bind {A B} (x y : res A) (F G : A -> res B) : rmore x y -> (forall a, rmore (F a) (G a)) -> rmore (bind_res x F) (bind_res y G).
Proof. intros [->| ->] H; [now left|]. destruct x; [apply H|now right]. Qed.
Section Specializing.
Variable printable : N -> bool.
Variables l1 l2 : nat.
Hypothesis L : l1 <= l2.
Lemma rmore_resolve m parent o st : rmore (resolve_stub l1 m parent o st) (resolve_stub l2 m parent o st).
Proof.
  unfold resolve_stub. destruct (resolve_object_path (db st) l1 m parent o []) as [q| |e] eqn:E.
  all: try (right; rewrite (@resolve_more _ _ _ _ _ _ _ _ L E); [reflexivity|discriminate]).
  destruct e; try (right; rewrite (@resolve_more _ _ _ _ _ _ _ _ L E); [reflexivity|discriminate]). now left.
Qed.
Ltac bind := apply rmore_bind; [first [apply rmore_refl|apply rmore_resolve]|intros ?].
Lemma rmore_dependencies sm gm an names : forall st, rmore (add_dependencies l1 sm gm an names st) (add_dependencies l2 sm gm an names st).
Proof. induction names as [|n r IH]; intros st; cbn [add_dependencies]; [apply rmore_refl|]. bind. apply IH. Qed.
Lemma rmore_fields g sm s t an fields : forall st, rmore (specialize_fields l1 g sm s t an fields st) (specialize_fields l2 g sm s t an fields st).
Proof.
  induction fields as [|n r IH]; intros st; cbn [specialize_fields]; [apply rmore_refl|]. do 4 bind.
  apply rmore_bind; [apply rmore_dependencies|]. intros st1. do 2 bind. apply IH.
Qed.
Lemma rmore_specialization g sm s ps args st : rmore (register_generic_specialization l1 g sm s ps args st) (register_generic_specialization l2 g sm s ps args st).
Proof. unfold register_generic_specialization. do 3 bind. apply rmore_fields. Qed.
Lemma rmore_generic_base g cm s t i st : rmore (register_generic_base printable l1 g cm s t i st) (register_generic_base printable l2 g cm s t i st).
Proof.
  unfold register_generic_base. bind. destruct (nth_error a i) as [b|]; [|apply rmore_refl].
  apply rmore_bind; [|intros; apply rmore_refl].
  destruct b; try (do 2 bind; apply rmore_refl). do 3 bind. destruct (dmem a1 (entries a2)); [apply rmore_refl|].
  destruct a0; try apply rmore_refl. do 3 bind. apply rmore_bind; [apply rmore_specialization|]. intros; apply rmore_refl.
Qed.
Lemma rmore_generic_bases g cm s t is_ : forall st, rmore (register_generic_bases printable l1 g cm s t is_ st) (register_generic_bases printable l2 g cm s t is_ st).
Proof.
  induction is_ as [|i r IH]; intros st; cbn [register_generic_bases]; [apply rmore_refl|].
  apply rmore_bind; [apply rmore_generic_base|]. intros; apply IH.
Qed.
Lemma rmore_register base child st : rmore (register_base_ast_node printable l1 base child st) (register_base_ast_node printable l2 base child st).
Proof.
  unfold register_base_ast_node. destruct base; try (do 2 bind; apply rmore_refl). do 2 bind.
  destruct (dmem a (entries a0)); [apply rmore_refl|]. do 3 bind. apply rmore_bind; [apply rmore_specialization|]. intros st1.
  destruct (dmem _ _); [apply rmore_refl|]. bind. apply rmore_bind; [apply rmore_generic_bases|]. intros; apply rmore_refl.
Qed.
Lemma rmore_bases child is_ : forall st, rmore (process_bases printable l1 child is_ st) (process_bases printable l2 child is_ st).
Proof.
  induction is_ as [|i r IH]; intros st; cbn [process_bases]; [apply rmore_refl|]. bind.
  destruct (nth_error a i); [|apply rmore_refl]. apply rmore_bind; [apply rmore_register|]. intros; apply IH.
Qed.
Lemma rmore_classes cs : forall st, rmore (process_classes printable l1 cs st) (process_classes printable l2 cs st).
Proof.
  induction cs as [|[c n] r IH]; intros st; cbn [process_classes]; [apply rmore_refl|].
  apply rmore_bind; [apply rmore_bases|]. intros; apply IH.
Qed.
Lemma rmore_all st : rmore (process_classes_bases printable l1 st) (process_classes_bases printable l2 st).
Proof. unfold process_classes_bases. destruct (_ || _); [apply rmore_refl|apply rmore_classes]. Qed.
End Specializing.
Lemma rmore_state source is_package condition printable l1 l2 f1 f2 ms : l1 <= l2 -> f1 <= f2 ->
  rmore (parse_stubs_state source is_package condition printable l1 f1 ms) (parse_stubs_state source is_package condition printable l2 f2 ms).
Proof.
  intros L F. unfold parse_stubs_state. destruct (more_modules source is_package condition f1 f2 ms F) as [E|E]; rewrite E; [now left|].
  destruct (parse_modules source is_package condition f1 ms); [now apply rmore_all|apply rmore_refl|apply rmore_refl].
Qed.
