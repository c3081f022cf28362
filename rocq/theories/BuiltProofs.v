(** Every signature that [from_callable] gives is made by the public constructors (C100). *)
From Verif Require Import Base Models SpecCall ModelsMore Ast Conversion Scoping Signatures SignaturesProofs.

Section Built.
Context {V : Type}.
Variables (is_NONE is_Ellipsis : V -> bool) (Any Self TypeSelf : V).
Variable evaluate : expr -> path -> path -> res V.
Variables (stubs : stubs_tables) (limit : nat).
Notation built := (built is_NONE).
Notation built_plain := (built_plain is_NONE).
Notation built_parameter := (built_parameter is_NONE).
Definition obuilt (x : outcome (signature V)) : Prop := forall s, x = Return s -> built s.

Lemma new_plain_built ps r s : Forall built_parameter ps -> map_res Plain (new_plain ps r) = Ok s -> built s.
Proof. intros B E. destruct (new_plain ps r) as [p|] eqn:N; [|discriminate]. injection E as <-. exists ps, r. auto. Qed.
Lemma map_m_Forall {A B} (P : B -> Prop) (f : A -> res B) l ys : (forall a b, In a l -> f a = Ok b -> P b) -> map_m f l = Ok ys -> Forall P ys.
Proof.
  revert ys. induction l as [|a l IH]; intros ys H E; cbn [map_m] in E; [injection E as <-; constructor|].
  destruct (f a) as [b|] eqn:Ea; [|discriminate]. cbn [bind_res] in E. destruct (map_m f l) as [bs|]; [|discriminate]. injection E as <-.
  constructor; [exact (H a b (or_introl eq_refl) Ea)|]. apply IH; [|reflexivity]. intros x y I; apply H; now right.
Qed.
Lemma omap_Forall {A B} (P : B -> Prop) (f : A -> outcome B) l ys : (forall a b, In a l -> f a = Return b -> P b) -> omap f l = Return ys -> Forall P ys.
Proof.
  revert ys. induction l as [|a l IH]; intros ys H E; cbn [omap] in E; [injection E as <-; constructor|].
  destruct (f a) as [b| |] eqn:Ea; try discriminate. cbn [obind] in E. destruct (omap f l) as [bs| |]; try discriminate. injection E as <-.
  constructor; [exact (H a b (or_introl eq_refl) Ea)|]. apply IH; [|reflexivity]. intros x y I; apply H; now right.
Qed.
Lemma from_signatures_built ss s : Forall built ss -> from_signatures ss = Ok s -> built s.
Proof.
  intros B E. rewrite from_signatures_combined in E.
  assert (F : Forall built_plain (flat_map flatten_signature ss)).
  { apply Forall_flat_map. eapply Forall_impl; [|exact B]. intros x. apply built_flatten. }
  destruct (flat_map flatten_signature ss) as [|a [|b l]] eqn:X; cbn [combined] in E; try discriminate; injection E as <-.
  - now inversion F.
  - apply built_overloaded. split; [exact F|cbn [length]; lia].
Qed.
Lemma bind_built s a k t : built s -> call_bind is_NONE s a k = Ok t -> built t.
Proof.
  unfold call_bind, call_method. destruct (dmem _ k); [discriminate|]. intros B E.
  destruct (@overloaded_bind_total V is_NONE s a k B) as [(t' & E' & B')|E']; rewrite E in E'; [now injection E' as <-|discriminate].
Qed.

(** ** Parameters *)
Lemma raw_built raw s : from_raw_signature is_NONE Any raw = Ok s -> built s.
Proof.
  unfold from_raw_signature. destruct (map_m _ _) as [ps|] eqn:M; [|discriminate]. cbn [bind_res]. apply new_plain_built.
  eapply map_m_Forall; [|exact M]. intros a b _. unfold parameter_from_raw. destruct (kind_of_value _); [|discriminate]. cbn [bind_res].
  destruct (raw_default a); [|destruct (is_variadic _)]; intros E; [right|right|left]; eauto.
Qed.
Lemma node_built a d m parent k p : parameter_from_ast_node is_NONE is_Ellipsis Any evaluate a d m parent k = Ok p -> built_parameter p.
Proof.
  unfold parameter_from_ast_node. destruct (match arg_annotation a with None => _ | Some _ => _ end); [|discriminate]. cbn [bind_res].
  destruct d as [e|]; [|destruct (is_variadic k)].
  - destruct (evaluate e m parent); [|discriminate]. cbn [bind_res]. intros E. right. eauto.
  - intros E. right. eauto.
  - intros E. left. eauto.
Qed.
Lemma all_built a m parent ps : all_parameters is_NONE is_Ellipsis Any evaluate a m parent = Ok ps -> Forall built_parameter ps.
Proof.
  unfold all_parameters.
  destruct (to_positional_parameters _ _ _ _ _ _ _) as [l1|] eqn:E1; [|discriminate]; cbn [bind_res].
  destruct (to_variadic_parameter _ _ _ _ (vararg a) _ _ _) as [l2|] eqn:E2; [|discriminate]; cbn [bind_res].
  destruct (to_keyword_parameters _ _ _ _ _ _ _) as [l3|] eqn:E3; [|discriminate]; cbn [bind_res].
  destruct (to_variadic_parameter _ _ _ _ (kwarg a) _ _ _) as [l4|] eqn:E4; [|discriminate]; cbn [bind_res]. intros [= <-].
  assert (VB : forall x k l, to_variadic_parameter is_NONE is_Ellipsis Any evaluate x k m parent = Ok l -> Forall built_parameter l).
  { intros [x|] k l; cbn [to_variadic_parameter]; [|intros [= <-]; constructor].
    destruct (parameter_from_ast_node _ _ _ _ _ _ _ _ _) eqn:E; [|discriminate]. intros [= <-]. constructor; [|constructor]. eapply node_built; eauto. }
  rewrite !Forall_app. repeat split; eauto.
  - eapply map_m_Forall; [|exact E1]. intros [x d] b _ E. cbn beta iota in E. destruct x; [|discriminate]. eapply node_built; eauto.
  - eapply map_m_Forall; [|exact E3]. intros [x d] b _ E. eapply node_built; eauto.
Qed.
Lemma function_built f is_type m parent : obuilt (from_function_def is_NONE is_Ellipsis Any Self TypeSelf evaluate stubs limit f is_type m parent).
Proof.
  intros s. unfold from_function_def, parameters_from.
  destruct (all_parameters _ _ _ _ _ _ _) as [ps|] eqn:E; [|discriminate]. cbn [of_res obind]. apply all_built in E.
  assert (X : forall x : outcome (list (parameter V)), (forall qs, x = Return qs -> Forall built_parameter qs) ->
    (do ps <- x; do returns <- of_res (returns_annotation_from Any Self evaluate f is_type m parent); of_res (map_res Plain (new_plain ps returns)))
    = Return s -> built s).
  { intros [qs| |] B; cbn [obind]; try discriminate. destruct (returns_annotation_from _ _ _ _ _ _ _) as [r|]; cbn [of_res obind]; [|discriminate].
    intros N. destruct (map_res Plain (new_plain qs r)) as [t|] eqn:Nt; [|discriminate]. injection N as <-. eapply new_plain_built; [|exact Nt]. now apply B. }
  apply X. clear X.
  assert (RB : forall a qs, of_res (replace_first a ps) = Return qs -> Forall built_parameter qs).
  { intros a qs. destruct ps as [|p ps]; cbn [replace_first]; [discriminate|].
    destruct (new_required a (IsKind POSITIONAL_ONLY) (p_name p)) as [q|] eqn:Q; [|discriminate]. intros [= <-]. inversion E. constructor; [left; eauto|assumption]. }
  destruct is_type.
  { intros qs. destruct ps as [|p ps]; cbn [delete_first]; [discriminate|]. intros [= <-]. now inversion E. }
  destruct (any_classmethod _ _ _ _ _) as [b| |]; cbn [obind]; try discriminate. destruct b; [apply RB|].
  destruct (lookup m _) as [kinds| |]; cbn [obind]; try discriminate.
  destruct (dget parent kinds) as [[]|]; try apply RB; intros qs [= <-]; exact E.
Qed.
Lemma callable_built index l m parent ps : callable_parameters evaluate index l m parent = Ok ps -> Forall built_parameter ps.
Proof.
  revert index ps. induction l as [|a l IH]; intros index ps; cbn [callable_parameters]; [intros [= <-]; constructor|].
  destruct (evaluate a m parent); [|discriminate]. cbn [bind_res]. destruct (new_required _ _ _) as [p|] eqn:P; [|discriminate]. cbn [bind_res].
  destruct (callable_parameters _ _ _ _ _) as [qs|] eqn:Q; [|discriminate]. intros [= <-]. constructor; [left; eauto|]. eapply IH. exact Q.
Qed.
Lemma subscript_built item m parent s : from_callable_subscript is_NONE Any evaluate item m parent = Ok s -> built s.
Proof.
  unfold from_callable_subscript. destruct item as [| | |l| | | | | | |]; try discriminate. destruct l as [|x [|y [|]]]; try discriminate.
  assert (X : (let* p := new_optional is_NONE Any None (IsKind VARIADIC_POSITIONAL) $"args" in
     let* q := new_optional is_NONE Any None (IsKind VARIADIC_KEYWORD) $"kwargs" in
     let* returns := evaluate y m parent in map_res Plain (new_plain [p; q] returns)) = Ok s -> built s).
  { destruct (new_optional _ _ _ (IsKind VARIADIC_POSITIONAL) _) as [p|] eqn:P; [|discriminate]. cbn [bind_res].
    destruct (new_optional _ _ _ (IsKind VARIADIC_KEYWORD) _) as [q|] eqn:Q; [|discriminate]. cbn [bind_res].
    destruct (evaluate y m parent); [|discriminate]. cbn [bind_res]. apply new_plain_built. constructor; [|constructor; [|constructor]]; right; eauto. }
  destruct x; try exact X. clear X. destruct (callable_parameters _ _ _ _ _) as [ps|] eqn:P; [|discriminate]. cbn [bind_res].
  destruct (evaluate y m parent); [|discriminate]. cbn [bind_res]. apply new_plain_built. eapply callable_built. exact P.
Qed.

(** ** Nodes *)
Section Nodes.
Variables (is_type : bool) (value : V).
Notation from_expression := (from_expression_node is_NONE is_Ellipsis Any Self TypeSelf evaluate stubs limit is_type value).
Notation from_statement := (from_statement_node is_NONE is_Ellipsis Any Self TypeSelf evaluate stubs limit is_type value).
Lemma of_res_return {A} (x : res A) a : of_res x = Return a -> x = Ok a.
Proof. destruct x; [intros [= ->]; reflexivity|discriminate]. Qed.
Lemma nodes_built fuel : (forall e m parent, obuilt (from_expression fuel e m parent)) /\ (forall n m parent, obuilt (from_statement fuel n m parent)).
Proof.
  induction fuel as [|fuel [IHe IHs]]; [split; intros ? ? ? s E; discriminate|]. split.
  - intros e m parent s.
    assert (P : forall p, (do '(m, o) <- of_resolution (resolve stubs limit m parent p);
        do kinds <- lookup m (nodes_kinds stubs);
        do k <- lookup o kinds;
        if is_CLASS k then
          do nodes <- load_ast_nodes stubs m (o ++ [call_name]);
          do signatures <- omap (fun node => from_statement fuel node m []) nodes;
          do bound <- omap (fun s => of_res (call_bind is_NONE s [value] [])) signatures;
          of_res (from_signatures bound)
        else
          do nodes <- lookup m (raw_ast_nodes stubs);
          do nodes <- lookup o nodes;
          match nodes with
          | [node] => from_statement fuel node m []
          | _ => SignatureNotFound
          end) = Return s -> built s).
    { intros p. destruct (of_resolution _) as [[m' o]| |]; cbn [obind]; try discriminate.
      destruct (lookup m' (nodes_kinds stubs)) as [kinds| |]; cbn [obind]; try discriminate.
      destruct (lookup o kinds) as [k| |]; cbn [obind]; try discriminate. destruct (is_CLASS k).
      - destruct (load_ast_nodes _ _ _) as [nodes| |]; cbn [obind]; try discriminate.
        destruct (omap _ nodes) as [ss| |] eqn:M; cbn [obind]; try discriminate.
        destruct (omap _ ss) as [bs| |] eqn:M'; cbn [obind]; try discriminate. intros E. apply of_res_return in E.
        eapply from_signatures_built; [|exact E].
        assert (F : Forall built ss) by (eapply omap_Forall; [|exact M]; intros a b _; apply IHs).
        rewrite Forall_forall in F. eapply omap_Forall; [|exact M']. intros a b I X. apply of_res_return in X. eapply bind_built; [|exact X]. now apply F.
      - destruct (lookup m' (raw_ast_nodes stubs)) as [t| |]; cbn [obind]; try discriminate.
        destruct (lookup o t) as [[|n [|]]| |]; cbn [obind]; try discriminate. apply IHs. }
    destruct e; cbn [from_expression_node]; try discriminate.
    + destruct (of_res (to_path _)) as [p| |]; cbn [obind]; try discriminate. apply P.
    + destruct (of_res (to_path _)) as [p| |]; cbn [obind]; try discriminate. apply P.
    + destruct (of_res (to_path _)) as [p| |]; cbn [obind]; try discriminate.
      destruct (of_resolution _) as [q| |]; cbn [obind]; try discriminate. destruct (_ == _); [|discriminate].
      intros E. apply of_res_return in E. eapply subscript_built. exact E.
    + destruct (of_res (to_path _)) as [p| |]; cbn [obind]; try discriminate.
      destruct (of_resolution _) as [q| |]; cbn [obind]; try discriminate. destruct (_ == _); [|discriminate].
      destruct (find _ _) as [[? bound]|]; [apply IHe|].
      destruct (omap _ _) as [ss| |] eqn:M; cbn [obind]; try discriminate. intros E. apply of_res_return in E.
      eapply from_signatures_built; [|exact E]. eapply omap_Forall; [|exact M]. intros a b _. apply IHe.
  - intros n m parent s. destruct n as [a v|v|f|]; cbn [from_statement_node]; [apply IHe|apply IHe|apply function_built|discriminate].
Qed.
End Nodes.

(** ** Callables *)
Context {O : Type} `{Eqb O}.
Variables (sys_modules : dict pystr O) (getattr : O -> pystr -> option O) (own : O -> qualified_path) (introspect : O -> res (raw_signature V)).
Variables (is_type : O -> bool) (as_value : O -> V) (table : dict path (dict path (list qualified_path))).
Notation from_stub := (from_stub_callable is_NONE is_Ellipsis Any Self TypeSelf evaluate stubs limit sys_modules getattr own is_type as_value table).
Lemma location_built build l : (forall n m parent, obuilt (build n m parent)) -> obuilt (first_location stubs build l).
Proof.
  intros B. induction l as [|[m o] l IH]; intros s; cbn [first_location]; [discriminate|].
  destruct (load_ast_nodes _ _ _) as [nodes| |]; cbn [obind]; try discriminate.
  destruct (omap _ nodes) as [ss| |] eqn:M; [|apply IH|discriminate]. intros E. apply of_res_return in E.
  eapply from_signatures_built; [|exact E]. eapply omap_Forall; [|exact M]. intros a b _. apply B.
Qed.
Lemma stub_built o : obuilt (from_stub o).
Proof.
  unfold from_stub_callable. intros s. destruct (to_qualified_paths _ _ _ _ _ _ _) as [l| |]; cbn [obind]; try discriminate.
  apply location_built. intros n m parent. apply nodes_built.
Qed.
Lemma bound_built u self : obuilt (from_bound is_NONE is_Ellipsis Any Self TypeSelf evaluate stubs limit sys_modules getattr own is_type as_value table u self).
Proof.
  unfold from_bound. intros s. destruct u as [u|]; cbn [of_res obind]; [|discriminate].
  destruct (from_stub u) as [t| |] eqn:E; cbn [obind]; try discriminate. intros X. apply of_res_return in X. eapply bind_built; [|exact X]. now apply stub_built with u.
Qed.
Lemma type_built o : obuilt (from_type_callable is_NONE is_Ellipsis Any Self TypeSelf evaluate stubs limit sys_modules getattr own is_type as_value table o).
Proof.
  unfold from_type_callable. intros s. destruct (resolve_qualified_paths _ _ _ _ _ _ _) as [l| |]; cbn [obind]; try discriminate.
  destruct (is_nil l); [discriminate|]. destruct (resolve_builder_qualified_path _ _ _) as [[m p]| |]; cbn [obind]; try discriminate.
  destruct (load_ast_nodes _ _ _) as [nodes| |]; cbn [obind]; try discriminate.
  destruct (omap _ nodes) as [ss| |] eqn:M; cbn [obind]; try discriminate. intros E. apply of_res_return in E.
  eapply from_signatures_built; [|exact E]. eapply omap_Forall; [|exact M]. intros a b _. apply nodes_built.
Qed.
Lemma introspect_built x raw s : obuilt x -> or_introspect is_NONE Any x raw = Ok s -> built s.
Proof.
  intros B. destruct x as [t| |]; cbn [or_introspect]; [intros [= <-]; now apply B| |discriminate].
  destruct raw as [r|]; [|discriminate]. cbn [bind_res]. apply raw_built.
Qed.
Lemma callable_is_built c s :
  from_callable is_NONE is_Ellipsis Any Self TypeSelf evaluate stubs limit sys_modules getattr own introspect is_type as_value table c = Ok s -> built s.
Proof.
  revert s. induction c as [o r|o|o r|o r|o|o|c IH a k|]; intros s; cbn [from_callable]; try discriminate.
  - destruct r; apply introspect_built; try apply stub_built; apply bound_built.
  - apply introspect_built, stub_built.
  - destruct r; apply introspect_built; try apply stub_built; apply bound_built.
  - destruct r; try discriminate. apply introspect_built, bound_built.
  - apply introspect_built, stub_built.
  - destruct (from_type_callable _ _ _ _ _ _ _ _ _ _ _ _ _ _ _) as [t| |] eqn:E; [intros [= <-]; now apply type_built in E| |discriminate].
    destruct (introspect o) as [raw|]; [|discriminate]. cbn [bind_res]. apply raw_built.
  - destruct (from_callable _ _ _ _ _ _ _ _ _ _ _ _ _ _ _ c) as [t|] eqn:E; [|discriminate]. cbn [bind_res]. apply bind_built. now apply IH.
Qed.
End Built.
Global Arguments callable_is_built {V is_NONE is_Ellipsis Any Self TypeSelf evaluate stubs limit O H sys_modules getattr own introspect is_type as_value table c s} _.
