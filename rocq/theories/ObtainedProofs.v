(** Proofs that signatures obtained are well formed. *)
From Verif Require Import Base Models SpecCall SpecObtained ModelsProofs ModelsMore Ast Conversion Scoping Signatures.

Section WellFormed.
Context {V : Type}.
Variable is_NONE : V -> bool.
Notation proper := (proper is_NONE).
Notation well_formed := (well_formed is_NONE).
Lemma proper_good p : proper p <-> good_parameter is_NONE p.
Proof.
  destruct p as [a k n|a [v|] k n]; cbn; [easy| |].
  - split.
    + intros [H1 H2]. split; [now apply H2|]. split; intros ->; specialize (H1 ltac:(auto)); discriminate.
    + intros (H1 & H2 & H3). split; [tauto|]. intros w E. now inv E.
  - easy.
Qed.
Lemma well_formed_built s : well_formed s <-> built is_NONE s.
Proof.
  assert (A : forall p, Forall proper (parameters p) /\ legal_parameters (views (parameters p)) <-> built_plain is_NONE p).
  { intros p. rewrite built_plain_spec, good_list_legal. split; intros [H1 H2]; (split; [|easy]);
      (eapply Forall_impl; [|exact H1]; intros q; apply proper_good). }
  destruct s as [p|ps]; unfold well_formed.
  - cbn [built]. rewrite <- A. split; [intros [H _]; now inv H|auto].
  - rewrite built_overloaded. split; intros [H1 H2]; (split; [|easy]);
      (eapply Forall_impl; [|exact H1]; intros q; apply A).
Qed.
End WellFormed.

Section Obtained.
Context {V O : Type} {H : Eqb O}.
Variables (is_NONE is_Ellipsis : V -> bool) (Any Self TypeSelf : V) (evaluate : expr -> path -> path -> res V)
  (stubs : stubs_tables) (limit : nat).
Notation good := (good_parameter is_NONE).
Notation wf := (built is_NONE).

Lemma map_m_all {A B} (f : A -> res B) (Q : B -> Prop) xs ys :
  (forall x y, f x = Ok y -> Q y) -> map_m f xs = Ok ys -> Forall Q ys.
Proof.
  intros Hf. revert ys. induction xs as [|x xs IH]; cbn; intros ys E; [inv E; constructor|].
  destruct (f x) as [y|] eqn:Ex; [|discriminate]. cbn in E. destruct (map_m f xs) as [l|]; [|discriminate].
  inv E. constructor; eauto.
Qed.
Lemma omap_all {A B} (f : A -> outcome B) (Q : B -> Prop) xs ys :
  (forall x y, f x = Return y -> Q y) -> omap f xs = Return ys -> Forall Q ys.
Proof.
  intros Hf. revert ys. induction xs as [|x xs IH]; cbn; intros ys E; [inv E; constructor|].
  destruct (f x) as [y| |] eqn:Ex; try discriminate. cbn in E. destruct (omap f xs) as [l| |]; try discriminate.
  inv E. constructor; eauto.
Qed.
Lemma required_good a k n p : new_required a k n = Ok p -> good p.
Proof. intros E. apply built_good. left. eauto. Qed.
Lemma optional_good a d k n p : new_optional is_NONE a d k n = Ok p -> good p.
Proof. intros E. apply built_good. right. eauto 6. Qed.
Hint Resolve required_good optional_good : core.

Lemma plain_built ps r s : Forall good ps -> map_res Plain (new_plain ps r) = Ok s -> wf s.
Proof.
  intros F E. destruct (new_plain ps r) as [p|] eqn:Ep; [|discriminate]. inv E. cbn.
  exists ps, r. split; [|easy]. eapply Forall_impl; [|exact F]. intros q. apply built_good.
Qed.
Lemma combined_built ss s : Forall wf ss -> from_signatures ss = Ok s -> wf s.
Proof.
  intros F. rewrite from_signatures_combined. unfold combined.
  assert (G : Forall (built_plain is_NONE) (flat_map flatten_signature ss)).
  { rewrite Forall_forall in *. intros p Hp. apply in_flat_map in Hp as (t & Ht & Hp).
    specialize (F t Ht). destruct t as [q|qs]; cbn in Hp.
    - now destruct Hp as [<-|[]].
    - apply built_overloaded in F as [F _]. rewrite Forall_forall in F. auto. }
  destruct (flat_map flatten_signature ss) as [|p [|q l]]; intros E; inv E.
  - now inv G.
  - apply built_overloaded. split; [easy|]. cbn. lia.
Qed.
Lemma bound_built s a k t : wf s -> call_bind is_NONE s a k = Ok t -> wf t.
Proof.
  intros W E. unfold call_bind, call_method in E. destruct (dmem $"self" k); [discriminate|].
  destruct (overloaded_bind_total is_NONE s a k W) as [(t' & E' & Ht)|E']; congruence.
Qed.

Lemma parameter_good a d m p k q : parameter_from_ast_node is_NONE is_Ellipsis Any evaluate a d m p k = Ok q -> good q.
Proof.
  unfold parameter_from_ast_node. destruct (match arg_annotation a with None => Ok Any | Some e => evaluate e m p end); [|discriminate].
  cbn [bind_res]. destruct d as [e|]; [destruct (evaluate e m p) as [v|]; [|discriminate]; cbn [bind_res]; eauto|].
  destruct (is_variadic k); eauto.
Qed.
Lemma variadic_good a k m p l : to_variadic_parameter is_NONE is_Ellipsis Any evaluate a k m p = Ok l -> Forall good l.
Proof.
  unfold to_variadic_parameter. destruct a as [a|]; [|intros E; inv E; constructor].
  destruct (parameter_from_ast_node _ _ _ _ a None m p k) eqn:E; [|discriminate]. intros X. inv X.
  constructor; [eapply parameter_good; eauto|constructor].
Qed.
Lemma parameters_good a m p l : all_parameters is_NONE is_Ellipsis Any evaluate a m p = Ok l -> Forall good l.
Proof.
  unfold all_parameters. intros E.
  destruct (to_positional_parameters _ _ _ _ a m p) as [l1|] eqn:E1; [|discriminate]. cbn in E.
  destruct (to_variadic_parameter _ _ _ _ (vararg a) _ m p) as [l2|] eqn:E2; [|discriminate]. cbn in E.
  destruct (to_keyword_parameters _ _ _ _ a m p) as [l3|] eqn:E3; [|discriminate]. cbn in E.
  destruct (to_variadic_parameter _ _ _ _ (kwarg a) _ m p) as [l4|] eqn:E4; [|discriminate]. cbn in E. inv E.
  rewrite !Forall_app. repeat split.
  - eapply map_m_all; [|exact E1]. intros [[x|] d] y Ey; [eapply parameter_good; eauto|discriminate].
  - eapply variadic_good; eauto.
  - eapply map_m_all; [|exact E3]. intros [x d] y Ey. eapply parameter_good; eauto.
  - eapply variadic_good; eauto.
Qed.
Lemma replaced_good v ps l : Forall good ps -> replace_first v ps = Ok l -> Forall good l.
Proof.
  destruct ps as [|p ps]; [discriminate|]. intros F E. cbn in E. inv E. inv F. constructor; [|easy]. cbn. easy.
Qed.
Lemma deleted_good ps l : Forall good ps -> delete_first ps = Ok l -> Forall good l.
Proof. destruct ps as [|p ps]; [discriminate|]. intros F E. cbn in E. inv E. now inv F. Qed.

Lemma function_built f b m p s :
  from_function_def is_NONE is_Ellipsis Any Self TypeSelf evaluate stubs limit f b m p = Return s -> wf s.
Proof.
  unfold from_function_def. destruct (parameters_from _ _ _ _ _ _ _ _ f b m p) as [ps| |] eqn:E; try discriminate. cbn.
  destruct (returns_annotation_from _ _ _ f b m p) as [r|]; try discriminate. cbn. intros X.
  apply (@plain_built ps r). 2:{ destruct (map_res Plain (new_plain ps r)); inv X; easy. }
  clear X. unfold parameters_from in E.
  destruct (all_parameters _ _ _ _ (fd_args f) m p) as [l|] eqn:El; [|discriminate]. cbn in E.
  apply parameters_good in El. destruct b.
  - destruct (delete_first l) eqn:X; inv E. eapply deleted_good; eauto.
  - destruct (any_classmethod _ _ _ m p) as [[]| |]; try discriminate; cbn in E.
    + destruct (replace_first TypeSelf l) eqn:X; inv E. eapply replaced_good; eauto.
    + destruct (lookup m (nodes_kinds stubs)) as [ks| |]; try discriminate. cbn in E.
      destruct (dget p ks) as [[]|]; try (inv E; easy).
      destruct (replace_first Self l) eqn:X; inv E. eapply replaced_good; eauto.
Qed.

Lemma callable_built item m p s : from_callable_subscript is_NONE Any evaluate item m p = Ok s -> wf s.
Proof.
  destruct item; try discriminate. unfold from_callable_subscript. destruct elts as [|x [|y [|z l]]]; try discriminate.
  assert (G : forall i l ps, callable_parameters evaluate i l m p = Ok ps -> Forall good ps).
  { intros i l. revert i. induction l as [|a l IH]; intros i ps E; cbn in E; [inv E; constructor|].
    destruct (evaluate a m p); [|discriminate]. cbn in E.
    destruct (callable_parameters evaluate (S i) l m p) as [r|] eqn:Er; [|discriminate]. inv E.
    constructor; [cbn; easy|eauto]. }
  destruct x; intros E;
    try (destruct (evaluate y m p) as [r|]; [|discriminate];
         refine (@plain_built [OptionalParameter Any None VARIADIC_POSITIONAL $"args";
                               OptionalParameter Any None VARIADIC_KEYWORD $"kwargs"] r s _ E); repeat (constructor; [exact I|]); constructor).
  destruct (callable_parameters evaluate 0 elts m p) as [ps|] eqn:Ep; [|discriminate]. cbn [bind_res] in E.
  destruct (evaluate y m p) as [r|]; [|discriminate]. refine (@plain_built ps r s _ E). eauto.
Qed.

Notation from_expression := (from_expression_node is_NONE is_Ellipsis Any Self TypeSelf evaluate stubs limit).
Notation from_statement := (from_statement_node is_NONE is_Ellipsis Any Self TypeSelf evaluate stubs limit).
Lemma nodes_built b v fuel :
  (forall e m p s, from_expression b v fuel e m p = Return s -> wf s)
  /\ (forall n m p s, from_statement b v fuel n m p = Return s -> wf s).
Proof.
  induction fuel as [|fuel [IHe IHs]]; [split; discriminate|]. split.
  - assert (P : forall o m p s,
      (do '(m, o) <- of_resolution (resolve stubs limit m p o);
       do kinds <- lookup m (nodes_kinds stubs);
       do k <- lookup o kinds;
       if is_CLASS k then
         do nodes <- load_ast_nodes stubs m (o ++ [call_name]);
         do signatures <- omap (fun node => from_statement b v fuel node m []) nodes;
         do bound <- omap (fun s => of_res (call_bind is_NONE s [v] [])) signatures;
         of_res (from_signatures bound)
       else
         do nodes <- lookup m (raw_ast_nodes stubs);
         do nodes <- lookup o nodes;
         match nodes with
         | [node] => from_statement b v fuel node m []
         | _ => SignatureNotFound
         end) = Return s -> wf s).
    { intros o m p s E. destruct (of_resolution (resolve stubs limit m p o)) as [[m' o']| |]; try discriminate. cbn [obind] in E.
      destruct (lookup m' (nodes_kinds stubs)) as [ks| |]; try discriminate. cbn [obind] in E.
      destruct (lookup o' ks) as [k| |]; try discriminate. cbn [obind] in E. destruct (is_CLASS k).
      - destruct (load_ast_nodes stubs m' (o' ++ [call_name])) as [ns| |]; try discriminate. cbn [obind] in E.
        destruct (omap (fun node => from_statement b v fuel node m' []) ns) as [ss| |] eqn:E1; try discriminate. cbn [obind] in E.
        destruct (omap (fun s => of_res (call_bind is_NONE s [v] [])) ss) as [ts| |] eqn:E2; try discriminate. cbn [obind] in E.
        assert (F : Forall wf ss) by (eapply omap_all; [|exact E1]; intros x y Ey; exact (IHs _ _ _ _ Ey)).
        apply (@combined_built ts). 2:{ destruct (from_signatures ts); inv E; easy. }
        clear E E1. revert ts E2. induction F as [|x l W F IH]; cbn [omap]; intros ts E; [inv E; constructor|].
        destruct (call_bind is_NONE x [v] []) as [t|] eqn:Et; [|discriminate]. cbn [of_res obind] in E.
        destruct (omap _ l) as [r| |]; try discriminate. inv E. constructor; [eapply bound_built; eauto|auto].
      - destruct (lookup m' (raw_ast_nodes stubs)) as [t| |]; try discriminate. cbn [obind] in E.
        destruct (lookup o' t) as [[|x [|y l]]| |]; try discriminate. eauto. }
    intros e m p s E. cbn [from_expression_node] in E.
    destruct e as [id|e attr|e slice| | | |func arguments keywords| | | |]; try discriminate; cbn beta iota in E.
    + destruct (to_path (Name id)) as [o|]; [|discriminate]. eapply P; exact E.
    + destruct (to_path (Attribute e attr)) as [o|]; [|discriminate]. eapply P; exact E.
    + destruct (to_path e) as [o|]; [|discriminate]. cbn [of_res obind] in E.
      destruct (of_resolution (resolve stubs limit m p o)) as [q| |]; try discriminate. cbn [obind] in E.
      destruct (q == _); [|discriminate]. destruct (from_callable_subscript _ _ _ slice m p) eqn:X; inv E. eapply callable_built; eauto.
    + destruct (to_path func) as [o|]; [|discriminate]. cbn [of_res obind] in E.
      destruct (of_resolution (resolve stubs limit m p o)) as [q| |]; try discriminate. cbn [obind] in E.
      destruct (q == _); [|discriminate]. destruct (find _ keywords) as [[k x]|]; [exact (IHe _ _ _ _ E)|].
      destruct (omap _ (tl arguments)) as [ss| |] eqn:X; try discriminate. cbn [obind] in E.
      apply (@combined_built ss). 2:{ destruct (from_signatures ss); inv E; easy. }
      eapply omap_all; [|exact X]. intros x y Ey. exact (IHe _ _ _ _ Ey).
  - intros n m p s E. cbn [from_statement_node] in E. destruct n; try discriminate; eauto. eapply function_built; eauto.
Qed.

Lemma introspected_built r s : from_raw_signature is_NONE Any r = Ok s -> wf s.
Proof.
  unfold from_raw_signature. destruct (map_m _ _) as [ps|] eqn:E; [|discriminate]. cbn [bind_res].
  apply plain_built. eapply map_m_all; [|exact E]. intros x y Ey. unfold parameter_from_raw in Ey.
  destruct (kind_of_value (raw_kind x)) as [k|]; [|discriminate]. cbn [bind_res] in Ey.
  destruct (raw_default x); [eauto|]. destruct (is_variadic k); eauto.
Qed.

Variables (sys_modules : dict pystr O) (getattr : O -> pystr -> option O) (own : O -> qualified_path)
  (introspect : O -> res (raw_signature V)) (is_type : O -> bool) (as_value : O -> V)
  (table : dict path (dict path (list qualified_path))).
Notation from_stub := (from_stub_callable is_NONE is_Ellipsis Any Self TypeSelf evaluate stubs limit sys_modules getattr
  own is_type as_value table).
Lemma stub_built o s : from_stub o = Return s -> wf s.
Proof.
  unfold from_stub_callable. destruct (to_qualified_paths _ _ _ _ _ _ o) as [l| |]; try discriminate. cbn [obind].
  induction l as [|[m p] l IH]; cbn [first_location]; [discriminate|].
  destruct (load_ast_nodes stubs m p) as [ns| |]; try discriminate. cbn [obind].
  destruct (omap _ ns) as [ss| |] eqn:E; try discriminate; [|exact IH]. intros X.
  apply (@combined_built ss). 2:{ destruct (from_signatures ss); inv X; easy. }
  eapply omap_all; [|exact E]. intros x y Ey. eapply (proj2 (nodes_built _ _ _)); exact Ey.
Qed.
Lemma from_bound_built u v s :
  from_bound is_NONE is_Ellipsis Any Self TypeSelf evaluate stubs limit sys_modules getattr own is_type as_value table u v = Return s ->
  wf s.
Proof.
  unfold from_bound. destruct u as [u|]; [|discriminate]. cbn [of_res obind].
  destruct (from_stub u) as [t| |] eqn:E; try discriminate. cbn [obind]. intros X.
  destruct (call_bind is_NONE t [v] []) eqn:Y; inv X. eapply bound_built; [|exact Y]. eapply stub_built; eauto.
Qed.
Lemma type_built o s :
  from_type_callable is_NONE is_Ellipsis Any Self TypeSelf evaluate stubs limit sys_modules getattr own is_type as_value table o = Return s ->
  wf s.
Proof.
  unfold from_type_callable. destruct (resolve_qualified_paths _ _ _ _ _ _ o) as [l| |]; try discriminate. cbn [obind].
  destruct (is_nil l); [discriminate|]. destruct (resolve_builder_qualified_path stubs limit l) as [[m p]| |]; try discriminate. cbn [obind].
  destruct (load_ast_nodes stubs m p) as [ns| |]; try discriminate. cbn [obind].
  destruct (omap _ ns) as [ss| |] eqn:E; try discriminate. cbn [obind]. intros X.
  apply (@combined_built ss). 2:{ destruct (from_signatures ss); inv X; easy. }
  eapply omap_all; [|exact E]. intros x y Ey. eapply (proj2 (nodes_built _ _ _)); exact Ey.
Qed.
Lemma or_introspect_built x raw s :
  (forall t, x = Return t -> wf t) -> or_introspect is_NONE Any x raw = Ok s -> wf s.
Proof.
  intros W. unfold or_introspect. destruct x as [t| |]; intros E; [inv E; auto| |discriminate].
  destruct raw as [r|]; [|discriminate]. cbn [bind_res] in E. eapply introspected_built; eauto.
Qed.
Lemma obtained_built c s :
  from_callable is_NONE is_Ellipsis Any Self TypeSelf evaluate stubs limit sys_modules getattr own introspect is_type as_value table c = Ok s ->
  wf s.
Proof.
  revert s. induction c as [o r|o|o r|o r|o|o|c IH a k|]; intros s; cbn [from_callable].
  - apply or_introspect_built. destruct r; intros t; first [apply stub_built | apply from_bound_built].
  - apply or_introspect_built. intros t. apply stub_built.
  - apply or_introspect_built. destruct r; intros t; first [apply stub_built | apply from_bound_built].
  - destruct r; try discriminate. apply or_introspect_built. intros t. apply from_bound_built.
  - apply or_introspect_built. intros t. apply stub_built.
  - destruct (from_type_callable _ _ _ _ _ _ _ _ _ _ _ _ _ _ o) as [t| |] eqn:E; try discriminate.
    + intros X. inv X. eapply type_built; eauto.
    + destruct (introspect o) as [r|]; [|discriminate]. cbn [bind_res]. apply introspected_built.
  - destruct (from_callable _ _ _ _ _ _ _ _ _ _ _ _ _ _ _ c) as [t|]; [|discriminate]. cbn [bind_res].
    apply bound_built. now apply IH.
  - discriminate.
Qed.
End Obtained.
