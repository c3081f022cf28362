(** Proofs about processes that work with stored tables. *)
From Verif Require Import Base PySort Models Ast Conversion Scoping Stubs Signatures RawNodes SpecRaw RawProofs Reading
  SpecTables TablesProofs SpecRecords SpecCached Whole WholeProofs.
From Verif Require StoredTables.
Set Implicit Arguments.

(** ** What is seen of a tree *)
Section See.
Variable node_classes : classes.
Notation see := (see node_classes).
Notation same := (same node_classes).
Definition see_attributes := fix attributes (fields : list (pystr * bool)) (l : list (option value)) {struct l} : list (pystr * option seen) :=
    match fields, l with
    | (name, optional) :: fields, a :: l =>
        (name, match a with
               | Some v => Some (see v)
               | None => if optional : bool then Some (SeenConstant (Known CNone)) else None
               end) :: attributes fields l
    | _, _ => []
    end.
Lemma see_node class l : see (VNode class l) = interpret class (see_attributes (fields_of node_classes class) l).
Proof. reflexivity. Qed.
Lemma see_attribute optional a :
  match a with Some v => Some (see v) | None => if optional : bool then Some (SeenConstant (Known CNone)) else None end
  = option_map see (attribute optional a).
Proof. now destruct a, optional. Qed.
Lemma see_same v : forall v', same v v' -> see v = see v'.
Proof.
  induction v as [c|l IH|class l IH|class] using value_ind'; intros v' S; inversion S as [c0|l0 l' F|c0 fields l0 l' E A]; subst.
  - reflexivity.
  - cbn [Reading.see]. f_equal. clear S. induction F as [|x y l l' Hx _ IHF]; [reflexivity|].
    inversion IH as [|? ? H1 H2]; subst. cbn [map]. f_equal; [now apply H1|now apply IHF].
  - rewrite !see_node. f_equal. unfold fields_of. rewrite E. clear S E.
    induction A as [|name optional a a' fields l l' N N' _ IHA|name optional a a' v v' fields l l' N N' Sv _ IHA]; [reflexivity| |];
      inversion IH as [|? ? H1 H2]; subst; cbn [see_attributes]; rewrite !see_attribute, N, N'; cbn [option_map];
      rewrite IHA by assumption; [reflexivity|].
    replace (see v') with (see v); [reflexivity|]. destruct a as [w|]; cbn [attribute] in N.
    + injection N as ->. now apply H1.
    + destruct optional; [|discriminate]. injection N as <-. inversion Sv; subst. reflexivity.
Qed.

Hypothesis proper : proper_classes node_classes.
Variable printable : N -> bool.
Lemma reads_back v s : tree node_classes v -> see v = SeenStmt s -> reads_as node_classes (to_raw printable node_classes v) s.
Proof.
  intros T E. destruct v as [| |class l|]; try discriminate.
  destruct (raw_round_trip printable proper T) as (n & v' & S & H). exists n. intros fuel Hf. unfold statement_from_raw.
  now rewrite (H fuel Hf), <- (see_same S), E.
Qed.
Lemma reads_once raw s s' : reads_as node_classes raw s -> reads_as node_classes raw s' -> s = s'.
Proof.
  intros [n H] [n' H']. specialize (H (Nat.max n n') ltac:(lia)). specialize (H' (Nat.max n n') ltac:(lia)). congruence.
Qed.
Lemma all_read_once raws : forall ss ss', Forall2 (reads_as node_classes) raws ss -> Forall2 (reads_as node_classes) raws ss' -> ss = ss'.
Proof.
  induction raws as [|r raws IH]; intros ss ss' F F'; inversion F; inversion F'; subst; [reflexivity|].
  f_equal; [eapply reads_once; eauto|now apply IH].
Qed.
End See.

(** ** Lookups *)
Section Lookups.
Context {K : Type} `{Eqb K}.
Lemma same_lookups_trans {A B C} (P : A -> B -> Prop) (Q : B -> C -> Prop) (R : A -> C -> Prop) d d' d'' :
  (forall a b c, P a b -> Q b c -> R a c) -> same_lookups P d d' -> same_lookups Q d' d'' -> same_lookups R d d''.
Proof.
  intros T S S' k. specialize (S k). specialize (S' k). destruct (dget k d), (dget k d'), (dget k d''); try easy. eauto.
Qed.
Lemma same_lookups_sym {A B} (P : A -> B -> Prop) (Q : B -> A -> Prop) d d' :
  (forall a b, P a b -> Q b a) -> same_lookups P d d' -> same_lookups Q d' d.
Proof. intros T S k. specialize (S k). destruct (dget k d), (dget k d'); try easy. eauto. Qed.
Lemma same_lookups_map {A B} (f : A -> B) (d : dict K A) : same_lookups (fun b a => b = f a) (map (fun x => (fst x, f (snd x))) d) d.
Proof.
  intros k. induction d as [|[k' a] d IH]; [exact I|]. cbn [map fst snd].
  change (dget k ((k', f a) :: map (fun x => (fst x, f (snd x))) d)) with (if k == k' then Some (f a) else dget k (map (fun x => (fst x, f (snd x))) d)).
  change (dget k ((k', a) :: d)) with (if k == k' then Some a else dget k d). now destruct (k == k').
Qed.
Lemma same_lookups_impl {A B} (P Q : A -> B -> Prop) d d' : (forall a b, P a b -> Q a b) -> same_lookups P d d' -> same_lookups Q d d'.
Proof. intros T S k. specialize (S k). destruct (dget k d), (dget k d'); try easy. auto. Qed.
End Lookups.

Section Tables.
Variables (node_classes : classes) (printable : N -> bool).
Hypothesis proper : proper_classes node_classes.
Lemma texts_read st trees : describes node_classes trees st ->
  same_lookups (same_lookups (Forall2 (reads_as node_classes))) (StoredTables.raw_ast_nodes (tables_of node_classes printable st trees)) (nodes st).
Proof.
  intros D. cbn [tables_of StoredTables.raw_ast_nodes]. eapply same_lookups_trans; [|apply same_lookups_map|exact D].
  cbn beta. intros ? a b -> S. eapply same_lookups_trans; [|apply same_lookups_map|exact S]. cbn beta. intros ? l l' -> F.
  induction F as [|v s l l' [T E] _ IH]; constructor; [|exact IH]. now apply reads_back.
Qed.
Lemma works_same t st st' : same_database (db st) (StoredTables.stored t) -> same_lookups (same_lookups eq) (kinds st) (StoredTables.nodes_kinds t) ->
  same_lookups (same_lookups (Forall2 (reads_as node_classes))) (StoredTables.raw_ast_nodes t) (nodes st) ->
  works_with node_classes t st' -> same_state st st'.
Proof.
  intros S1 S2 S3 (W1 & W2 & W3). rewrite <- W1 in S1. rewrite <- W2 in S2. split; [exact S1|]. split; [exact S2|].
  eapply same_lookups_trans; [|eapply same_lookups_sym; [|exact S3]; intros a b X; exact X|exact W3].
  cbn beta. intros a b c X Y. eapply same_lookups_trans; [|eapply same_lookups_sym; [|exact X]; intros ? ? Z; exact Z|exact Y].
  cbn beta. intros l raws l' F F'. eapply all_read_once; eauto.
Qed.
Lemma stored_same st trees t : describes node_classes trees st -> same_tables (tables_of node_classes printable st trees) t ->
  same_database (db st) (StoredTables.stored t) /\ same_lookups (same_lookups eq) (kinds st) (StoredTables.nodes_kinds t)
  /\ same_lookups (same_lookups (Forall2 (reads_as node_classes))) (StoredTables.raw_ast_nodes t) (nodes st).
Proof.
  intros D (S1 & S2 & S3). split; [exact S1|]. split; [exact S2|].
  eapply same_lookups_trans; [|eapply same_lookups_sym; [|exact S3]; intros a b X; exact X|exact (texts_read D)].
  cbn beta. intros a b c X Y. eapply same_lookups_trans; [|eapply same_lookups_sym; [|exact X]; intros ? ? Z; exact Z|exact Y].
  cbn beta. now intros ? ? ? ->.
Qed.
Lemma works st trees t : describes node_classes trees st -> same_tables (tables_of node_classes printable st trees) t ->
  (exists st', works_with node_classes t st') /\ forall st', works_with node_classes t st' -> same_state st st'.
Proof.
  intros D S. destruct (stored_same D S) as (S1 & S2 & S3). split.
  - exists (mk_state (StoredTables.stored t) (nodes st) (StoredTables.nodes_kinds t) [] [] []). split; [reflexivity|]. split; [reflexivity|]. exact S3.
  - intros st' W. eapply works_same; eauto.
Qed.
End Tables.

(** ** Signatures look things up only *)
(** ... and of definitions, not at parameters before [/] *)
Definition same_but_slash (s s' : statement) : Prop :=
  s = s' \/ exists f f', s = FunctionDef f /\ s' = FunctionDef f' /\ fd_name f = fd_name f' /\ fd_decorators f = fd_decorators f'
    /\ fd_returns f = fd_returns f' /\ args (fd_args f) = args (fd_args f') /\ vararg (fd_args f) = vararg (fd_args f')
    /\ kwonlyargs (fd_args f) = kwonlyargs (fd_args f') /\ kw_defaults (fd_args f) = kw_defaults (fd_args f')
    /\ kwarg (fd_args f) = kwarg (fd_args f') /\ defaults (fd_args f) = defaults (fd_args f').
Section Same.
Context {V : Type}.
Variables (is_NONE is_Ellipsis : V -> bool) (Any Self TypeSelf : V).
Variables (evaluate evaluate' : expr -> path -> path -> res V).
Hypothesis Ee : forall e m p, evaluate e m p = evaluate' e m p.
Variables (stubs stubs' : stubs_tables) (limit : nat).
Hypothesis Sd : same_database (database_of stubs) (database_of stubs').
Hypothesis Sk : same_lookups (same_lookups eq) (nodes_kinds stubs) (nodes_kinds stubs').
Hypothesis Sn : same_lookups (same_lookups (Forall2 same_but_slash)) (raw_ast_nodes stubs) (raw_ast_nodes stubs').

Lemma omap_same {A B} (f g : A -> outcome B) l : (forall a, f a = g a) -> omap f l = omap g l.
Proof. intros E. induction l as [|a l IH]; [reflexivity|]. cbn [omap]. now rewrite E, IH. Qed.
Lemma map_m_same {A B} (f g : A -> res B) l : (forall a, f a = g a) -> map_m f l = map_m g l.
Proof. intros E. induction l as [|a l IH]; [reflexivity|]. cbn [map_m]. now rewrite E, IH. Qed.
Lemma obind_same {A B} (x : outcome A) (f g : A -> outcome B) : (forall a, f a = g a) -> obind x f = obind x g.
Proof. intros E. destruct x; cbn [obind]; auto. Qed.
Lemma same_resolve m p o : resolve stubs limit m p o = resolve stubs' limit m p o.
Proof. apply resolve_same, Sd. Qed.
Lemma same_classmethod e m p : is_classmethod stubs limit e m p = is_classmethod stubs' limit e m p.
Proof. unfold is_classmethod. destruct (to_maybe_path e); [|reflexivity]. now rewrite same_resolve. Qed.
Lemma same_any_classmethod ds m p : any_classmethod stubs limit ds m p = any_classmethod stubs' limit ds m p.
Proof. induction ds as [|d ds IH]; [reflexivity|]. cbn [any_classmethod]. rewrite same_classmethod, IH. reflexivity. Qed.
Lemma same_parameter a d m p k :
  parameter_from_ast_node is_NONE is_Ellipsis Any evaluate a d m p k = parameter_from_ast_node is_NONE is_Ellipsis Any evaluate' a d m p k.
Proof.
  unfold parameter_from_ast_node. destruct (arg_annotation a) as [e|].
  - rewrite Ee. destruct (evaluate' e m p); [|reflexivity]. cbn. destruct d as [e'|]; [|reflexivity]. now rewrite Ee.
  - cbn. destruct d as [e'|]; [|reflexivity]. now rewrite Ee.
Qed.
Lemma same_all_parameters a m p :
  all_parameters is_NONE is_Ellipsis Any evaluate a m p = all_parameters is_NONE is_Ellipsis Any evaluate' a m p.
Proof.
  unfold all_parameters, to_positional_parameters, to_keyword_parameters, to_variadic_parameter.
  rewrite (@map_m_same _ _ _ (fun '(parameter_ast, default_ast) =>
           match parameter_ast with
           | None => Err AttributeError
           | Some a => parameter_from_ast_node is_NONE is_Ellipsis Any evaluate' a default_ast m p POSITIONAL_ONLY
           end)) by (intros [[x|] y]; [apply same_parameter|reflexivity]).
  rewrite (@map_m_same _ _ _ (fun '(a, default_ast) => parameter_from_ast_node is_NONE is_Ellipsis Any evaluate' a default_ast m p KEYWORD_ONLY))
    by (intros [x y]; apply same_parameter).
  destruct (vararg a) as [x|], (kwarg a) as [y|]; rewrite ?same_parameter; reflexivity.
Qed.
Lemma same_function f t m p :
  from_function_def is_NONE is_Ellipsis Any Self TypeSelf evaluate stubs limit f t m p
  = from_function_def is_NONE is_Ellipsis Any Self TypeSelf evaluate' stubs' limit f t m p.
Proof.
  unfold from_function_def, parameters_from, returns_annotation_from. rewrite same_all_parameters, same_any_classmethod.
  assert (E : forall ps, (do kinds <- lookup m (nodes_kinds stubs);
      match dget p kinds with Some CLASS => of_res (replace_first Self ps) | _ => Return ps end)
    = (do kinds <- lookup m (nodes_kinds stubs');
      match dget p kinds with Some CLASS => of_res (replace_first Self ps) | _ => Return ps end)).
  { intros ps. unfold lookup. specialize (Sk m). destruct (dget m (nodes_kinds stubs)) as [ks|], (dget m (nodes_kinds stubs')) as [ks'|]; try easy.
    cbn [obind]. specialize (Sk p). destruct (dget p ks) as [k|], (dget p ks') as [k'|]; try easy. now subst. }
  destruct (of_res _) as [ps| |]; cbn [obind]; try reflexivity.
  replace (match fd_returns f with None => Ok Any | Some e => evaluate e m p end)
    with (match fd_returns f with None => Ok Any | Some e => evaluate' e m p end) by (destruct (fd_returns f); auto).
  destruct t; [reflexivity|]. destruct (any_classmethod _ _ _ _ _) as [[]| |]; cbn [obind]; try reflexivity. now rewrite E.
Qed.
Lemma omap_alike {A B C} (P : A -> B -> Prop) (f : A -> outcome C) (g : B -> outcome C) l l' :
  (forall a b, P a b -> f a = g b) -> Forall2 P l l' -> omap f l = omap g l'.
Proof. intros E. induction 1 as [|a b l l' H _ IH]; [reflexivity|]. cbn [omap]. now rewrite (E a b H), IH. Qed.
Lemma same_definition s s' t m p : same_but_slash s s' ->
  match s, s' with
  | FunctionDef f, FunctionDef f' => from_function_def is_NONE is_Ellipsis Any Self TypeSelf evaluate stubs limit f t m p
      = from_function_def is_NONE is_Ellipsis Any Self TypeSelf evaluate' stubs' limit f' t m p
  | FunctionDef _, _ | _, FunctionDef _ => False
  | _, _ => s = s'
  end.
Proof.
  intros [<- | (f & f' & -> & -> & E1 & E2 & E3 & E4 & E5 & E6 & E7 & E8 & E9)].
  - destruct s; auto. apply same_function.
  - rewrite same_function. destruct f as [n [po a1 a2 a3 a4 a5 a6] d r], f' as [n' [po' b1 b2 b3 b4 b5 b6] d' r'].
    cbn in *. subst. reflexivity.
Qed.
Lemma same_load {B} m o (f g : list statement -> outcome B) : (forall l l', Forall2 same_but_slash l l' -> f l = g l') ->
  obind (load_ast_nodes stubs m o) f = obind (load_ast_nodes stubs' m o) g.
Proof.
  intros E. unfold load_ast_nodes. specialize (Sn m). destruct (dget m (raw_ast_nodes stubs)) as [t|], (dget m (raw_ast_nodes stubs')) as [t'|]; try easy.
  specialize (Sn o). destruct (dget o t), (dget o t'); try easy. inversion Sn; subst; [reflexivity|]. cbn [obind]. now apply E.
Qed.
Lemma same_found_nodes {B} m o (f g : list statement -> outcome B) : (forall l l', Forall2 same_but_slash l l' -> f l = g l') ->
  (do t <- lookup m (raw_ast_nodes stubs); do x <- lookup o t; f x) = (do t <- lookup m (raw_ast_nodes stubs'); do x <- lookup o t; g x).
Proof.
  intros E. unfold lookup. specialize (Sn m). destruct (dget m (raw_ast_nodes stubs)) as [t|], (dget m (raw_ast_nodes stubs')) as [t'|]; try easy.
  cbn [obind]. specialize (Sn o). destruct (dget o t), (dget o t'); try easy. cbn [obind]. now apply E.
Qed.
Lemma same_lookup2 {A B} (d d' : dict path (dict path A)) m o (f : A -> outcome B) : same_lookups (same_lookups eq) d d' ->
  (do t <- lookup m d; do x <- lookup o t; f x) = (do t <- lookup m d'; do x <- lookup o t; f x).
Proof.
  intros S. unfold lookup. specialize (S m). destruct (dget m d) as [t|], (dget m d') as [t'|]; try easy. cbn [obind].
  specialize (S o). destruct (dget o t), (dget o t'); try easy. now subst.
Qed.
Lemma same_callable_parameters l : forall n m p, callable_parameters evaluate n l m p = callable_parameters evaluate' n l m p.
Proof. induction l as [|a l IH]; intros n m p; [reflexivity|]. cbn [callable_parameters]. rewrite Ee.
  destruct (evaluate' a m p); [|reflexivity]. cbn [bind_res]. destruct (new_required _ _ _); [|reflexivity]. cbn [bind_res]. now rewrite IH.
Qed.
Lemma same_subscript i m p : from_callable_subscript is_NONE Any evaluate i m p = from_callable_subscript is_NONE Any evaluate' i m p.
Proof.
  unfold from_callable_subscript. destruct i as [| | |es| | | | | | |]; try reflexivity.
  destruct es as [|a [|b [|]]]; try reflexivity. destruct a; rewrite ?same_callable_parameters, ?Ee; reflexivity.
Qed.

Section Nodes.
Variables (t : bool) (v : V).
Notation expression := (from_expression_node is_NONE is_Ellipsis Any Self TypeSelf evaluate stubs limit t v).
Notation expression' := (from_expression_node is_NONE is_Ellipsis Any Self TypeSelf evaluate' stubs' limit t v).
Notation statement := (from_statement_node is_NONE is_Ellipsis Any Self TypeSelf evaluate stubs limit t v).
Notation statement' := (from_statement_node is_NONE is_Ellipsis Any Self TypeSelf evaluate' stubs' limit t v).
Lemma same_nodes n : (forall e m p, expression n e m p = expression' n e m p) /\ (forall s s' m p, same_but_slash s s' -> statement n s m p = statement' n s' m p).
Proof.
  induction n as [|n [IHe IHs]]; [split; reflexivity|]. split.
  - intros e m p. cbn [from_expression_node].
    assert (P : forall o,
      (do '(m, o) <- of_resolution (resolve stubs limit m p o);
        do kinds <- lookup m (nodes_kinds stubs);
        do k <- lookup o kinds;
        if is_CLASS k then
          do nodes <- load_ast_nodes stubs m (o ++ [call_name]);
          do signatures <- omap (fun node => statement n node m []) nodes;
          do bound <- omap (fun s => of_res (call_bind is_NONE s [v] [])) signatures;
          of_res (from_signatures bound)
        else
          do nodes <- lookup m (raw_ast_nodes stubs);
          do nodes <- lookup o nodes;
          match nodes with
          | [node] => statement n node m []
          | _ => SignatureNotFound
          end)
      = (do '(m, o) <- of_resolution (resolve stubs' limit m p o);
        do kinds <- lookup m (nodes_kinds stubs');
        do k <- lookup o kinds;
        if is_CLASS k then
          do nodes <- load_ast_nodes stubs' m (o ++ [call_name]);
          do signatures <- omap (fun node => statement' n node m []) nodes;
          do bound <- omap (fun s => of_res (call_bind is_NONE s [v] [])) signatures;
          of_res (from_signatures bound)
        else
          do nodes <- lookup m (raw_ast_nodes stubs');
          do nodes <- lookup o nodes;
          match nodes with
          | [node] => statement' n node m []
          | _ => SignatureNotFound
          end)).
    { intros o. rewrite same_resolve. apply obind_same. intros [m' o']. rewrite (same_lookup2 m' o' _ Sk). apply obind_same. intros ks.
      apply obind_same. intros k. destruct (is_CLASS k).
      - apply same_load. intros l l' L.
        rewrite (omap_alike (fun node => statement n node m' []) (fun node => statement' n node m' []) (fun s s' => IHs s s' m' []) L).
        reflexivity.
      - apply same_found_nodes. intros l l' [|s s' ? ? A []]; auto. }
    destruct e; try reflexivity.
    + apply obind_same. exact P.
    + apply obind_same. exact P.
    + apply obind_same. intros q. rewrite same_resolve. apply obind_same. intros q'. now rewrite same_subscript.
    + apply obind_same. intros q. rewrite same_resolve. apply obind_same. intros q'. destruct (_ == _); [|reflexivity].
      destruct (find _ _) as [[? b]|]; [apply IHe|]. rewrite (omap_same _ _ _ (fun a => IHe a m p)). reflexivity.
  - intros s s' m p A. cbn [from_statement_node]. pose proof (same_definition t m p A) as D.
    destruct s, s'; try contradiction; try discriminate; try exact D; inversion D; subst; auto.
Qed.
End Nodes.

Lemma same_mro n : forall c, to_mro stubs n c = to_mro stubs' n c.
Proof.
  induction n as [|n IH]; intros c; [reflexivity|]. cbn [to_mro].
  replace (match dget (fst c) (superclasses (database_of stubs)) with
           | None => [] | Some t => match dget (snd c) t with None => [] | Some bases => bases end end)
    with (match dget (fst c) (superclasses (database_of stubs')) with
           | None => [] | Some t => match dget (snd c) t with None => [] | Some bases => bases end end).
  - generalize (match dget (fst c) (superclasses (database_of stubs')) with
           | None => [] | Some t => match dget (snd c) t with None => [] | Some bases => bases end end). intros bases.
    match goal with |- (let '(_, _) := ?f bases in _) = (let '(_, _) := ?g bases in _) => assert (E : f bases = g bases) end.
    { induction bases as [|b bases IHb]; [reflexivity|]. rewrite <- IH, IHb. reflexivity. }
    now rewrite E.
  - destruct Sd as (_ & _ & _ & S). specialize (S (fst c)).
    destruct (dget (fst c) (superclasses (database_of stubs))) as [t|], (dget (fst c) (superclasses (database_of stubs'))) as [t'|]; try easy.
    specialize (S (snd c)). destruct (dget (snd c) t), (dget (snd c) t'); try easy; now subst.
Qed.
Lemma same_dmem {A B} (P : A -> B -> Prop) (d : dict path A) (d' : dict path B) k : same_lookups P d d' -> dmem k d = dmem k d'.
Proof. intros S. specialize (S k). unfold dmem. now destruct (dget k d), (dget k d'). Qed.
Lemma same_first_builder o h : forall f, first_builder stubs o h f = first_builder stubs' o h f.
Proof.
  induction h as [|[m x] h IH]; intros f; [reflexivity|]. cbn [first_builder]. unfold lookup. pose proof (Sn m) as S.
  destruct (dget m (raw_ast_nodes stubs)) as [t|], (dget m (raw_ast_nodes stubs')) as [t'|]; try easy. cbn [obind].
  now rewrite !(same_dmem _ S), IH.
Qed.
Lemma same_builder c : to_class_builder_qualified_path stubs limit c = to_class_builder_qualified_path stubs' limit c.
Proof. unfold to_class_builder_qualified_path. rewrite same_mro. destruct (to_mro stubs' limit c). apply same_first_builder. Qed.
Lemma same_resolve_builder qs : resolve_builder_qualified_path stubs limit qs = resolve_builder_qualified_path stubs' limit qs.
Proof. unfold resolve_builder_qualified_path. now rewrite (omap_same _ _ qs same_builder). Qed.

Section Callables.
Context {O : Type} `{Eqb O}.
Variables (sys_modules : dict pystr O) (getattr : O -> pystr -> option O) (own : O -> qualified_path).
Variables (introspect : O -> res (raw_signature V)) (is_type : O -> bool) (as_value : O -> V).
Variable table : dict path (dict path (list qualified_path)).
Lemma same_paths o : resolve_qualified_paths stubs limit sys_modules getattr own table o = resolve_qualified_paths stubs' limit sys_modules getattr own table o.
Proof.
  unfold resolve_qualified_paths. destruct (own o) as [m p]. apply obind_same. intros cs.
  rewrite (omap_same _ (try_resolve_object_path stubs' limit) cs); [reflexivity|]. intros q. unfold try_resolve_object_path. now rewrite same_resolve.
Qed.
Lemma same_locations o : to_qualified_paths stubs limit sys_modules getattr own table o = to_qualified_paths stubs' limit sys_modules getattr own table o.
Proof.
  unfold to_qualified_paths. rewrite same_paths. apply obind_same. intros [|[m p] qs]; [reflexivity|].
  rewrite (same_lookup2 m p _ Sk). apply obind_same. intros ks. apply obind_same. intros k. now rewrite same_resolve_builder.
Qed.
Lemma same_first_location build build' ls : (forall s s' m p, same_but_slash s s' -> build s m p = build' s' m p) ->
  first_location (V := V) stubs build ls = first_location stubs' build' ls.
Proof.
  intros E. induction ls as [|[m o] ls IH]; [reflexivity|]. cbn [first_location]. apply same_load. intros l l' L.
  rewrite (omap_alike (fun node => build node m (removelast o)) (fun node => build' node m (removelast o)) (fun s s' => E s s' m (removelast o)) L).
  now rewrite IH.
Qed.
Notation callable := (from_callable is_NONE is_Ellipsis Any Self TypeSelf evaluate stubs limit sys_modules getattr own introspect is_type as_value table).
Notation callable' := (from_callable is_NONE is_Ellipsis Any Self TypeSelf evaluate' stubs' limit sys_modules getattr own introspect is_type as_value table).
Lemma same_stub_callable o :
  from_stub_callable is_NONE is_Ellipsis Any Self TypeSelf evaluate stubs limit sys_modules getattr own is_type as_value table o
  = from_stub_callable is_NONE is_Ellipsis Any Self TypeSelf evaluate' stubs' limit sys_modules getattr own is_type as_value table o.
Proof.
  unfold from_stub_callable. rewrite same_locations. apply obind_same. intros ls. apply same_first_location. intros s s' m p. apply same_nodes.
Qed.
Lemma same_bound u v :
  from_bound is_NONE is_Ellipsis Any Self TypeSelf evaluate stubs limit sys_modules getattr own is_type as_value table u v
  = from_bound is_NONE is_Ellipsis Any Self TypeSelf evaluate' stubs' limit sys_modules getattr own is_type as_value table u v.
Proof. unfold from_bound. apply obind_same. intros o. now rewrite same_stub_callable. Qed.
Lemma same_type_callable o :
  from_type_callable is_NONE is_Ellipsis Any Self TypeSelf evaluate stubs limit sys_modules getattr own is_type as_value table o
  = from_type_callable is_NONE is_Ellipsis Any Self TypeSelf evaluate' stubs' limit sys_modules getattr own is_type as_value table o.
Proof.
  unfold from_type_callable. rewrite same_paths. apply obind_same. intros qs. destruct (is_nil qs); [reflexivity|].
  rewrite same_resolve_builder. apply obind_same. intros [m p]. apply same_load. intros l l' L.
  erewrite omap_alike; [reflexivity| |exact L]. intros s s' A. now apply same_nodes.
Qed.
Theorem same_callable c : callable c = callable' c.
Proof.
  induction c as [o r|o|o r|o r|o|o|c IH a k|]; cbn [from_callable]; rewrite ?same_stub_callable, ?same_type_callable; try reflexivity;
    try (destruct r; rewrite ?same_bound; reflexivity). now rewrite IH.
Qed.
End Callables.
End Same.

(** ** What a definition says does not depend on the process *)
From Verif Require Import SpecScoping SpecStubs SpecSignatures SpecWhole.
From Verif Require Evaluation SpecEvaluation.
Scheme means_mind := Minimality for SpecEvaluation.means Sort Prop
  with means_all_mind := Minimality for SpecEvaluation.means_all Sort Prop
  with means_items_mind := Minimality for SpecEvaluation.means_items Sort Prop
  with means_keywords_mind := Minimality for SpecEvaluation.means_keywords Sort Prop.
Lemma means_impl {V} (py : Evaluation.python V) (P Q : path -> V -> Prop) : (forall o v, P o v -> Q o v) ->
  forall e v, SpecEvaluation.means py P e v -> SpecEvaluation.means py Q e v.
Proof.
  intros I. apply (@means_mind V py P (SpecEvaluation.means py Q) (SpecEvaluation.means_all py Q) (SpecEvaluation.means_items py Q) (SpecEvaluation.means_keywords py Q));
    intros; solve [econstructor; eauto | eapply SpecEvaluation.means_no_item; eauto
    | eapply SpecEvaluation.means_stub_attribute; eauto | eapply SpecEvaluation.means_union; eauto].
Qed.
Section Transfer.
Variables (st st' : state).
Hypothesis S : same_state st st'.
Lemma same_stubs : same_lookups (same_lookups (Forall2 same_but_slash)) (raw_ast_nodes (signature_tables st)) (raw_ast_nodes (signature_tables st')).
Proof.
  cbn [signature_tables raw_ast_nodes]. destruct S as (_ & _ & Sn). intros m. rewrite !values_get. specialize (Sn m).
  destruct (dget m (nodes st)) as [t|], (dget m (nodes st')) as [t'|]; try easy. cbn [option_map]. intros o. rewrite !values_get.
  specialize (Sn o). destruct (dget o t) as [l|], (dget o t') as [l'|]; try easy. cbn [option_map]. subst. clear.
  induction (map _ _); constructor; [now left|assumption].
Qed.
Lemma same_nodes_of m o : nodes_of_object st m o = nodes_of_object st' m o.
Proof.
  destruct S as (_ & _ & Sn). unfold nodes_of_object. specialize (Sn m). destruct (dget m (nodes st)) as [t|], (dget m (nodes st')) as [t'|]; try easy.
  specialize (Sn o). destruct (dget o t), (dget o t'); try easy; now subst.
Qed.
Lemma same_kind_of m o : kind_of_object st m o = kind_of_object st' m o.
Proof.
  destruct S as (_ & Sk & _). unfold kind_of_object. specialize (Sk m). destruct (dget m (kinds st)) as [t|], (dget m (kinds st')) as [t'|]; try easy.
  specialize (Sk o). destruct (dget o t), (dget o t'); try easy; now subst.
Qed.
Variable limit : nat.
Lemma same_resolve_from m p o : resolve_from (db st) limit m p o = resolve_from (db st') limit m p o.
Proof. unfold resolve_from. now rewrite (resolve_same (proj1 S)). Qed.
Lemma same_answers_of {A} (d d' : dict path (dict path A)) : same_lookups (same_lookups eq) d d' -> AliasProofs.same_answers d d'.
Proof.
  intros L m o. specialize (L m). destruct (dget m d) as [t|], (dget m d') as [t'|]; try easy. specialize (L o).
  destruct (dget o t), (dget o t'); try easy. now subst.
Qed.
Lemma same_known {V} (py : Evaluation.python V) fuel c m p e v : known_before py limit fuel st c m p e v -> known py limit fuel st' c m p e v.
Proof.
  intros (n & wrong & L & R & M). exists [], n, wrong. split; [exact L|]. destruct S as (_ & Sk & Sn). split.
  - intros q w d x D N X. apply (R q w d x D N). revert X. apply AliasProofs.assigned_same.
    + intros. symmetry. apply same_resolve_from.
    + intros a b. symmetry. now apply same_answers_of.
    + intros a b. symmetry. now apply same_answers_of.
  - eapply means_impl; [|exact M]. intros o w (q & Eq & Iq). exists q. split.
    + cbn [evaluator_tables Evaluation.resolve] in *. rewrite <- Eq. symmetry. apply same_resolve_from.
    + revert Iq. apply AliasProofs.stands_for_same.
      * intros. apply same_resolve_from.
      * now apply same_answers_of.
      * now apply same_answers_of.
Qed.
Lemma same_understood {V} is_NONE (py : Evaluation.python V) fuel c value_of m p f :
  understood_before is_NONE py limit fuel st c value_of m p f -> understood is_NONE py limit fuel st' c value_of m p f.
Proof.
  intros (L & P & A & D). split; [exact L|]. split; [exact P|]. split.
  - intros e He. now apply same_known, A.
  - intros e He. destruct (D e He) as [K N]. split; [now apply same_known|exact N].
Qed.
Lemma same_decorator m p d : other_decorator (signature_tables st) limit m p d -> other_decorator (signature_tables st') limit m p d.
Proof.
  intros [N|(q & D & N)]; [now left|right]. exists q. split; [|exact N]. unfold denotes in *. destruct D as (x & Dx & R). exists x.
  split; [exact Dx|]. unfold resolve in *. cbn [signature_tables database_of] in *. now rewrite <- (resolve_same (proj1 S)).
Qed.
Lemma same_found {O} sys_modules getattr table own (o : O) `{Eqb O} q :
  found_at limit st sys_modules getattr table own o q -> found_at limit st' sys_modules getattr table own o q.
Proof. intros [C A]. split; [exact C|]. intros c Hc. rewrite <- (resolve_same (proj1 S)). now apply A. Qed.
Lemma same_found_first {O} sys_modules getattr table own (o : O) `{Eqb O} q :
  found_first limit st sys_modules getattr table own o q -> found_first limit st' sys_modules getattr table own o q.
Proof.
  intros [(c & C & R) A]. split.
  - exists c. split; [exact C|]. now rewrite <- (resolve_same (proj1 S)).
  - intros c' Hc. rewrite <- (resolve_same (proj1 S)). now apply A.
Qed.
Lemma same_class_method m p f : class_method (signature_tables st) limit m p f -> class_method (signature_tables st') limit m p f.
Proof.
  intros (before & d & after & E & B & x & Dx & R). exists before, d, after. split; [exact E|]. split.
  - eapply Forall_impl; [|exact B]. intros e. apply same_decorator.
  - exists x. split; [exact Dx|]. cbn [signature_tables database_of] in *. now rewrite <- (resolve_same (proj1 S)).
Qed.
Lemma same_records : well_recorded st -> well_recorded st'.
Proof.
  intros [W1 W2]. split.
  - intros m t' o l Et El. destruct S as (_ & _ & Sn). specialize (Sn m). rewrite Et in Sn.
    destruct (dget m (nodes st)) as [t|] eqn:E0; [|easy]. specialize (Sn o).
    match type of Sn with match ?x with _ => _ end => destruct x as [l0|] eqn:E1 end;
      change (dget o t') with (dget o t') in El; rewrite El in Sn; [|easy]. subst l0. exact (W1 m t o l E0 E1).
  - intros m o k. rewrite <- same_kind_of, <- same_nodes_of. apply W2.
Qed.
End Transfer.
