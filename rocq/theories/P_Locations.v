(** Properties C29-C33: class builders, hierarchies and the choice among stub
    locations. *)
From Verif Require Import Base PySort Models SpecCall Ast Conversion Scoping SpecScoping ScopingProofs
  Signatures SpecSignatures SignaturesProofs HierarchyProofs LocationProofs P_Signatures.

(** ** Samples *)
Module Hier.
Definition leaf := Scope [].
Definition m := [$"m"].
(** [class B: def __init__], [class C: def __new__], [class A(B, C)], [class D],
    [class L(L)]; [class A(m.A)] in module [n] *)
Definition n := [$"n"].
Definition db := mk_database
  [(m, Scope [($"A", leaf); ($"B", Scope [($"__init__", leaf)]); ($"C", Scope [($"__new__", leaf)]); ($"D", leaf); ($"f", leaf)]);
   (n, Scope [($"A", leaf); ($"g", leaf)]);
   ([$"builtins"], Scope [($"object", Scope [($"__new__", leaf)])])]
  [(m, []); (n, []); ([$"builtins"], [])]
  []
  [(m, [([$"A"], [(m, [$"B"]); (m, [$"C"])]); ([$"L"], [(m, [$"L"])])]); (n, [([$"A"], [(m, [$"A"])])])].
Definition f1 := FunctionDef (mk_function_def $"f" Stub.no_arguments [] None).
Definition f2 := FunctionDef (mk_function_def $"f" (mk_arguments [] [Stub.x] None [] [] None []) [] None).
Definition tables := mk_tables db
  [(m, [([$"f"], FUNCTION)]); (n, [([$"g"], FUNCTION)])]
  [(m, [([$"B"; $"__init__"], [f2]); ([$"C"; $"__new__"], [f2]); ([$"f"], [f1; f2])]);
   (n, [([$"g"], [Assign (Subscript (Name $"A") (Name $"A"))])])].
Lemma lineage_A : lineage db (m, [$"A"]) [(m, [$"A"]); (m, [$"B"]); (m, [$"C"])].
Proof.
  apply (@li db (m, [$"A"]) [[(m, [$"B"])]; [(m, [$"C"])]]).
  constructor; [apply (@li db (m, [$"B"]) []); constructor|].
  constructor; [apply (@li db (m, [$"C"]) []); constructor | constructor].
Qed.
End Hier.

(** ** C29 *)
(** A class that defines a builder itself *)
Theorem C29_own_builder :
  forall stubs limit c b,
    1 <= limit -> own_builder stubs c b -> to_class_builder_qualified_path stubs limit c = Return b.
Proof. exact @class_builder_own. Qed.
Print Assumptions C29_own_builder.

(** All ancestors have the same path (in other modules). *)
Theorem C29_nearest_builder_partial :
  forall stubs c l,
    lineage (database_of stubs) c l ->
    (forall d, In d l -> has_module stubs (fst d)) -> (forall d, In d l -> snd d = snd c) ->
    exists n b, nearest stubs l b
      /\ forall limit, n <= limit -> to_class_builder_qualified_path stubs limit c = Return b.
Proof.
  intros stubs c l Hl Hm Hs. destruct (lineage_mro _ Hl) as [n Hn].
  assert (El : map (at_path (snd c)) l = l).
  { clear -Hs. induction l as [|d l IH]; [reflexivity|]. cbn. f_equal.
    - unfold at_path. rewrite <- (Hs d) by now left. now destruct d.
    - apply IH. intros x Hx. apply Hs. now right. }
  destruct (@first_builder_total stubs (snd c) l Hm) as [b Hb].
  exists n, b. split.
  - rewrite <- El. now apply first_builder_nearest.
  - intros limit Hlim. unfold to_class_builder_qualified_path. now rewrite Hn.
Qed.
Print Assumptions C29_nearest_builder_partial.

(** What is computed in general: each ancestor is looked up under the path of the
    class itself. *)
Theorem C29_lookup_under_own_path :
  forall stubs c l,
    lineage (database_of stubs) c l -> (forall d, In d l -> has_module stubs (fst d)) ->
    exists n, forall limit b, n <= limit ->
      to_class_builder_qualified_path stubs limit c = Return b
      <-> nearest stubs (map (fun d => (fst d, snd c)) l) b.
Proof.
  intros stubs c l Hl Hm. destruct (lineage_mro _ Hl) as [n Hn]. exists n. intros limit b Hlim.
  apply (@class_builder_exact stubs limit c l b); [now apply Hn | exact Hm].
Qed.
Print Assumptions C29_lookup_under_own_path.

(** [class B: def __init__], [class A(B, C)]: the builder of [A] is [B.__init__],
    but [object.__new__] is chosen. *)
Theorem C29_refuted :
  exists stubs c l,
    lineage (database_of stubs) c l /\ (forall d, In d l -> has_module stubs (fst d))
    /\ nearest stubs l ([$"m"], [$"B"; $"__init__"])
    /\ forall limit, 2 <= limit -> to_class_builder_qualified_path stubs limit c = Return object_new.
Proof.
  exists Hier.tables, (Hier.m, [$"A"]), [(Hier.m, [$"A"]); (Hier.m, [$"B"]); (Hier.m, [$"C"])].
  split; [exact Hier.lineage_A|]. split; [intros d [<-|[<-|[<-|[]]]]; now left|]. split.
  - apply ne_later.
    + intros b Hb. inversion Hb as [? ? (t & Et & Hin)|? ? _ (t & Et & Hin)]; subst; inversion Et; subst t; cbn in Hin;
        destruct Hin as [E|[E|[E|[]]]]; discriminate E.
    + apply ne_here. apply (@ob_init Hier.tables Hier.m [$"B"]). eexists. split; [reflexivity | now left].
  - intros [|[|limit]] H; try lia. unfold to_class_builder_qualified_path.
    rewrite (@mro_more Hier.tables 2 (S (S limit)) _ [(Hier.m, [$"A"]); (Hier.m, [$"B"]); (Hier.m, [$"C"])]); [reflexivity | lia | reflexivity].
Qed.
Print Assumptions C29_refuted.
Example C29_case :
  to_class_builder_qualified_path Hier.tables 5 (Hier.m, [$"B"]) = Return (Hier.m, [$"B"; $"__init__"])
  /\ to_class_builder_qualified_path Hier.tables 5 (Hier.m, [$"C"]) = Return (Hier.m, [$"C"; $"__new__"])
  /\ to_class_builder_qualified_path Hier.tables 5 (Hier.m, [$"D"]) = Return object_new.
Proof. repeat split. Qed.

(** ** C30 *)
(** The enumeration ends exactly for acyclic links, with the depth-first lineage. *)
Theorem C30_enumeration_of_the_hierarchy :
  forall stubs c,
    acyclic (database_of stubs) c ->
    exists l n, lineage (database_of stubs) c l
      /\ (forall limit, n <= limit -> to_mro stubs limit c = (l, None))
      /\ (exists r, l = c :: r)
      /\ forall d, In d l <-> reaches (database_of stubs) c d.
Proof.
  intros stubs c Ha. destruct (acyclic_terminates _ Ha) as [l Hl].
  assert (L : lineage (database_of stubs) c l) by (eapply mro_lineage; apply Hl; apply Nat.lt_succ_diag_r).
  exists l. eexists. split; [exact L|]. split; [intros limit Hlim; apply Hl; exact Hlim|].
  split; [now apply lineage_head in L | now apply lineage_In].
Qed.
Print Assumptions C30_enumeration_of_the_hierarchy.

Theorem C30_ends_only_if_acyclic :
  forall stubs limit c l, to_mro stubs limit c = (l, None) -> acyclic (database_of stubs) c.
Proof. intros stubs limit c l H. eapply lineage_acyclic, mro_lineage, H. Qed.
Print Assumptions C30_ends_only_if_acyclic.

(** Whatever happens, the class comes first, only ancestors are yielded, and the
    only exception is the recursion limit. *)
Theorem C30_always_sound :
  forall stubs limit c l o,
    to_mro stubs (S limit) c = (l, o) ->
    (exists r, l = c :: r) /\ (forall d, In d l -> reaches (database_of stubs) c d)
    /\ forall e, o = Some e -> e = RecursionError.
Proof.
  intros stubs limit c l o E. split; [|split].
  - destruct (mro_head stubs limit c) as (r & o' & E'). exists r. congruence.
  - intros d Hd. apply (@mro_sound stubs (S limit)). now rewrite E.
  - intros e ->. eapply mro_failure, E.
Qed.
Print Assumptions C30_always_sound.
Example C30_case :
  to_mro Hier.tables 5 (Hier.n, [$"A"])
  = ([(Hier.n, [$"A"]); (Hier.m, [$"A"]); (Hier.m, [$"B"]); (Hier.m, [$"C"])], None)
  /\ to_mro Hier.tables 2 (Hier.m, [$"L"]) = ([(Hier.m, [$"L"]); (Hier.m, [$"L"])], Some RecursionError)
  /\ ~ acyclic Hier.db (Hier.m, [$"L"]).
Proof.
  split; [reflexivity|]. split; [reflexivity|]. intros H. apply (H (Hier.m, [$"L"])); [constructor|].
  exists (Hier.m, [$"L"]). split; [now left | constructor].
Qed.

(** ** C31 *)
Theorem C31_choice_of_the_builder :
  forall stubs limit qs,
    (forall q, In q qs -> exists b, to_class_builder_qualified_path stubs limit q = Return b) ->
    match resolve_builder_qualified_path stubs limit qs with
    | Return b => choice (fun b => exists q, In q qs /\ to_class_builder_qualified_path stubs limit q = Return b) (Some b)
    | SignatureNotFound => choice (fun b => exists q, In q qs /\ to_class_builder_qualified_path stubs limit q = Return b) None
    | Throws _ => False
    end.
Proof. exact @resolve_builder_choice. Qed.
Print Assumptions C31_choice_of_the_builder.

(** The specification determines the outcome. *)
Theorem C31_choice_is_unique :
  forall builder r r', choice builder r -> choice builder r' -> r = r'.
Proof. exact @choice_fun. Qed.
Print Assumptions C31_choice_is_unique.

Theorem C31_order_and_multiplicity :
  forall stubs limit qs qs',
    same_elements qs qs' ->
    resolve_builder_qualified_path stubs limit qs = resolve_builder_qualified_path stubs limit qs'
    \/ exists e e', resolve_builder_qualified_path stubs limit qs = Throws e
         /\ resolve_builder_qualified_path stubs limit qs' = Throws e'.
Proof. exact @resolve_builder_order. Qed.
Print Assumptions C31_order_and_multiplicity.

(** Without a builder to choose, the class is introspected. *)
Theorem C31_falls_back_to_introspection :
  forall V O (H : Eqb O) is_NONE is_Ellipsis (Any Self TypeSelf : V) evaluate stubs limit
         sys_modules getattr qualified_path_from introspect is_type as_value table (o : O) qs raw,
    resolve_qualified_paths stubs limit sys_modules getattr qualified_path_from table o = Return qs ->
    (forall q, In q qs -> exists b, to_class_builder_qualified_path stubs limit q = Return b) ->
    choice (fun b => exists q, In q qs /\ to_class_builder_qualified_path stubs limit q = Return b) None ->
    introspect o = Ok raw ->
    from_callable is_NONE is_Ellipsis Any Self TypeSelf evaluate stubs limit
      sys_modules getattr qualified_path_from introspect is_type as_value table (TypeCallable o)
    = from_raw_signature is_NONE Any (mk_raw_signature (raw_parameters raw) (Some Self)).
Proof.
  intros V O H is_NONE is_Ellipsis Any Self TypeSelf evaluate stubs limit sys_modules getattr qpf introspect
    is_type as_value table o qs raw Hq Hex Hc Hi.
  assert (Hb : resolve_builder_qualified_path stubs limit qs = SignatureNotFound).
  { pose proof (@resolve_builder_choice stubs limit qs Hex) as C. destruct (resolve_builder_qualified_path stubs limit qs) as [b| |e].
    - discriminate (choice_fun C Hc).
    - reflexivity.
    - destruct C. }
  cbn [from_callable]. unfold from_type_callable. rewrite Hq. cbn [obind].
  destruct (is_nil qs); [|rewrite Hb]; cbn [obind]; now rewrite Hi.
Qed.
Print Assumptions C31_falls_back_to_introspection.
Example C31_case :
  let B := (Hier.m, [$"B"]) in let C := (Hier.m, [$"C"]) in let D := (Hier.m, [$"D"]) in
  resolve_builder_qualified_path Hier.tables 5 [B; B] = Return (Hier.m, [$"B"; $"__init__"])
  /\ resolve_builder_qualified_path Hier.tables 5 [D; B; D] = Return (Hier.m, [$"B"; $"__init__"])
  /\ resolve_builder_qualified_path Hier.tables 5 [B; C] = SignatureNotFound
  /\ resolve_builder_qualified_path Hier.tables 5 [B; C; D] = SignatureNotFound
  /\ resolve_builder_qualified_path Hier.tables 5 [D] = Return object_new.
Proof. repeat split. Qed.

(** ** C32 *)
Theorem C32_locations_exact :
  forall stubs limit O (H : Eqb O) sys_modules getattr qualified_path_from table (value : O) l,
    resolve_qualified_paths stubs limit sys_modules getattr qualified_path_from table value = Return l ->
    strictly_sorted l
    /\ (forall q, In q l <->
          exists c, candidate sys_modules getattr table value (qualified_path_from value) c
            /\ resolve_object_path (database_of stubs) limit (fst c) [] (snd c) [] = Resolved q
            /\ fst q <> [] /\ snd q <> [])
    /\ forall q, In q l -> defined (database_of stubs) (fst q) (snd q).
Proof. exact @paths_exact. Qed.
Print Assumptions C32_locations_exact.

(** Reordering or repeating candidates changes nothing. *)
Theorem C32_order_and_multiplicity :
  forall stubs limit O (H : Eqb O) sys_modules getattr qualified_path_from table table' (value : O),
    same_tables table table' ->
    resolve_qualified_paths stubs limit sys_modules getattr qualified_path_from table value
    = resolve_qualified_paths stubs limit sys_modules getattr qualified_path_from table' value
    \/ exists e e',
         resolve_qualified_paths stubs limit sys_modules getattr qualified_path_from table value = Throws e
         /\ resolve_qualified_paths stubs limit sys_modules getattr qualified_path_from table' value = Throws e'.
Proof. exact @paths_order. Qed.
Print Assumptions C32_order_and_multiplicity.
Example C32_case :
  let paths cs := @resolve_qualified_paths Hier.tables 5 nat _ [($"n", 1)]
                    (fun o a => if (o =? 1) && (a == $"g") then Some 7 else None)
                    (fun _ => ([$"q"], [$"v"])) [([$"q"], [([$"v"], cs)])] 7 in
  let f := (Hier.m, [$"f"]) in let g := (Hier.n, [$"g"]) in let A := (Hier.n, [$"A"]) in let u := (Hier.m, [$"u"]) in
  paths [g; f; A; u; f] = Return [f; g] /\ paths [f; g; g; A] = Return [f; g].
Proof. split; reflexivity. Qed.

(** ** C33 *)
Theorem C33_first_buildable_location :
  forall V stubs (build : statement -> path -> path -> outcome (signature V)) before loc after ss,
    Forall (unbuildable stubs build) before -> buildable stubs build loc ss ->
    first_location stubs build (before ++ loc :: after) = of_res (from_signatures ss).
Proof. exact @first_location_found. Qed.
Print Assumptions C33_first_buildable_location.

(** Overloads keep their order, and there is always a result. *)
Theorem C33_overloads_keep_their_order :
  forall V (ss : list (signature V)),
    flat_map (@flatten_signature V) ss <> [] ->
    exists s, from_signatures ss = Ok s /\ flatten_signature s = flat_map (@flatten_signature V) ss.
Proof. intros V ss. apply from_signatures_exact. Qed.
Print Assumptions C33_overloads_keep_their_order.

Theorem C33_no_buildable_location :
  forall V stubs (build : statement -> path -> path -> outcome (signature V)) locs,
    Forall (unbuildable stubs build) locs -> first_location stubs build locs = SignatureNotFound.
Proof. exact @first_location_none. Qed.
Print Assumptions C33_no_buildable_location.

(** An exception other than [_SignatureNotFound] ends the search. *)
Theorem C33_exceptions_escape :
  forall V stubs (build : statement -> path -> path -> outcome (signature V)) before loc after n1 n n2 e,
    Forall (unbuildable stubs build) before -> nodes_at stubs loc (n1 ++ n :: n2) ->
    (forall b, In b n1 -> exists s, build_at build loc b = Return s) -> build_at build loc n = Throws e ->
    first_location stubs build (before ++ loc :: after) = Throws e.
Proof. exact @first_location_raises. Qed.
Print Assumptions C33_exceptions_escape.

(** The locations: those of the object; of a class, the builder chosen (C31). *)
Theorem C33_places :
  forall stubs limit O (H : Eqb O) sys_modules getattr qualified_path_from table (o : O) qs,
    resolve_qualified_paths stubs limit sys_modules getattr qualified_path_from table o = Return qs ->
    let places := to_qualified_paths stubs limit sys_modules getattr qualified_path_from table o in
    (qs = [] -> places = Return [])
    /\ forall m p r t k, qs = (m, p) :: r -> dget m (nodes_kinds stubs) = Some t -> dget p t = Some k ->
         (k <> CLASS -> places = Return qs)
         /\ (k = CLASS -> (forall q, In q qs -> exists b, to_class_builder_qualified_path stubs limit q = Return b) ->
             let builder := fun b => exists q, In q qs /\ to_class_builder_qualified_path stubs limit q = Return b in
             match places with
             | Return l => exists b, l = [b] /\ choice builder (Some b)
             | SignatureNotFound => choice builder None
             | Throws _ => False
             end).
Proof.
  intros stubs limit O H sys_modules getattr qpf table o qs Hq places. unfold places, to_qualified_paths. rewrite Hq. cbn [obind].
  split; [now intros ->|]. intros m p r t k -> Ht Hk. unfold lookup. rewrite Ht. cbn [obind]. rewrite Hk. cbn [obind]. split.
  - intros Nk. now destruct k.
  - intros -> B. cbn [is_CLASS]. pose proof (@resolve_builder_choice stubs limit _ B) as C.
    destruct (resolve_builder_qualified_path stubs limit ((m, p) :: r)) as [b| |e]; cbn [obind]; [now exists b|exact C|exact C].
Qed.
Print Assumptions C33_places.

(** Functions and descriptors: from their locations, and by introspection when
    no location is buildable. *)
Theorem C33_functions :
  forall V O (H : Eqb O) is_NONE is_Ellipsis (Any Self TypeSelf : V) evaluate stubs limit
         sys_modules getattr qualified_path_from introspect is_type as_value table (o : O) locs c,
    In c [FunctionCallable o; DescriptorCallable o; BuiltinCallable o NoReceiver; BuiltinCallable o ModuleReceiver;
          BuiltinCallable o TypeReceiver; MethodCallable o TypeReceiver] ->
    to_qualified_paths stubs limit sys_modules getattr qualified_path_from table o = Return locs ->
    let build := from_statement_node is_NONE is_Ellipsis Any Self TypeSelf evaluate stubs limit (is_type o) (as_value o) limit in
    let result := from_callable is_NONE is_Ellipsis Any Self TypeSelf evaluate stubs limit
      sys_modules getattr qualified_path_from introspect is_type as_value table c in
    (forall before loc after ss, locs = before ++ loc :: after ->
       Forall (unbuildable stubs build) before -> buildable stubs build loc ss ->
       result = from_signatures ss)
    /\ (Forall (unbuildable stubs build) locs -> forall raw, introspect o = Ok raw ->
        result = from_raw_signature is_NONE Any raw).
Proof.
  intros V O H is_NONE is_Ellipsis Any Self TypeSelf evaluate stubs limit sys_modules getattr qpf introspect
    is_type as_value table o locs c Hc Hl build result.
  assert (E : result = or_introspect is_NONE Any
                (from_stub_callable is_NONE is_Ellipsis Any Self TypeSelf evaluate stubs limit sys_modules getattr qpf
                   is_type as_value table o) (introspect o)).
  { subst result. repeat (destruct Hc as [<-|Hc]; [reflexivity|]). destruct Hc. }
  rewrite E. unfold from_stub_callable. rewrite Hl. cbn [obind]. fold build. split.
  - intros before loc after ss -> Hb Hs. rewrite (@first_location_found V stubs build before loc after ss Hb Hs).
    destruct (from_signatures ss); reflexivity.
  - intros Hn raw Hi. rewrite (@first_location_none V stubs build locs Hn). cbn. now rewrite Hi.
Qed.
Print Assumptions C33_functions.

(** Methods of instances: the signature of the attribute of the class, bound. *)
Theorem C33_bound_methods :
  forall V O (H : Eqb O) is_NONE is_Ellipsis (Any Self TypeSelf : V) evaluate stubs limit
         sys_modules getattr qualified_path_from introspect is_type as_value table (o u : O) v s c,
    In c [BuiltinCallable o (InstanceReceiver v (Ok u)); MethodCallable o (InstanceReceiver v (Ok u));
          MethodWrapperCallable o (InstanceReceiver v (Ok u))] ->
    from_stub_callable is_NONE is_Ellipsis Any Self TypeSelf evaluate stubs limit sys_modules getattr qualified_path_from
      is_type as_value table u = Return s ->
    from_callable is_NONE is_Ellipsis Any Self TypeSelf evaluate stubs limit
      sys_modules getattr qualified_path_from introspect is_type as_value table c = bind is_NONE s [v] [].
Proof.
  intros V O H is_NONE is_Ellipsis Any Self TypeSelf evaluate stubs limit sys_modules getattr qpf introspect
    is_type as_value table o u v s c Hc Hs.
  repeat (destruct Hc as [<-|Hc];
          [cbn [from_callable]; unfold from_bound; cbn [of_res obind]; rewrite Hs; cbn [obind];
           unfold call_bind, call_method; cbn; destruct (bind is_NONE s [v] []); reflexivity|]).
  destruct Hc.
Qed.
Print Assumptions C33_bound_methods.

(** A location without nodes ends the search: nothing after it is looked at. *)
Theorem C33_location_without_nodes :
  forall V stubs (build : statement -> path -> path -> outcome (signature V)) before loc after,
    Forall (unbuildable stubs build) before ->
    ((forall t nodes, dget (fst loc) (raw_ast_nodes stubs) = Some t -> dget (snd loc) t <> Some nodes) ->
     first_location stubs build (before ++ loc :: after) = SignatureNotFound)
    /\ (forall t, dget (fst loc) (raw_ast_nodes stubs) = Some t -> dget (snd loc) t = Some [] ->
        first_location stubs build (before ++ loc :: after) = Throws AssertionError).
Proof.
  intros V stubs build before loc after Hb. induction Hb as [|b before H _ [IH1 IH2]]; cbn [app].
  - rewrite first_location_cons. unfold load_ast_nodes. split.
    + intros N. destruct (dget (fst loc) (raw_ast_nodes stubs)) as [t|] eqn:Et; [|reflexivity].
      destruct (dget (snd loc) t) as [nodes|] eqn:En; [|reflexivity]. now destruct (N t nodes eq_refl).
    + intros t -> ->. reflexivity.
  - rewrite (first_location_skip _ H). now split.
Qed.
Print Assumptions C33_location_without_nodes.

(** A location without nodes ends the search: [n.A] is listed before [m.f]'s alias,
    whose definition could be used. *)
Theorem C33_location_without_nodes_refuted :
  let build := from_statement_node Stub.none Stub.dots 100 101 102 Stub.evaluate Hier.tables 10 false 7 10 in
  exists loc ss,
    buildable Hier.tables build loc ss
    /\ first_location Hier.tables build [loc] = of_res (from_signatures ss)
    /\ first_location Hier.tables build [(Hier.m, [$"D"]); loc] = SignatureNotFound.
Proof.
  exists (Hier.m, [$"f"]). eexists. split; [|split; reflexivity].
  exists [Hier.f1; Hier.f2]. split.
  - eexists. split; [reflexivity|]. split; [reflexivity | discriminate].
  - constructor; [reflexivity|]. constructor; [reflexivity | constructor].
Qed.
Print Assumptions C33_location_without_nodes_refuted.

(** [n.g] cannot be built, [m.f] has two overloads. *)
Example C33_case :
  let build := from_statement_node Stub.none Stub.dots 100 101 102 Stub.evaluate Hier.tables 10 false 7 10 in
  unbuildable Hier.tables build (Hier.n, [$"g"])
  /\ first_location Hier.tables build [(Hier.n, [$"g"]); (Hier.m, [$"f"])]
     = Return (Overloaded [mk_plain [] 100; mk_plain [RequiredParameter 50 POSITIONAL_ONLY $"x"] 100]).
Proof.
  cbv zeta. split; [|reflexivity].
  exists [], (Assign (Subscript (Name $"A") (Name $"A"))), []. split; [|split; [intros b [] | reflexivity]].
  eexists. split; [reflexivity|]. split; [reflexivity | discriminate].
Qed.
