(** Specification only: what names mean that are defined in stubs only, by a single assignment
    (type aliases), or as classes of functions, assignments and annotations. *)
From Verif Require Import Base Ast Catalog Scoping Signatures Stubs Evaluation SpecEvaluation.

(** [n = e], [n1 = n2 = e], [n: a = e] *)
Inductive assigned_to : list pystr -> expr -> stmt -> Prop :=
| assigned_plain ns e : assigned_to ns e (SAssign (map Name ns) e)
| assigned_annotated n a e : assigned_to [n] e (SAnnAssign (Name n) a (Some e)).

Section Objects.
Context {V : Type}.
Variable py : python V.
Variable stubs : tables.
(** The stub-only classes and modules made so far *)
Variables (made_classes : dict qualified_path V) (made_modules : dict path V).
(** Stub-only classes that may be made now *)
Variable new : list qualified_path.

(** The stub of its module defines [q] once, by assigning [e] to it and the others of [ts], which
    are defined in the same scope, once too. *)
Definition alias_for (q : qualified_path) (ts : list qualified_path) (e : expr) : Prop :=
  exists ns s nodes kinds,
    dget (fst q) (stub_nodes stubs) = Some nodes /\ dget (fst q) (stub_kinds stubs) = Some kinds
    /\ (forall t, In t ts -> fst t = fst q /\ removelast (snd t) = removelast (snd q)
         /\ dget (snd t) nodes = Some [s] /\ exists k, dget (snd t) kinds = Some k /\ k <> CLASS)
    /\ assigned_to ns e s
    /\ In q ts /\ NoDup ts /\ map (fun n => resolve stubs (fst q) (removelast (snd q)) [n]) ns = map Ok ts.
(** The names of evaluation.py, and the builtins it uses: a stub-only class with such a name
    would take their place (C88). *)
Definition evaluator_names : list pystr :=
  [$"ast"; $"builtins"; $"operator"; $"sys"; $"types"; $"t"; $"weakref"; $"ChainMap"; $"singledispatch"; $"import_module"; $"te";
   $"catalog"; $"namespacing"; $"scoping"; $"sources"; $"stubs"; $"construction"; $"conversion"; $"execute_statement"; $"NodeKind";
   $"is_dependency_name"; $"recursively_iterate_children"; $"AstExpression"; $"evaluate_expression_node";
   $"evaluate_statement_node"; $"evaluate_operator_node"; $"_"; $"_T"; $"_all_not_none"; $"_LazyEvaluator"; $"_AstNode";
   $"_to_lazy_statement"; $"evaluate_qualified_path"; $"_GenericAlias"; $"_types_to_generic_aliases";
   $"AttributeError"; $"ImportError"; $"KeyError"; $"TypeError"; $"__name__"; $"__builtins__"; $"all"; $"dict"; $"getattr"; $"globals";
   $"isinstance"; $"tuple"; $"type"; $"vars"; $"zip"].
(** [q] is a class of functions and of assignments whose names can be imported (C72), and of
    annotations; each name that is assigned is defined once; its base classes stand for what
    [stands] says; and [v] is the class that Python makes of them. *)
Definition class_value (stands : qualified_path -> V -> Prop) (q : qualified_path) (v : V) : Prop :=
  exists nodes kinds definitions sc ns assigned annotated bases,
    snd q <> [] /\ dget (fst q) (stub_nodes stubs) = Some nodes
    /\ dget (fst q) (stub_kinds stubs) = Some kinds /\ dget (snd q) kinds = Some CLASS
    /\ dget (fst q) (stub_definitions stubs) = Some definitions /\ scope_at definitions (snd q) = Ok sc
    /\ NoDup (dkeys (entries sc)) /\ ~ In $"__module__" (dkeys (entries sc)) /\ ~ In $"__annotations__" (dkeys (entries sc))
    /\ class_namespace (fun name => dget (snd q ++ [name]) nodes) (runs py stubs (fst q) (snd q) (dkeys (entries sc)))
         (assigns py stubs (fst q) (snd q)) (dkeys (entries sc)) ns assigned
    /\ (annotated = true <-> exists name ss s, In name (dkeys (entries sc)) /\ dget (snd q ++ [name]) nodes = Some ss
                                              /\ In s ss /\ is_annotation s)
    /\ Forall2 stands (dget_or (snd q) [] (dget_or (fst q) [] (stub_superclasses stubs))) bases
    /\ new_class py (path_to_string (snd q)) bases (class_body py annotated ns) = Ok v
    /\ ~ In (path_to_string (snd q)) evaluator_names
    /\ (forall name, In name (dkeys assigned) -> exists e, alias_for (fst q, snd q ++ [name]) [(fst q, snd q ++ [name])] e).
(** The annotations in the class [q] mean something, if their names stand for what [stands] says. *)
Definition annotations_mean (stands : qualified_path -> V -> Prop) (q : qualified_path) : Prop :=
  forall nodes definitions sc name ss t a,
    dget (fst q) (stub_nodes stubs) = Some nodes -> dget (fst q) (stub_definitions stubs) = Some definitions ->
    scope_at definitions (snd q) = Ok sc ->
    In name (dkeys (entries sc)) -> dget (snd q ++ [name]) nodes = Some ss -> In (SAnnAssign t a None) ss ->
    exists w, means py (fun o w => exists q', resolve stubs (fst q) (snd q) o = Ok q' /\ stands q' w) a w.
Definition not_imported (q : qualified_path) : Prop := forall v, import_object py q <> Imported v.
(** In the expression assigned to it, and to nothing else, [q] itself is a forward reference to
    its name. *)
Definition itself (ts : list qualified_path) (q : qualified_path) (v : V) : Prop :=
  ts = [q] /\ not_imported q /\ snd q <> [] /\ dget q made_classes = None /\ v = forward_ref py (path_to_string (snd q)).
(** The expression assigned to [q] means [v], in its place, without any of [open], if the other
    paths in it stand for what [stands] says. *)
Definition assigned_value (stands : list qualified_path -> qualified_path -> V -> Prop) (open : list qualified_path)
    (q : qualified_path) (v : V) : Prop :=
  exists ts e, alias_for q ts e /\ (forall t, In t ts -> ~ In t open)
    /\ means py (fun o w => exists q', resolve stubs (fst q) (removelast (snd q)) o = Ok q'
                                   /\ (itself ts q' w \/ stands (ts ++ open) q' w)) e v.

(** [q] is [v], whatever the annotations of classes are: what is imported, a class or module made
    before, a class that may be made, or what the expression means that is assigned to it, in its
    place, without recurring to one of [open], or to [q] other than in that expression. [depth]
    bounds how far aliases and classes are made of other aliases and classes. *)
Fixpoint amounts_to (depth : nat) (open : list qualified_path) (q : qualified_path) (v : V) : Prop :=
  import_object py q = Imported v
  \/ (not_imported q /\ snd q <> [] /\ dget q made_classes = Some v)
  \/ (import_object py q = NotImportable /\ snd q = [] /\ dget (fst q) made_modules = Some v)
  \/ match depth with
     | 0 => False
     | S depth => not_imported q /\ snd q <> [] /\ dget q made_classes = None
                  /\ ((In q new /\ class_value (amounts_to depth open) q v) \/ assigned_value (amounts_to depth) open q v)
     end.
(** Neither [q] nor anything defined in it is in [open]. *)
Definition not_open (q : qualified_path) (open : list qualified_path) : Prop :=
  ~ In q open /\ forall t, In t open -> fst t = fst q -> removelast (snd t) <> snd q.
(** The same, where the annotations of classes that are made now mean something too. The classes
    [own] are there, but their annotations are not yet: annotations may refer to the class they
    are in, and to classes in whose annotations it is. *)
Fixpoint stands_among (depth : nat) (own open : list qualified_path) (q : qualified_path) (v : V) : Prop :=
  import_object py q = Imported v
  \/ (not_imported q /\ snd q <> [] /\ dget q made_classes = Some v)
  \/ (import_object py q = NotImportable /\ snd q = [] /\ dget (fst q) made_modules = Some v)
  \/ match depth with
     | 0 => False
     | S depth => not_imported q /\ snd q <> [] /\ dget q made_classes = None
                  /\ ((In q new
                       /\ ((In q own /\ exists depth, amounts_to depth open q v)
                           \/ (not_open q open /\ class_value (stands_among depth own (q :: open)) q v
                               /\ annotations_mean (stands_among depth (q :: own) (q :: open)) q)))
                      \/ assigned_value (stands_among depth own) open q v)
     end.
Definition stands_for (depth : nat) : list qualified_path -> qualified_path -> V -> Prop := stands_among depth [].
(** A name in a scope *)
Definition named (depth : nat) (open : list qualified_path) (m parent o : path) (v : V) : Prop :=
  exists q, resolve stubs m parent o = Ok q /\ stands_for depth open q v.
(** What is remembered of aliases whose expressions amount to something is that, but for those of
    [open]. *)
Definition remembers_right (open : list qualified_path) (aliases : dict qualified_path V) : Prop :=
  forall q w depth v, dget q aliases = Some w -> ~ In q open -> assigned_value (amounts_to depth) [] q v -> w = v.
(** Some of these classes have been made meanwhile, and are global names of the evaluator too. *)
Definition may_be_made (q : qualified_path) (v : V) : Prop :=
  In q new /\ (exists depth, class_value (amounts_to depth []) q v) /\ not_imported q /\ dget q made_classes = None.
Definition grown (classes : dict qualified_path V) (globals globals' : dict pystr V) : Prop :=
  exists l l', (forall q v, In (q, v) (l ++ l') -> may_be_made q v)
    /\ classes = fold_left (fun d x => dset (fst x) (snd x) d) l made_classes
    /\ globals' = fold_left (fun d x => dset (path_to_string (snd (fst x))) (snd x) d) l' globals.
(** The annotations of [q], a class, are the last ones stated for each name, with what they mean. *)
Definition annotations_right (q : qualified_path) (annotations : dict qualified_path (list (pystr * V))) : Prop :=
  forall nodes definitions sc,
    dget (fst q) (stub_nodes stubs) = Some nodes -> dget (fst q) (stub_definitions stubs) = Some definitions ->
    scope_at definitions (snd q) = Ok sc ->
    exists stated values, annotations_stated (fun name => dget (snd q ++ [name]) nodes) (dkeys (entries sc)) stated
      /\ Forall2 (fun x y => fst x = fst y
                    /\ means py (fun o w => exists q' depth, resolve stubs (fst q) (snd q) o = Ok q' /\ amounts_to depth [] q' w) (snd x) (snd y))
           stated values
      /\ (stated <> [] -> dget q annotations = Some values).
End Objects.
