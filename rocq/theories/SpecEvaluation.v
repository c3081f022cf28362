(** What an annotation or alias means: a big-step semantics of expressions, with the
    two indulgences evaluation.py documents by its [except] clauses (a union where
    [|] is not supported, a plain class where it cannot be subscripted). Operators other than
    [&], [|], [^] and the signs mean nothing. *)
From Verif Require Import Base Ast Scoping Signatures Stubs Evaluation.
From Verif Require SpecStubs.

(** [a.b.c] *)
Inductive dotted : expr -> path -> Prop :=
| dotted_name id : dotted (Name id) [id]
| dotted_attribute e p a : dotted e p -> dotted (Attribute e a) (p ++ [a]).

(** The names and dotted names in an expression *)
Inductive mentions : expr -> path -> Prop :=
| mentions_dotted e p : dotted e p -> mentions e p
| mentions_attribute e a p : mentions e p -> mentions (Attribute e a) p
| mentions_value e i p : mentions e p -> mentions (Subscript e i) p
| mentions_slice e i p : mentions i p -> mentions (Subscript e i) p
| mentions_tuple e es p : In e es -> mentions e p -> mentions (Tuple es) p
| mentions_list e es p : In e es -> mentions e p -> mentions (List es) p
| mentions_key k e items p : In (Some k, e) items -> mentions k p -> mentions (Dict items) p
| mentions_entry k e items p : In (k, e) items -> mentions e p -> mentions (Dict items) p
| mentions_function f es ks p : mentions f p -> mentions (Call f es ks) p
| mentions_argument f e es ks p : In e es -> mentions e p -> mentions (Call f es ks) p
| mentions_keyword f es n e ks p : In (n, e) ks -> mentions e p -> mentions (Call f es ks) p
| mentions_left l o r p : mentions l p -> mentions (BinOp l o r) p
| mentions_right l o r p : mentions r p -> mentions (BinOp l o r) p
| mentions_operand o e p : mentions e p -> mentions (UnaryOp o e) p.

Section Meaning.
Context {V : Type}.
Variable py : python V.
(** What a dotted name stands for *)
Variable named : path -> V -> Prop.

Inductive means : expr -> V -> Prop :=
| means_constant k : means (Constant k) (of_constant py k)
| means_name id v : named [id] v -> means (Name id) v
| means_attribute e a v w : means e v -> getattr py v a = Ok w -> means (Attribute e a) w
| means_stub_attribute e a p v w :
    means e v -> getattr py v a = Err AttributeError -> dotted (Attribute e a) p -> named p w ->
    means (Attribute e a) w
| means_item e i v w x : means e v -> means i w -> getitem py v w = Ok x -> means (Subscript e i) x
| means_no_item e i v w : means e v -> means i w -> getitem py v w = Err TypeError -> means (Subscript e i) v
| means_tuple es vs : means_all es vs -> means (Tuple es) (tuple_of py vs)
| means_list es vs : means_all es vs -> means (List es) (list_of py vs)
| means_dict items vs x : means_items items vs -> dict_of py vs = Ok x -> means (Dict items) x
| means_call f es ks g vs kvs x :
    means f g -> means_all es vs -> means_keywords ks kvs -> call py g vs kvs = Ok x -> means (Call f es ks) x
| means_binary l o r v w x : o <> OtherOperator -> means l v -> means r w -> binary py o v w = Ok x -> means (BinOp l o r) x
| means_union l r v w x :
    means l v -> means r w -> binary py BitOr v w = Err TypeError -> union py v w = Ok x ->
    means (BinOp l BitOr r) x
| means_unary o e v x : o <> OtherUnary -> means e v -> unary py o v = Ok x -> means (UnaryOp o e) x
with means_all : list expr -> list V -> Prop :=
| means_nil : means_all [] []
| means_cons e es v vs : means e v -> means_all es vs -> means_all (e :: es) (v :: vs)
with means_items : list (option expr * expr) -> list (option V * V) -> Prop :=
| means_inil : means_items [] []
| means_icons k e items w v vs : means k w -> means e v -> means_items items vs ->
    means_items ((Some k, e) :: items) ((Some w, v) :: vs)
with means_keywords : list (option pystr * expr) -> list (option pystr * V) -> Prop :=
| means_knil : means_keywords [] []
| means_kcons n e ks v kvs : means e v -> means_keywords ks kvs ->
    means_keywords ((n, e) :: ks) ((n, v) :: kvs).
End Meaning.

(** A stub-only class of functions, assignments and annotations: its namespace is made of the
    functions, of several of one name the last, and the values that are assigned;
    [nodes_of]: the statements that define a name; [gives]: what a function of that name
    gives; [assigns]: what is assigned to the name. The last argument are the values
    that are assigned. *)
Section Class.
Context {V : Type}.
Variable py : python V.
Variable nodes_of : pystr -> option (list stmt).
Variables gives assigns : pystr -> stmt -> V -> Prop.

Definition is_annotation (s : stmt) : Prop := exists t a, s = SAnnAssign t a None.
Inductive class_namespace : list pystr -> list (pystr * V) -> list (pystr * V) -> Prop :=
| namespace_nil : class_namespace [] [] []
| namespace_annotated name names nodes ns assigned :
    nodes_of name = Some nodes -> (forall s, In s nodes -> is_annotation s) -> class_namespace names ns assigned ->
    class_namespace (name :: names) ns assigned
| namespace_function name names before s after v ns assigned :
    nodes_of name = Some (before ++ s :: after) -> gives name s v -> ~ is_annotation s ->
    (forall s', In s' before -> is_annotation s' \/ exists v', gives name s' v') ->
    (forall s', In s' after -> is_annotation s') -> class_namespace names ns assigned ->
    class_namespace (name :: names) ((name, v) :: ns) assigned
| namespace_assigned name names before s after v ns assigned :
    nodes_of name = Some (before ++ s :: after) -> assigns name s v -> ~ is_annotation s ->
    (forall s', In s' (before ++ after) -> is_annotation s') -> class_namespace names ns assigned ->
    class_namespace (name :: names) ((name, v) :: ns) ((name, v) :: assigned).
(** The annotations without value, the last of each name *)
Inductive annotations_stated : list pystr -> list (pystr * expr) -> Prop :=
| stated_nil : annotations_stated [] []
| stated_last name names before t a after stated :
    nodes_of name = Some (before ++ SAnnAssign t a None :: after) -> (forall s, In s after -> ~ is_annotation s) ->
    annotations_stated names stated -> annotations_stated (name :: names) ((name, a) :: stated)
| stated_not name names nodes stated :
    nodes_of name = Some nodes -> (forall s, In s nodes -> ~ is_annotation s) ->
    annotations_stated names stated -> annotations_stated (name :: names) stated.
(** What classes are made of: where they were made, the namespace, and room for
    annotations if there are any *)
Definition class_body (annotated : bool) (ns : list (pystr * V)) : list (pystr * V) :=
  ($"__module__", of_constant py (CStr $"paradigm._core.arboreal.evaluation"))
  :: ns ++ (if annotated then [($"__annotations__", empty_dict py)] else []).
End Class.

(** A name in a decorator or default of a function, which Python looks up when the
    definition is executed; annotations are texts by then. *)
Definition looked_up_at_once (n : pystr) (s : stmt) : Prop :=
  exists f e, (s = SFunctionDef f \/ s = SAsyncFunctionDef f) /\ SpecStubs.occurs n e
    /\ (In e (fd_decorators f) \/ In e (defaults (fd_args f)) \/ In (Some e) (kw_defaults (fd_args f))).

(** A name in an assignment to a name, other than that name *)
Definition used_by_assignment (n : pystr) (s : stmt) : Prop :=
  exists t e, SpecStubs.occurs n e /\ (s = SAssign [t] e \/ (exists a, s = SAnnAssign t a (Some e)) \/ exists v, s = SAnnAssign t e (Some v)).

(** What the making of a class that exists in stubs only waits for: its base classes, and what the
    names stand for that its functions look up at once and its other statements mention, but for
    annotations without values. *)
Definition read_when_made (n : pystr) (s : stmt) : Prop :=
  looked_up_at_once n s \/ (forall f, s <> SFunctionDef f /\ s <> SAsyncFunctionDef f) /\ In n (names_stmt s).
Definition waits_for (stubs : tables) (q q' : qualified_path) : Prop :=
  In q' (dget_or (snd q) [] (dget_or (fst q) [] (stub_superclasses stubs)))
  \/ exists nodes field statements s name,
       dget (fst q) (stub_nodes stubs) = Some nodes /\ dget (snd q ++ [field]) nodes = Some statements /\ In s statements
       /\ ~ is_annotation s /\ read_when_made name s /\ resolve stubs (fst q) (snd q) [name] = Ok q'.
Definition stub_only_class {V} (py : python V) (stubs : tables) (q : qualified_path) : Prop :=
  (forall v, import_object py q <> Imported v)
  /\ exists kinds, dget (fst q) (stub_kinds stubs) = Some kinds /\ dget (snd q) kinds = Some CLASS.
(** The first things that the making of a class needs can all be imported or are in [circle], and
    some are in [circle]: what its first field other than an annotation without value reads, or its base
    classes if there is no such field. *)
Definition needs_first {V} (py : python V) (stubs : tables) (circle : qualified_path -> Prop) (q : qualified_path) : Prop :=
  let good q' := circle q' \/ exists v, import_object py q' = Imported v in
  exists definitions scope nodes before rest,
    dget (fst q) (stub_definitions stubs) = Some definitions /\ scope_at definitions (snd q) = Ok scope
    /\ dget (fst q) (stub_nodes stubs) = Some nodes /\ dkeys (entries scope) = before ++ rest
    /\ (forall name, In name before -> exists statements, dget (snd q ++ [name]) nodes = Some statements /\ forall s, In s statements -> is_annotation s)
    /\ match rest with
       | [] => let bases := dget_or (snd q) [] (dget_or (fst q) [] (stub_superclasses stubs)) in
               (exists q', In q' bases /\ circle q') /\ forall q', In q' bases -> good q'
       | name :: _ =>
           exists a s r, dget (snd q ++ [name]) nodes = Some (a ++ s :: r) /\ (forall s', In s' a -> is_annotation s') /\ ~ is_annotation s
             /\ (exists n q', read_when_made n s /\ resolve stubs (fst q) (snd q) [n] = Ok q' /\ circle q')
             /\ forall n, read_when_made n s -> exists q', resolve stubs (fst q) (snd q) [n] = Ok q' /\ good q'
       end.

Section Stubs.
Context {V : Type}.
Variable py : python V.
Variable stubs : tables.
Variables m parent : path.
(** A name stands for what is imported from where it is resolved to. *)
Definition imported (o : path) (v : V) : Prop :=
  exists q, resolve stubs m parent o = Ok q /\ import_object py q = Imported v.
(** What a name is resolved to, if anything, can be imported. *)
Definition importable (o : path) : Prop :=
  forall q, resolve stubs m parent o = Ok q -> exists v, import_object py q = Imported v.
(** A dictionary in which the names in decorators and defaults of a function stand for what is
    imported from where they are resolved to; builtins are not in it, they are there anyway. *)
Definition provides (s : stmt) (ns : dict pystr V) : Prop :=
  NoDup (dkeys ns) /\ ~ In $"__builtins__" (dkeys ns) /\
  forall name, looked_up_at_once name s ->
    exists q w, resolve stubs m parent [name] = Ok q /\ import_object py q = Imported w
      /\ ((fst q = builtins_path /\ dget name ns = None) \/ (fst q <> builtins_path /\ dget name ns = Some w)).
(** A function [name] in [parent], which has the names [own], gives [v] in such namespaces. *)
Definition runs (own : list pystr) (name : pystr) (s : stmt) (v : V) : Prop :=
  exists f, (s = SFunctionDef f \/ s = SAsyncFunctionDef f) /\ fd_name f = name
    /\ (forall n, looked_up_at_once n s -> (exists w, imported [n] w) /\ ~ In n ($"__module__" :: $"__name__" :: $"__builtins__" :: own))
    /\ ~ In $"__builtins__" own
    /\ (forall ns, provides s ns -> execute py ns (m, parent ++ [name]) s = Ok v).
(** [v] is assigned to [name] in [parent], by an expression whose names can be imported. *)
Definition assigns (name : pystr) (s : stmt) (v : V) : Prop :=
  exists e, (s = SAssign [Name name] e \/ exists a, s = SAnnAssign (Name name) a (Some e))
    /\ resolve stubs m parent [name] = Ok (m, parent ++ [name])
    /\ (forall n, used_by_assignment n s -> (exists w, imported [n] w) /\ n <> $"__builtins__")
    /\ (forall o, mentions e o -> importable o) /\ means py imported e v.
End Stubs.
