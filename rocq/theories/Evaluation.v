(** Model of paradigm/_core/arboreal/evaluation.py: expressions, assignments with
    their cache, and the evaluation of qualified paths, stub-only classes and
    modules.

    Opaque (parameters of the section): Python values and the operations on them;
    importing ([import_module] and [namespacing.search]); executing a function
    statement; making a class. What is set on modules and classes after they were made, the
    attributes of modules and the annotations of classes, is written down in the memory; it
    does not change the value.
    The weak dictionaries [modules_cache] and [objects_cache] never lose entries
    here. Names of a set are taken in order of occurrence. Version: Python 3.9 or
    later.

    Namespaces: [parent_namespace] of each function of evaluation.py is a dictionary or a
    [ChainMap] of two; it is part of the memory here, since all functions hand it on
    and write to it.

    Names are resolved by [resolve] ([scoping.resolve_object_path] with the tables
    of stubs.py). *)
From Verif Require Import Base Ast Conversion Catalog Scoping Signatures Stubs.

(** Outcome of [import_module] and [namespacing.search] (evaluation.py:308-330) *)
Inductive import_result (V : Type) :=
| NotImportable            (* ImportError *)
| NotThere                 (* imported, but there is no such object *)
| Imported (v : V).
Arguments NotImportable {V}.
Arguments NotThere {V}.
Arguments Imported {V}.

(** A namespace: the dictionaries of a [ChainMap], a single one for a dictionary *)
Definition namespace (V : Type) : Type := list (dict pystr V).
(** The caches: [cache] (evaluation.py:218), [objects_cache] (:304) and
    [modules_cache] (:302); [parent_namespace]; what was assigned to globals of
    evaluation.py (:436); what was put into the dictionaries of modules (:317-322) and of
    annotations of classes (:428-434). The last field is not in the code: the classes that
    [types.new_class] has made (:416), each time it made one *)
Record memory (V : Type) := mk_memory {
  aliases : dict qualified_path V;
  classes : dict qualified_path V;
  modules : dict path V;
  names : namespace V;
  globals : dict pystr V;
  attributes : dict path (dict pystr V);
  annotations : dict qualified_path (dict pystr V);
  new_classes : list qualified_path
}.
Arguments mk_memory {V}.
Arguments aliases {V}.
Arguments classes {V}.
Arguments modules {V}.
Arguments names {V}.
Arguments globals {V}.
Arguments attributes {V}.
Arguments annotations {V}.
Arguments new_classes {V}.
(** [parent_namespace[n] = v]: the first dictionary of the chain *)
Definition set_name {V} (n : pystr) (v : V) (ns : namespace V) : namespace V :=
  match ns with
  | d :: r => dset n v d :: r
  | [] => []
  end.
Definition with_names {V} (ns : namespace V) (c : memory V) : memory V :=
  mk_memory (aliases c) (classes c) (modules c) ns (globals c) (attributes c) (annotations c) (new_classes c).
Definition bind_name {V} (n : pystr) (v : V) (c : memory V) : memory V := with_names (set_name n v (names c)) c.
(** [dict(parent_namespace)] *)
Fixpoint merged {V} (ns : namespace V) : dict pystr V :=
  match ns with
  | [] => []
  | d :: r => fold_left (fun all kv => dset (fst kv) (snd kv) all) d (merged r)
  end.

(** What evaluation does: the caches afterwards, and a value or an exception;
    [RecursionError] when the fuel ran out *)
Definition evaluated (V A : Type) : Type := memory V * res A.
Definition ebind {V A B} (x : evaluated V A) (f : memory V -> A -> evaluated V B) : evaluated V B :=
  match x with
  | (c, Ok a) => f c a
  | (c, Err e) => (c, Err e)
  end.
Notation "'eval' '[' c , x ] <- a ; b" := (ebind a (fun c x => b))
  (at level 200, c name, x name, a at level 100, b at level 200).
(** With another namespace: also what that namespace is afterwards *)
Definition inside {V A} (ns : namespace V) (f : memory V -> evaluated V A) (c : memory V) : evaluated V (A * namespace V) :=
  match f (with_names ns c) with
  | (c', Ok a) => (with_names (names c) c', Ok (a, names c'))
  | (c', Err e) => (with_names (names c) c', Err e)
  end.

(** Python *)
Record python (V : Type) := mk_python {
  of_constant : constant -> V;
  tuple_of : list V -> V;
  list_of : list V -> V;
  dict_of : list (option V * V) -> res V;            (* keys and values; no key: **value *)
  unary : unary_operator -> V -> res V;
  binary : operator -> V -> V -> res V;
  union : V -> V -> res V;
  getattr : V -> pystr -> res V;
  getitem : V -> V -> res V;
  call : V -> list V -> list (option pystr * V) -> res V;
  forward_ref : pystr -> V;                          (* typing.ForwardRef(text) *)
  import_object : qualified_path -> import_result V;
  empty_dict : V;                                    (* {} *)
  execute : dict pystr V -> qualified_path -> stmt -> res V; (* execute_statement, :161-179; the namespace *)
  new_class : pystr -> list V -> list (pystr * V) -> res V;  (* types.new_class, :416 *)
  new_module : pystr -> V                            (* types.ModuleType, :315 *)
}.

Arguments of_constant {V}.
Arguments tuple_of {V}.
Arguments list_of {V}.
Arguments dict_of {V}.
Arguments unary {V}.
Arguments binary {V}.
Arguments union {V}.
Arguments getattr {V}.
Arguments getitem {V}.
Arguments call {V}.
Arguments forward_ref {V}.
Arguments import_object {V}.
Arguments empty_dict {V}.
Arguments execute {V}.
Arguments new_class {V}.
Arguments new_module {V}.

(** The tables of stubs.py; [resolve]: [scoping.resolve_object_path] *)
Record tables := mk_tables {
  resolve : path -> path -> path -> res qualified_path;
  stub_nodes : dict path (dict path (list stmt));
  stub_kinds : dict path (dict path node_kind);
  stub_definitions : dict path scope;
  stub_superclasses : dict path (dict path (list qualified_path))
}.

(** Names in a statement after [_to_lazy_statement] (evaluation.py:135-159):
    annotations of functions are texts then *)
Definition lazy_names (s : stmt) : list pystr :=
  match s with
  | SFunctionDef f | SAsyncFunctionDef f =>
      flat_map names_opt (kw_defaults (fd_args f)) ++ flat_map names_in (defaults (fd_args f))
      ++ flat_map names_in (fd_decorators f)
  | s => names_stmt s
  end.

Section Evaluation.
Context {V : Type}.
Variable py : python V.
Variable stubs : tables.
Notation memory := (memory V).
Notation evaluated := (evaluated V).

Section Expressions.
(** [evaluate_qualified_path], for names *)
Variable evaluate_path : qualified_path -> memory -> evaluated V.

(** [scoping.resolve_object_path] and then [evaluate_qualified_path] *)
Definition evaluate_resolved (m parent o : path) (c : memory) : evaluated V :=
  match resolve stubs m parent o with
  | Ok q => evaluate_path q c
  | Err e => (c, Err e)
  end.

(** [evaluate_operator_node] (evaluation.py:49-62, 100-113) and the application of
    what it returns; other operators have no case *)
Definition apply_unary (op : unary_operator) (v : V) : res V :=
  match op with
  | OtherUnary => Err TypeError
  | op => unary py op v
  end.
Definition apply_binary (op : operator) (l r : V) : res V :=
  match op with
  | OtherOperator => Err TypeError
  | op => binary py op l r
  end.

Section Lists.
Variable f : expr -> memory -> evaluated V.
Fixpoint evaluate_list (es : list expr) (c : memory) : evaluated (list V) :=
  match es with
  | [] => (c, Ok [])
  | e :: r => eval [c, v] <- f e c; eval [c, vs] <- evaluate_list r c; (c, Ok (v :: vs))
  end.
Fixpoint evaluate_keywords (ks : list (option pystr * expr)) (c : memory) : evaluated (list (option pystr * V)) :=
  match ks with
  | [] => (c, Ok [])
  | (k, e) :: r => eval [c, v] <- f e c; eval [c, vs] <- evaluate_keywords r c; (c, Ok ((k, v) :: vs))
  end.
(** Keys and values in turns (evaluation.py:91-99); no key is [None] here *)
Fixpoint evaluate_items (items : list (option expr * expr)) (c : memory) : evaluated (list (option V * V)) :=
  match items with
  | [] => (c, Ok [])
  | (None, _) :: _ => (c, Err AssertionError)
  | (Some k, e) :: r =>
      eval [c, k] <- f k c; eval [c, v] <- f e c; eval [c, vs] <- evaluate_items r c; (c, Ok ((Some k, v) :: vs))
  end.
End Lists.

(** [evaluate_expression_node] (evaluation.py:33-37, 65-76, 85-99, 117-132, 182-209,
    245-292, 469-482) *)
Fixpoint evaluate_expression (m parent : path) (e : expr) (c : memory) : evaluated V :=
  match e with
  | UnaryOp OtherUnary _ => (c, Err TypeError)                               (* :72 *)
  | UnaryOp op operand =>                                                    (* :65-76 *)
      eval [c, v] <- evaluate_expression m parent operand c;
      (c, apply_unary op v)
  | Call func args keywords =>                                               (* :117-132 *)
      eval [c, vs] <- evaluate_list (evaluate_expression m parent) args c;
      eval [c, ks] <- evaluate_keywords (evaluate_expression m parent) keywords c;
      eval [c, f] <- evaluate_expression m parent func c;
      (c, call py f vs ks)
  | Constant k => (c, Ok (of_constant py k))                                 (* :182-187 *)
  | Tuple es =>                                                              (* :190-198 *)
      eval [c, vs] <- evaluate_list (evaluate_expression m parent) es c;
      (c, Ok (tuple_of py vs))
  | List es =>                                                               (* :201-209 *)
      eval [c, vs] <- evaluate_list (evaluate_expression m parent) es c;
      (c, Ok (list_of py vs))
  | Dict items =>                                                            (* :85-99 *)
      if forallb (fun i => match fst i with Some _ => true | None => false end) items
      then eval [c, vs] <- evaluate_items (evaluate_expression m parent) items c; (c, dict_of py vs)
      else (c, Err AssertionError)
  | BinOp l op r =>                                                          (* :245-258 *)
      eval [c, l] <- evaluate_expression m parent l c;
      eval [c, r] <- evaluate_expression m parent r c;
      match apply_binary op l r with
      | Err TypeError =>
          match op with
          | BitOr => (c, union py l r)
          | _ => (c, Err AssertionError)
          end
      | x => (c, x)
      end
  | Name id => evaluate_resolved m parent [id] c                             (* :261-272 *)
  | Attribute value attr =>                                                  (* :275-292 *)
      eval [c, v] <- evaluate_expression m parent value c;
      match getattr py v attr with
      | Err AttributeError =>
          match to_path e with
          | Ok o => evaluate_resolved m parent o c
          | Err x => (c, Err x)
          end
      | x => (c, x)
      end
  | Subscript value slice =>                                                 (* :469-482 *)
      eval [c, v] <- evaluate_expression m parent value c;
      eval [c, i] <- evaluate_expression m parent slice c;
      match getitem py v i with
      | Err TypeError => (c, Ok v)
      | x => (c, x)
      end
  | OtherExpr _ => (c, Err TypeError)                                        (* :37 *)
  end.

(** The targets of an assignment (evaluation.py:219-224) *)
Definition targets_paths (m parent : path) (s : stmt) : res (list qualified_path) :=
  let* names := to_names s in
  map_m (fun name => resolve stubs m parent [name]) names.

Definition with_alias (t : qualified_path) (v : V) (c : memory) : memory :=
  mk_memory (dset t v (aliases c)) (classes c) (modules c) (names c) (globals c) (attributes c) (annotations c) (new_classes c).
(** The search of evaluation.py:225-236: the first cached target, or none; a
    placeholder is put in the cache for each target before. *)
Fixpoint search_cache (targets : list qualified_path) (c : memory) : memory * option V :=
  match targets with
  | [] => (c, None)
  | t :: r =>
      match dget t (aliases c) with
      | Some v => (c, Some v)
      | None => search_cache r (with_alias t (forward_ref py (path_to_string (snd t))) c)
      end
  end.
(** evaluation.py:240-241 *)
Definition store (targets : list qualified_path) (v : V) (c : memory) : memory :=
  fold_left (fun c t => with_alias t v c) targets c.

(** [evaluate_statement_node] for assignments (evaluation.py:212-242); a value of
    [None] has no case in [evaluate_expression_node]. *)
Definition evaluate_assignment (m parent : path) (s : stmt) (value : option expr) (c : memory) : evaluated V :=
  match targets_paths m parent s with
  | Err e => (c, Err e)
  | Ok targets =>
      match search_cache targets c with
      | (c, Some v) => (store targets v c, Ok v)
      | (c, None) =>
          eval [c, v] <- (match value with
                          | Some e => evaluate_expression m parent e c
                          | None => (c, Err TypeError)
                          end);
          (store targets v c, Ok v)
      end
  end.

(** [evaluate_statement_node] (evaluation.py:41-46, 163-179, 212-242) *)
Definition evaluate_statement (m parent : path) (s : stmt) (c : memory) : evaluated V :=
  match s with
  | SAnnAssign _ _ value => evaluate_assignment m parent s value c
  | SAssign _ value => evaluate_assignment m parent s (Some value) c
  | SFunctionDef f | SAsyncFunctionDef f =>
      match execute py (merged (names c)) (m, parent ++ [fd_name f]) s with
      | Ok v => (bind_name (fd_name f) v c, Ok v)
      | Err e => (c, Err e)
      end
  | _ => (c, Err TypeError)
  end.

(** evaluation.py:343-352: the value of the last node; [NameError]: [value] is
    unbound. Each value is bound to [name]. *)
Fixpoint evaluate_nodes (m parent : path) (name : pystr) (nodes : list stmt) (last : res V) (c : memory) : evaluated V :=
  match nodes with
  | [] => (c, last)
  | s :: r => eval [c, v] <- evaluate_statement m parent s c; evaluate_nodes m parent name r (Ok v) (bind_name name v c)
  end.

(** The dependencies of a definition in a class (evaluation.py:371-396);
    [md]: [module_namespace] *)
Fixpoint evaluate_dependencies (m o : path) (names : list pystr) (md : dict pystr V) (c : memory) : evaluated (dict pystr V) :=
  match names with
  | [] => (c, Ok md)
  | name :: r =>
      match resolve stubs m o [name] with
      | Err e => (c, Err e)
      | Ok q =>
          if fst q == builtins_path then evaluate_dependencies m o r md c
          else eval [c, x] <- inside [md] (evaluate_path q) c;
               evaluate_dependencies m o r (dset name (fst x) (hd [] (snd x))) c
      end
  end.
(** The definitions of one field (evaluation.py:370-402); [cls]:
    [class_namespace] *)
Fixpoint evaluate_definitions (m o : path) (definitions : list stmt) (last : option V) (cls md : dict pystr V) (c : memory)
  : evaluated (option V * (dict pystr V * dict pystr V)) :=
  match definitions with
  | [] => (c, Ok (last, (cls, md)))
  | s :: r =>
      eval [c, md] <- evaluate_dependencies m o (dedupe (lazy_names s)) md c;
      eval [c, x] <- inside [cls; md] (evaluate_statement m o s) c;
      evaluate_definitions m o r (Some (fst x)) (nth 0 (snd x) []) (nth 1 (snd x) []) c
  end.
(** Annotations without value and other nodes (evaluation.py:361-369) *)
Definition annotation_of (s : stmt) : option expr :=
  match s with SAnnAssign _ annotation None => Some annotation | _ => None end.
Fixpoint last_annotation (nodes : list stmt) : option expr :=
  match nodes with
  | [] => None
  | s :: r => match last_annotation r with Some a => Some a | None => annotation_of s end
  end.
Definition definitions_nodes (nodes : list stmt) : list stmt :=
  filter (fun s => match annotation_of s with Some _ => false | None => true end) nodes.
(** The loop over the names of a class (evaluation.py:357-402): its namespace, that of
    its dependencies and the annotations *)
Fixpoint evaluate_fields (m o : path) (module_nodes : dict path (list stmt)) (names : list pystr) (cls md : dict pystr V) (c : memory)
  : evaluated ((dict pystr V * dict pystr V) * list (pystr * expr)) :=
  match names with
  | [] => (c, Ok ((cls, md), []))
  | name :: r =>
      match fetch (o ++ [name]) module_nodes with
      | Err e => (c, Err e)
      | Ok nodes =>
          eval [c, x] <- evaluate_definitions m o (definitions_nodes nodes) None cls md c;
          eval [c, rest] <- evaluate_fields m o module_nodes r
                              (match fst x with Some v => dset name v (fst (snd x)) | None => fst (snd x) end) (snd (snd x)) c;
          (c, Ok (fst rest, match last_annotation nodes with Some a => (name, a) :: snd rest | None => snd rest end))
      end
  end.
(** The base classes (evaluation.py:403-412) *)
Fixpoint evaluate_paths (qs : list qualified_path) (c : memory) : evaluated (list V) :=
  match qs with
  | [] => (c, Ok [])
  | q :: r => eval [c, v] <- evaluate_path q c; eval [c, vs] <- evaluate_paths r c; (c, Ok (v :: vs))
  end.
Fixpoint evaluate_annotations (m o : path) (annotations : list (pystr * expr)) (c : memory) : evaluated (list (pystr * V)) :=
  match annotations with
  | [] => (c, Ok [])
  | (name, e) :: r =>
      eval [c, v] <- evaluate_expression m o e c;
      eval [c, vs] <- evaluate_annotations m o r c;
      (c, Ok ((name, v) :: vs))
  end.
Definition with_class (q : qualified_path) (v : V) (c : memory) : memory :=
  mk_memory (aliases c) (dset q v (classes c)) (modules c) (names c) (globals c) (attributes c) (annotations c) (new_classes c ++ [q]).
Definition with_global (n : pystr) (v : V) (c : memory) : memory :=
  mk_memory (aliases c) (classes c) (modules c) (names c) (dset n v (globals c)) (attributes c) (annotations c) (new_classes c).
(** [result.__annotations__.update], of a dictionary that is empty before (evaluation.py:413-414,
    428-434) *)
Definition annotate (q : qualified_path) (values : list (pystr * V)) (c : memory) : memory :=
  if is_nil values then c
  else mk_memory (aliases c) (classes c) (modules c) (names c) (globals c) (attributes c) (dset q values (annotations c)) (new_classes c).
(** [__name__] of evaluation.py (evaluation.py:356-357) *)
Definition module_name : V := of_constant py (CStr $"paradigm._core.arboreal.evaluation").
(** evaluation.py:413-414 *)
Definition with_annotations (annotations : list (pystr * expr)) (cls : dict pystr V) : dict pystr V :=
  if is_nil annotations then cls else dset $"__annotations__" (empty_dict py) cls.
(** A stub-only class (evaluation.py:353-437) *)
Definition evaluate_class (m o : path) (module_nodes : dict path (list stmt)) (c : memory) : evaluated V :=
  match (let* s := fetch m (stub_definitions stubs) in scope_at s o) with
  | Err e => (c, Err e)
  | Ok s =>
      eval [c, fields] <- evaluate_fields m o module_nodes (dkeys (entries s))
                            [($"__module__", module_name)] [($"__name__", module_name)] c;
      eval [c, bases] <- inside [snd (fst fields)] (evaluate_paths (dget_or o [] (dget_or m [] (stub_superclasses stubs)))) c;
      match new_class py (path_to_string o) (fst bases) (with_annotations (snd fields) (fst (fst fields))) with
      | Err e => (c, Err e)
      | Ok v =>
          let c := bind_name (last o []) v (with_class (m, o) v c) in
          eval [c, values] <- evaluate_annotations m o (snd fields) c;
          (with_global (path_to_string o) v (annotate (m, o) values c), Ok v)
      end
  end.
(** [module.__dict__[name] = v] *)
Definition with_attribute (m : path) (name : pystr) (v : V) (c : memory) : memory :=
  mk_memory (aliases c) (classes c) (modules c) (names c) (globals c)
    (dset m (dset name v (dget_or m [] (attributes c))) (attributes c)) (annotations c) (new_classes c).
(** A stub-only module (evaluation.py:311-324) *)
Fixpoint evaluate_module_fields (m : path) (names : list pystr) (c : memory) : evaluated unit :=
  match names with
  | [] => (c, Ok tt)
  | name :: r => eval [c, v] <- evaluate_path (m, [name]) c; evaluate_module_fields m r (bind_name name v (with_attribute m name v c))
  end.
Definition with_module (m : path) (v : V) (c : memory) : memory :=
  mk_memory (aliases c) (classes c) (dset m v (modules c)) (names c) (globals c) (attributes c) (annotations c) (new_classes c).
Definition evaluate_module (m : path) (c : memory) : evaluated V :=
  match dget m (modules c) with
  | Some v => (c, Ok v)
  | None =>
      let v := new_module py (path_to_string m) in
      let c := with_module m v c in
      match fetch m (stub_definitions stubs) with
      | Err e => (c, Err e)
      | Ok s => eval [c, _] <- evaluate_module_fields m (dkeys (entries s)) c; (c, Ok v)
      end
  end.

(** evaluation.py:332-352 *)
Definition evaluate_object (m o : path) (c : memory) : evaluated V :=
  match dget (m, o) (classes c) with
  | Some v => (c, Ok v)
  | None =>
      match (let* module_nodes := fetch m (stub_nodes stubs) in
             let* module_kinds := fetch m (stub_kinds stubs) in
             let* kind := fetch o module_kinds in
             Ok (module_nodes, kind)) with
      | Err e => (c, Err e)
      | Ok (module_nodes, kind) =>
          if is_CLASS kind then evaluate_class m o module_nodes c
          else match dget o module_nodes with
               | None => (c, Err AssertionError)
               | Some ns => evaluate_nodes m (removelast o) (last o []) ns (Err NameError) c
               end
      end
  end.
End Expressions.

(** [evaluate_qualified_path] (evaluation.py:295-437) *)
Fixpoint evaluate_qualified_path (fuel : nat) (q : qualified_path) (c : memory) {struct fuel} : evaluated V :=
  match fuel with
  | 0 => (c, Err RecursionError)
  | S fuel =>
      match import_object py q with
      | Imported v => (c, Ok v)
      | NotImportable =>
          if is_nil (snd q) then evaluate_module (evaluate_qualified_path fuel) (fst q) c
          else evaluate_object (evaluate_qualified_path fuel) (fst q) (snd q) c
      | NotThere => evaluate_object (evaluate_qualified_path fuel) (fst q) (snd q) c
      end
  end.
(** An expression or a statement, with all it needs. *)
Definition evaluate_expression_node fuel := evaluate_expression (evaluate_qualified_path fuel).
Definition evaluate_statement_node fuel := evaluate_statement (evaluate_qualified_path fuel).
End Evaluation.
