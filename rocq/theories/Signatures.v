(** Model of paradigm/_core/signatures.py.

    - Runtime objects are an arbitrary type [O] with identity; what the code asks
      about them ([isinstance], [getattr], [sys.modules], [inspect.signature],
      [catalog.qualified_path_from]) are Section variables.
    - [_evaluate_expression_node] is a Section variable; it may raise.
    - The tables of stubs.py are data. [raw_ast_nodes] holds the statements
      themselves instead of their dumped text ([construction.from_raw] undoes
      [to_raw]).
    - Recursion through stub definitions uses explicit fuel; calls to
      [resolve_object_path] get the recursion limit [limit]. *)
From Verif Require Import Base PySort Models Ast Conversion Scoping.

(** [_SignatureNotFound] (signatures.py:379-380) is caught by the code, every
    other exception is [Throws]; [scoping.ObjectNotFound] leaving a function is
    [Throws OtherException]. *)
Inductive outcome (A : Type) :=
| Return (a : A)
| SignatureNotFound
| Throws (e : exc).
Arguments Return {A}.
Arguments SignatureNotFound {A}.
Arguments Throws {A}.

Definition obind {A B} (x : outcome A) (f : A -> outcome B) : outcome B :=
  match x with
  | Return a => f a
  | SignatureNotFound => SignatureNotFound
  | Throws e => Throws e
  end.
Notation "'do' x <- a ; b" := (obind a (fun x => b))
  (at level 200, x name, a at level 100, b at level 200).
Notation "'do' ' x <- a ; b" := (obind a (fun x => b))
  (at level 200, x strict pattern, a at level 100, b at level 200).
Definition of_res {A} (x : res A) : outcome A :=
  match x with Ok a => Return a | Err e => Throws e end.
Definition of_resolution (x : resolution) : outcome qualified_path :=
  match x with
  | Resolved q => Return q
  | ObjectNotFound => Throws OtherException
  | Raises e => Throws e
  end.
Fixpoint omap {A B} (f : A -> outcome B) (xs : list A) : outcome (list B) :=
  match xs with
  | [] => Return []
  | x :: r => do y <- f x; do ys <- omap f r; Return (y :: ys)
  end.
(** [mapping[key]] *)
Definition lookup {K A} `{Eqb K} (k : K) (d : dict K A) : outcome A :=
  match dget k d with Some a => Return a | None => Throws KeyError end.

(** [NodeKind] (arboreal/kind.py:5-10) *)
Inductive node_kind := ANNOTATED_ASSIGNMENT | ASSIGNMENT | ASYNC_FUNCTION | CLASS | FUNCTION.
Definition is_CLASS (k : node_kind) : bool := match k with CLASS => true | _ => false end.

(** Statements of a stub as far as [_from_statement_node] looks at them
    (signatures.py:269-310); other statements have no case there. *)
Inductive statement :=
| AnnAssign (annotation : expr) (value : option expr)
| Assign (value : expr)
| FunctionDef (fd : function_def)       (* also AsyncFunctionDef *)
| OtherStatement.

(** The tables of stubs.py used here *)
Record stubs_tables := mk_tables {
  database_of : database;
  nodes_kinds : dict path (dict path node_kind);
  raw_ast_nodes : dict path (dict path (list statement))
}.

(** ** inspect *)
(** [inspect.Parameter]; the kind by its value in [inspect._ParameterKind] *)
Record raw_parameter (V : Type) := mk_raw {
  raw_name : pystr;
  raw_kind : nat;
  raw_default : option V;        (* [None] stands for [inspect._empty] *)
  raw_annotation : option V
}.
Record raw_signature (V : Type) := mk_raw_signature {
  raw_parameters : list (raw_parameter V);
  raw_returns : option V
}.
Arguments mk_raw {V}.
Arguments raw_name {V}.
Arguments raw_kind {V}.
Arguments raw_default {V}.
Arguments raw_annotation {V}.
Arguments mk_raw_signature {V}.
Arguments raw_parameters {V}.
Arguments raw_returns {V}.

(** [_ParameterKind(raw.kind)] (signatures.py:541, models.py:26-32) *)
Definition kind_of_value (n : nat) : res kind :=
  match n with
  | 0 => Ok POSITIONAL_ONLY
  | 1 => Ok POSITIONAL_OR_KEYWORD
  | 2 => Ok VARIADIC_POSITIONAL
  | 3 => Ok KEYWORD_ONLY
  | 4 => Ok VARIADIC_KEYWORD
  | _ => Err ValueError
  end.

Definition is_variadic (k : kind) : bool :=
  match k with VARIADIC_POSITIONAL | VARIADIC_KEYWORD => true | _ => false end.

Section Parameters.
Context {V : Type}.
Variables (is_NONE is_Ellipsis : V -> bool).
(** [typing.Any], [Self], [Type[Self]] *)
Variables (Any Self TypeSelf : V).

(** [_parameter_from_raw] (signatures.py:538-555) *)
Definition parameter_from_raw (raw : raw_parameter V) : res (parameter V) :=
  let annotation := match raw_annotation raw with None => Any | Some a => a end in
  let* k := kind_of_value (raw_kind raw) in
  match raw_default raw with
  | None =>
      if is_variadic k then new_optional is_NONE annotation None (IsKind k) (raw_name raw)
      else new_required annotation (IsKind k) (raw_name raw)
  | Some default => new_optional is_NONE annotation (Some default) (IsKind k) (raw_name raw)
  end.

(** [_from_raw_signature] (signatures.py:558-564) *)
Definition from_raw_signature (value : raw_signature V) : res (signature V) :=
  let* ps := map_m parameter_from_raw (raw_parameters value) in
  map_res Plain (new_plain ps (match raw_returns value with None => Any | Some r => r end)).

(** [_evaluate_expression_node(node, module_path, parent_path, {})] *)
Variable evaluate : expr -> path -> path -> res V.

(** [_parameter_from_ast_node] (signatures.py:567-594) *)
Definition parameter_from_ast_node (ast_node : arg) (default_ast : option expr)
    (module_path parent_path : path) (k : kind) : res (parameter V) :=
  let* annotation := match arg_annotation ast_node with
                     | None => Ok Any
                     | Some e => evaluate e module_path parent_path
                     end in
  match default_ast with
  | Some e =>
      let* default := evaluate e module_path parent_path in
      new_optional is_NONE annotation (if is_Ellipsis default then None else Some default)
        (IsKind k) (arg_name ast_node)
  | None =>
      if is_variadic k then new_optional is_NONE annotation None (IsKind k) (arg_name ast_node)
      else new_required annotation (IsKind k) (arg_name ast_node)
  end.

(** [itertools.zip_longest] *)
Fixpoint zip_longest {A B} (xs : list A) (ys : list B) : list (option A * option B) :=
  match xs, ys with
  | [], [] => []
  | x :: xs', [] => (Some x, None) :: zip_longest xs' []
  | [], y :: ys' => (None, Some y) :: (fix go ys := match ys with
                                                    | [] => []
                                                    | y :: r => (None, Some y) :: go r
                                                    end) ys'
  | x :: xs', y :: ys' => (Some x, Some y) :: zip_longest xs' ys'
  end.

(** [_to_positional_parameters] (signatures.py:610-623). [None] in place of a
    parameter (more defaults than [args]) makes [ast_node.annotation] raise. *)
Definition to_positional_parameters (signature_ast : arguments) (module_path parent_path : path)
  : res (list (parameter V)) :=
  map_m (fun '(parameter_ast, default_ast) =>
           match parameter_ast with
           | None => Err AttributeError
           | Some a => parameter_from_ast_node a default_ast module_path parent_path POSITIONAL_ONLY
           end)
    (rev (zip_longest (rev (args signature_ast)) (rev (defaults signature_ast)))).

(** [_to_keyword_parameters] (signatures.py:597-607) *)
Definition to_keyword_parameters (signature_ast : arguments) (module_path parent_path : path)
  : res (list (parameter V)) :=
  map_m (fun '(a, default_ast) =>
           parameter_from_ast_node a default_ast module_path parent_path KEYWORD_ONLY)
    (combine (kwonlyargs signature_ast) (kw_defaults signature_ast)).

(** [_to_variadic_keyword_parameter], [_to_variadic_positional_parameter]
    (signatures.py:626-651); [None] is dropped by [filter(None, ...)] *)
Definition to_variadic_parameter (a : option arg) (k : kind) (module_path parent_path : path)
  : res (list (parameter V)) :=
  match a with
  | None => Ok []
  | Some a => let* p := parameter_from_ast_node a None module_path parent_path k in Ok [p]
  end.

(** The list built at signatures.py:319-329 *)
Definition all_parameters (signature_ast : arguments) (module_path parent_path : path)
  : res (list (parameter V)) :=
  let* positional := to_positional_parameters signature_ast module_path parent_path in
  let* variadic_positional :=
    to_variadic_parameter (vararg signature_ast) VARIADIC_POSITIONAL module_path parent_path in
  let* keyword := to_keyword_parameters signature_ast module_path parent_path in
  let* variadic_keyword :=
    to_variadic_parameter (kwarg signature_ast) VARIADIC_KEYWORD module_path parent_path in
  Ok (positional ++ variadic_positional ++ keyword ++ variadic_keyword).

(** [result[0] = RequiredParameter(annotation=..., kind=POSITIONAL_ONLY,
    name=result[0].name)] (signatures.py:334-340) *)
Definition replace_first (annotation : V) (ps : list (parameter V)) : res (list (parameter V)) :=
  match ps with
  | [] => Err IndexError
  | p :: rest =>
      let* first := new_required annotation (IsKind POSITIONAL_ONLY) (p_name p) in
      Ok (first :: rest)
  end.
(** [del result[0]] (signatures.py:331) *)
Definition delete_first (ps : list (parameter V)) : res (list (parameter V)) :=
  match ps with
  | [] => Err IndexError
  | _ :: rest => Ok rest
  end.

Variable stubs : stubs_tables.
(** recursion limit for [resolve_object_path] *)
Variable limit : nat.

(** [_scoping.resolve_object_path(module_path, parent_path, object_path, ...)] *)
Definition resolve (module_path parent_path object_path : path) : resolution :=
  resolve_object_path (database_of stubs) limit module_path parent_path object_path [].

Definition classmethod_qualified_path : qualified_path := (builtins_path, [$"classmethod"]).

(** [_is_classmethod] (signatures.py:362-376) *)
Definition is_classmethod (e : expr) (module_path parent_path : path) : outcome bool :=
  match to_maybe_path e with
  | None => Return false
  | Some p =>
      do q <- of_resolution (resolve module_path parent_path p);
      Return (q == classmethod_qualified_path)
  end.

(** [any(_is_classmethod(...) for ... in decorators)] *)
Fixpoint any_classmethod (decorators : list expr) (module_path parent_path : path) : outcome bool :=
  match decorators with
  | [] => Return false
  | d :: r =>
      do b <- is_classmethod d module_path parent_path;
      if b then Return true else any_classmethod r module_path parent_path
  end.

(** [_parameters_from] (signatures.py:313-341); [callable_is_type] is
    [isinstance(callable_, type)] *)
Definition parameters_from (fd : function_def) (callable_is_type : bool)
    (module_path parent_path : path) : outcome (list (parameter V)) :=
  do result <- of_res (all_parameters (fd_args fd) module_path parent_path);
  if callable_is_type then of_res (delete_first result)
  else
    do b <- any_classmethod (fd_decorators fd) module_path parent_path;
    if b then of_res (replace_first TypeSelf result)
    else
      do kinds <- lookup module_path (nodes_kinds stubs);
      match dget parent_path kinds with
      | Some CLASS => of_res (replace_first Self result)
      | _ => Return result
      end.

(** [_returns_annotation_from] (signatures.py:344-359) *)
Definition returns_annotation_from (fd : function_def) (callable_is_type : bool)
    (module_path parent_path : path) : res V :=
  if callable_is_type && (fd_name fd == $"__init__") then Ok Self
  else match fd_returns fd with
       | None => Ok Any
       | Some e => evaluate e module_path parent_path
       end.

(** [_from_statement_node] for functions (signatures.py:297-310) *)
Definition from_function_def (fd : function_def) (callable_is_type : bool)
    (module_path parent_path : path) : outcome (signature V) :=
  do ps <- parameters_from fd callable_is_type module_path parent_path;
  do returns <- of_res (returns_annotation_from fd callable_is_type module_path parent_path);
  of_res (map_res Plain (new_plain ps returns)).

(** [_load_ast_nodes] (signatures.py:444-453) *)
Definition load_ast_nodes (module_path object_path : path) : outcome (list statement) :=
  match dget module_path (raw_ast_nodes stubs) with
  | None => SignatureNotFound
  | Some nodes =>
      match dget object_path nodes with
      | None => SignatureNotFound
      | Some [] => Throws AssertionError
      | Some statements => Return statements
      end
  end.

(** ** From stub nodes to signatures
    (signatures.py:136-310); [callable_value] is [callable_] as an argument. *)
Definition typing_path : path := [$"typing"].
Definition call_name : pystr := $"__call__".
Definition decimal (n : nat) : pystr := PyText.repr_int (Z.of_nat n).

Section FromNodes.
Variables (callable_is_type : bool) (callable_value : V).

(** Subscript case: [Callable[[...], returns]] (signatures.py:228-265) *)
Fixpoint callable_parameters (index : nat) (annotations : list expr) (module_path parent_path : path)
  : res (list (parameter V)) :=
  match annotations with
  | [] => Ok []
  | a :: r =>
      let* annotation := evaluate a module_path parent_path in
      let* p := new_required annotation (IsKind POSITIONAL_ONLY) ($"_" ++ decimal index) in
      let* ps := callable_parameters (S index) r module_path parent_path in
      Ok (p :: ps)
  end.
Definition from_callable_subscript (item : expr) (module_path parent_path : path) : res (signature V) :=
  match item with
  | Tuple [arguments_annotations; returns_annotation] =>
      match arguments_annotations with
      | List elts =>
          let* ps := callable_parameters 0 elts module_path parent_path in
          let* returns := evaluate returns_annotation module_path parent_path in
          map_res Plain (new_plain ps returns)
      | _ =>
          let* p := new_optional is_NONE Any None (IsKind VARIADIC_POSITIONAL) $"args" in
          let* q := new_optional is_NONE Any None (IsKind VARIADIC_KEYWORD) $"kwargs" in
          let* returns := evaluate returns_annotation module_path parent_path in
          map_res Plain (new_plain [p; q] returns)
      end
  | Tuple _ => Err ValueError
  | _ => Err AssertionError
  end.

Fixpoint from_expression_node (fuel : nat) (e : expr) (module_path parent_path : path)
  : outcome (signature V) :=
  match fuel with
  | O => Throws RecursionError
  | S fuel =>
      let from_path object_path :=                                          (* 144-177 *)
        do '(m, o) <- of_resolution (resolve module_path parent_path object_path);
        do kinds <- lookup m (nodes_kinds stubs);
        do k <- lookup o kinds;
        if is_CLASS k then
          do nodes <- load_ast_nodes m (o ++ [call_name]);
          do signatures <- omap (fun node => from_statement_node fuel node m []) nodes;
          do bound <- omap (fun s => of_res (call_bind is_NONE s [callable_value] [])) signatures;
          of_res (from_signatures bound)
        else
          do nodes <- lookup m (raw_ast_nodes stubs);
          do nodes <- lookup o nodes;
          match nodes with
          | [node] => from_statement_node fuel node m []
          | _ => SignatureNotFound
          end in
      match e with
      | Name _ | Attribute _ _ =>
          do object_path <- of_res (to_path e);
          from_path object_path
      | Call func arguments keywords =>                                     (* 180-211 *)
          do p <- of_res (to_path func);
          do q <- of_resolution (resolve module_path parent_path p);
          if q == (typing_path, [$"TypeVar"]) then
            match find (fun k => fst k == Some $"bound") keywords with
            | None =>
                do signatures <- omap (fun a => from_expression_node fuel a module_path parent_path)
                                   (tl arguments);
                of_res (from_signatures signatures)
            | Some (_, bound) => from_expression_node fuel bound module_path parent_path
            end
          else SignatureNotFound
      | Subscript value slice =>                                            (* 214-266 *)
          do p <- of_res (to_path value);
          do q <- of_resolution (resolve module_path parent_path p);
          if q == (typing_path, [$"Callable"])
          then of_res (from_callable_subscript slice module_path parent_path)
          else SignatureNotFound
      | _ => Throws TypeError                                               (* 136-141 *)
      end
  end
with from_statement_node (fuel : nat) (node : statement) (module_path parent_path : path)
  : outcome (signature V) :=
  match fuel with
  | O => Throws RecursionError
  | S fuel =>
      match node with
      | AnnAssign annotation value =>                                       (* 277-285 *)
          from_expression_node fuel (match value with None => annotation | Some v => v end)
            module_path parent_path
      | Assign value => from_expression_node fuel value module_path parent_path   (* 288-294 *)
      | FunctionDef fd => from_function_def fd callable_is_type module_path parent_path
      | OtherStatement => Throws TypeError
      end
  end.
End FromNodes.

(** ** Class hierarchies *)
(** [_to_mro] (signatures.py:510-519): a generator, i.e. the items yielded and the
    exception, if any, that ends the iteration. *)
Fixpoint to_mro (fuel : nat) (c : qualified_path) : list qualified_path * option exc :=
  match fuel with
  | O => ([], Some RecursionError)
  | S fuel =>
      let '(items, failure) :=
        (fix each (bases : list qualified_path) : list qualified_path * option exc :=
           match bases with
           | [] => ([], None)
           | b :: r =>
               let '(items, failure) := to_mro fuel b in
               match failure with
               | Some e => (items, Some e)
               | None => let '(items', failure') := each r in (items ++ items', failure')
               end
           end)
          (match dget (fst c) (superclasses (database_of stubs)) with
           | None => []
           | Some t => match dget (snd c) t with None => [] | Some bases => bases end
           end) in
      (c :: items, failure)
  end.

Definition constructor_name : pystr := $"__new__".
Definition initializer_name : pystr := $"__init__".
Definition object_builder_qualified_path : qualified_path :=
  (builtins_path, [object_name; constructor_name]).

(** The loop of [_to_class_builder_qualified_path] (signatures.py:498-507); note
    that the object path looked up is the child's one for every base. *)
Fixpoint first_builder (object_path : path) (hierarchy : list qualified_path) (failure : option exc)
  : outcome qualified_path :=
  match hierarchy with
  | [] => match failure with Some e => Throws e | None => Return object_builder_qualified_path end
  | (base_module_path, _) :: r =>
      do annotations <- lookup base_module_path (raw_ast_nodes stubs);
      if dmem (object_path ++ [initializer_name]) annotations
      then Return (base_module_path, object_path ++ [initializer_name])
      else if dmem (object_path ++ [constructor_name]) annotations
      then Return (base_module_path, object_path ++ [constructor_name])
      else first_builder object_path r failure
  end.

(** [_to_class_builder_qualified_path] (signatures.py:487-507) *)
Definition to_class_builder_qualified_path (c : qualified_path) : outcome qualified_path :=
  let '(hierarchy, failure) := to_mro limit c in
  first_builder (snd c) hierarchy failure.

(** A [set] as a duplicate-free list; nothing depends on its order except which
    elements are left. *)
Fixpoint set_of {A} `{Eqb A} (xs : list A) : list A :=
  match xs with
  | [] => []
  | x :: r => if mem x r then set_of r else x :: set_of r
  end.

(** [_resolve_builder_qualified_path] (signatures.py:423-441) *)
Definition resolve_builder_qualified_path (qualified_paths : list qualified_path)
  : outcome qualified_path :=
  do builders <- omap to_class_builder_qualified_path qualified_paths;
  let candidates := set_of builders in
  match candidates with
  | [q] => Return q
  | _ =>
      if mem object_builder_qualified_path candidates then
        match filter (fun q => negb (q == object_builder_qualified_path)) candidates with
        | [q] => Return q
        | _ => SignatureNotFound
        end
      else SignatureNotFound
  end.

(** ** Callables *)
Context {O : Type} `{Eqb O}.
(** [sys.modules], [getattr], [catalog.qualified_path_from], [inspect.signature] *)
Variables (sys_modules : dict pystr O) (getattr : O -> pystr -> option O).
Variable qualified_path_from : O -> qualified_path.
Variable introspect : O -> res (raw_signature V).
Variables (is_type : O -> bool) (as_value : O -> V).
(** [modules.supported_stdlib_qualified_paths] *)
Variable qualified_paths_table : dict path (dict path (list qualified_path)).

(** [_value_has_qualified_path] (signatures.py:522-535) *)
Fixpoint attribute_chain (candidate : O) (p : path) : option O :=
  match p with
  | [] => Some candidate
  | part :: r => match getattr candidate part with
                 | None => None
                 | Some o => attribute_chain o r
                 end
  end.
Definition value_has_qualified_path (value : O) (q : qualified_path) : bool :=
  match dget (join $"." (fst q)) sys_modules with
  | None => true
  | Some m => match attribute_chain m (snd q) with
              | None => false
              | Some o => o == value
              end
  end.

(** [_try_resolve_object_path] (signatures.py:383-392) *)
Definition try_resolve_object_path (q : qualified_path) : outcome qualified_path :=
  match resolve (fst q) [] (snd q) with
  | ObjectNotFound => Return ([], [])
  | r => of_resolution r
  end.

(** [resolve_qualified_paths] (signatures.py:462-484) *)
Definition resolve_qualified_paths (value : O) : outcome (list qualified_path) :=
  let '(module_path, object_path) := qualified_path_from value in
  do candidates <-
    match match dget module_path qualified_paths_table with
          | None => None
          | Some t => dget object_path t
          end with
    | None =>
        if negb (is_nil module_path) && is_nil object_path then Throws AssertionError
        else Return (if is_nil module_path then [] else [(module_path, object_path)])
    | Some candidates_paths => Return (filter (value_has_qualified_path value) candidates_paths)
    end;
  do resolved <- omap try_resolve_object_path candidates;
  Return (sorted qualified_path_leb
    (set_of (filter (fun q => negb (is_nil (fst q)) && negb (is_nil (snd q))) resolved))).

(** [_to_qualified_paths] (signatures.py:411-420) *)
Definition to_qualified_paths (value : O) : outcome (list qualified_path) :=
  do qualified_paths <- resolve_qualified_paths value;
  match qualified_paths with
  | [] => Return []
  | (module_path, object_path) :: _ =>
      do kinds <- lookup module_path (nodes_kinds stubs);
      do k <- lookup object_path kinds;
      if is_CLASS k
      then do q <- resolve_builder_qualified_path qualified_paths; Return [q]
      else Return qualified_paths
  end.

(** The loop of [_from_callable] (signatures.py:396-408); [build] is
    [_from_statement_node(ast_node, value, module_path, parent_path)]. The
    [_load_ast_nodes] call is outside the [try]. *)
Fixpoint first_location (build : statement -> path -> path -> outcome (signature V))
    (locations : list qualified_path) : outcome (signature V) :=
  match locations with
  | [] => SignatureNotFound
  | (module_path, object_path) :: r =>
      do nodes <- load_ast_nodes module_path object_path;
      match omap (fun node => build node module_path (removelast object_path)) nodes with
      | SignatureNotFound => first_location build r
      | Throws e => Throws e
      | Return signatures => of_res (from_signatures signatures)
      end
  end.

(** [_from_callable] (signatures.py:395-408) *)
Definition from_stub_callable (value : O) : outcome (signature V) :=
  do locations <- to_qualified_paths value;
  first_location (from_statement_node (is_type value) (as_value value) limit) locations.

(** [except _SignatureNotFound: return _from_raw_signature(inspect.signature(...))] *)
Definition or_introspect (x : outcome (signature V)) (raw : res (raw_signature V)) : res (signature V) :=
  match x with
  | Return s => Ok s
  | Throws e => Err e
  | SignatureNotFound => let* r := raw in from_raw_signature r
  end.

(** [__self__] of built-in functions and methods, as the code distinguishes it;
    for an instance, [getattr(type(self), name)]. *)
Inductive receiver :=
| NoReceiver | ModuleReceiver | TypeReceiver
| InstanceReceiver (self : V) (underlying : res O).

(** A callable as [from_callable] dispatches on it (signatures.py:34-133) *)
Inductive callable :=
| BuiltinCallable (o : O) (self : receiver)        (* BuiltinFunctionType, BuiltinMethodType *)
| FunctionCallable (o : O)
| MethodCallable (o : O) (self : receiver)         (* TypeReceiver or InstanceReceiver *)
| MethodWrapperCallable (o : O) (self : receiver)  (* the same *)
| DescriptorCallable (o : O)                       (* method and wrapper descriptors *)
| TypeCallable (o : O)
| PartialCallable (func : callable) (args : list V) (keywords : dict pystr V)
| OtherCallable.

(** [_from_callable(underlying).bind(self)] *)
Definition from_bound (underlying : res O) (self : V) : outcome (signature V) :=
  do u <- of_res underlying;
  do s <- from_stub_callable u;
  of_res (call_bind is_NONE s [self] []).

(** signatures.py:109-127 *)
Definition from_type_callable (o : O) : outcome (signature V) :=
  do qualified_paths <- resolve_qualified_paths o;
  if is_nil qualified_paths then SignatureNotFound
  else
    do '(module_path, object_path) <- resolve_builder_qualified_path qualified_paths;
    do nodes <- load_ast_nodes module_path object_path;
    do signatures <-
      omap (fun node => from_statement_node (is_type o) (as_value o) limit node module_path
                          (removelast object_path)) nodes;
    of_res (from_signatures signatures).

(** [from_callable] (signatures.py:34-133) *)
Fixpoint from_callable (c : callable) : res (signature V) :=
  match c with
  | BuiltinCallable o self =>
      or_introspect
        (match self with
         | InstanceReceiver v u => from_bound u v
         | _ => from_stub_callable o
         end) (introspect o)
  | FunctionCallable o => or_introspect (from_stub_callable o) (introspect o)
  | MethodCallable o self =>
      or_introspect
        (match self with
         | InstanceReceiver v u => from_bound u v
         | _ => from_stub_callable o
         end) (introspect o)
  | MethodWrapperCallable o self =>
      match self with
      | InstanceReceiver v u => or_introspect (from_bound u v) (introspect o)
      | _ => Err AssertionError
      end
  | DescriptorCallable o => or_introspect (from_stub_callable o) (introspect o)
  | TypeCallable o =>
      match from_type_callable o with
      | Return s => Ok s
      | Throws e => Err e
      | SignatureNotFound =>
          let* raw := introspect o in
          from_raw_signature (mk_raw_signature (raw_parameters raw) (Some Self))
      end
  | PartialCallable func a k =>
      let* s := from_callable func in
      call_bind is_NONE s a k
  | OtherCallable => Err TypeError
  end.
End Parameters.
