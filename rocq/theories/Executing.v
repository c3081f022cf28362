(** Model of paradigm/_core/arboreal/execution.py and of its two callers: conditions in
    stubs (stubs.py:134-156, 341-357) and function definitions (evaluation.py:161-179),
    down to what Python does with the statements they execute.

    Simplifications: [compile] succeeds (the trees come from parsing, with locations
    filled in); evaluating an expression changes no global name (assignment
    expressions and calls that write to [globals()] are left out); expressions the
    rest of the model has no case for (comparisons, boolean operators, lambdas,
    displays of dictionaries ...) are given by [other], from their parts and what the names in
    them stand for. The order of evaluation is that of CPython 3.11. *)
From Verif Require Import Base Ast Conversion Catalog Scoping Stubs LazyText Evaluation.

(** What the interpreter does beyond the operations of [python] *)
Record interpreter (V : Type) := mk_interpreter {
  builtins_namespace : V;                              (* what [exec] puts under __builtins__ *)
  builtin : V -> pystr -> option V;                    (* a name of such a namespace *)
  other : list expr -> list (pystr * option V) -> res V;
  make_function : bool -> function_def -> list V -> list (pystr * V) -> list (pystr * V) -> V;
                                  (* asynchronous?, defaults, keyword-only defaults, annotations *)
  truth : V -> res bool                                (* bool(value) *)
}.
Arguments builtins_namespace {V}.
Arguments builtin {V}.
Arguments other {V}.
Arguments make_function {V}.
Arguments truth {V}.

(** The statements that are executed: [name = value] and function definitions *)
Inductive statement := Assigned (name : pystr) (value : expr) | Defined (asynchronous : bool) (f : function_def).

Definition builtins_name : pystr := $"__builtins__".
(** [namespace.update(other)] *)
Definition update {V} (ns new : dict pystr V) : dict pystr V := fold_left (fun ns kv => dset (fst kv) (snd kv) ns) new ns.
(** [namespace.pop(name)] *)
Definition pop {V} (name : pystr) (ns : dict pystr V) : dict pystr V * res V :=
  match dget name ns with
  | Some v => (filter (fun kv => negb (fst kv == name)) ns, Ok v)
  | None => (ns, Err KeyError)
  end.

Section Execution.
Context {V : Type}.
Variable py : python V.
Variable machine : interpreter V.

(** Python looks names of module-level code up in its globals, then in the namespace they
    have under [__builtins__]. *)
Definition look_up (globals : dict pystr V) (n : pystr) : option V :=
  match dget n globals with
  | Some v => Some v
  | None => match dget builtins_name globals with Some b => builtin machine b n | None => None end
  end.

(** Python's evaluation of expressions *)
Fixpoint value_in (globals : dict pystr V) (e : expr) {struct e} : res V :=
  match e with
  | Name n => match look_up globals n with Some v => Ok v | None => Err NameError end
  | Constant k => Ok (of_constant py k)
  | Attribute e a => let* v := value_in globals e in getattr py v a
  | Subscript e i => let* v := value_in globals e in let* w := value_in globals i in getitem py v w
  | Tuple es => let* vs := map_m (value_in globals) es in Ok (tuple_of py vs)
  | List es => let* vs := map_m (value_in globals) es in Ok (list_of py vs)
  | Dict items =>
      let* vs := map_m (fun i => let* k := match fst i with
                                           | Some k => let* k := value_in globals k in Ok (Some k)
                                           | None => Ok None
                                           end in
                                 let* v := value_in globals (snd i) in Ok (k, v)) items in
      dict_of py vs
  | Call f es ks =>
      let* g := value_in globals f in
      let* vs := map_m (value_in globals) es in
      let* kvs := map_m (fun k => let* v := value_in globals (snd k) in Ok (fst k, v)) ks in
      call py g vs kvs
  | BinOp l o r => let* v := value_in globals l in let* w := value_in globals r in binary py o v w
  | UnaryOp o e => let* v := value_in globals e in unary py o v
  | OtherExpr es => other machine es (map (fun n => (n, look_up globals n)) (flat_map names_in es))
  end.

(** Annotations with the names of their parameters *)
Definition annotation_of (a : arg) : list (pystr * expr) :=
  match arg_annotation a with Some e => [(arg_name a, e)] | None => [] end.
Definition annotations (f : function_def) : list (pystr * expr) :=
  let a := fd_args f in
  let opt o := match o with Some x => annotation_of x | None => [] end in
  flat_map annotation_of (args a) ++ flat_map annotation_of (posonlyargs a) ++ opt (vararg a)
  ++ flat_map annotation_of (kwonlyargs a) ++ opt (kwarg a)
  ++ match fd_returns f with Some e => [($"return", e)] | None => [] end.
(** Defaults of keyword-only parameters with their names *)
Definition keyword_defaults (f : function_def) : list (pystr * expr) :=
  flat_map (fun p => match snd p with Some e => [(arg_name (fst p), e)] | None => [] end)
    (combine (kwonlyargs (fd_args f)) (kw_defaults (fd_args f))).
Definition named_values (globals : dict pystr V) (es : list (pystr * expr)) : res (list (pystr * V)) :=
  map_m (fun k => let* v := value_in globals (snd k) in Ok (fst k, v)) es.
(** Decorators are called from the last to the first. *)
Fixpoint decorated (decorators : list V) (f : V) : res V :=
  match decorators with
  | [] => Ok f
  | d :: r => let* f := decorated r f in call py d [f] []
  end.
(** Python's execution of the statements *)
Definition run_statement (s : statement) (globals : dict pystr V) : res (dict pystr V) :=
  match s with
  | Assigned name e => let* v := value_in globals e in Ok (dset name v globals)
  | Defined asynchronous f =>
      let* ds := map_m (value_in globals) (fd_decorators f) in
      let* vs := map_m (value_in globals) (defaults (fd_args f)) in
      let* ks := named_values globals (keyword_defaults f) in
      let* ans := named_values globals (annotations f) in
      let* v := decorated ds (make_function machine asynchronous f vs ks ans) in
      Ok (dset (fd_name f) v globals)
  end.
(** [exec(code, namespace_dict)]: without [__builtins__] those of the caller are put there *)
Definition exec (s : statement) (globals : dict pystr V) : res (dict pystr V) :=
  run_statement s (if dmem builtins_name globals then globals else dset builtins_name (builtins_namespace machine) globals).

(** [execute_statement], [_execute_tree] (execution.py:8-24): the namespace afterwards.
    [construction.from_node] (construction.py:13-14) makes a module of the one statement. *)
Definition execute_statement (s : statement) (ns : dict pystr V) : dict pystr V * res unit :=
  match exec s ns with
  | Ok namespace_dict => (update ns namespace_dict, Ok tt)
  | Err e => (ns, Err e)
  end.

(** [_evaluate_expression] (stubs.py:134-148) *)
Definition temporary_name : pystr := $"@tmp".
Definition evaluate_condition (e : expr) (ns : dict pystr V) : dict pystr V * res V :=
  match execute_statement (Assigned temporary_name e) ns with
  | (ns, Ok _) => pop temporary_name ns
  | (ns, Err e) => (ns, Err e)
  end.
(** The names of a condition (stubs.py:341-354): [import_module] and [namespacing.search] *)
Definition import_name (q : qualified_path) : res V :=
  match import_object py q with
  | Imported v => Ok v
  | NotImportable => Err ImportError
  | NotThere => Err OtherException                     (* ObjectNotFound *)
  end.
Fixpoint condition_names (bindings : list (pystr * qualified_path)) (ns : dict pystr V) : res (dict pystr V) :=
  match bindings with
  | [] => Ok ns
  | (n, q) :: r => let* v := import_name q in condition_names r (dset n v ns)
  end.
(** The condition of [if] (stubs.py:341-357), the parameter [condition] of Stubs.v *)
Definition condition (bindings : list (pystr * qualified_path)) (test : expr) : res bool :=
  let* ns := condition_names bindings [] in
  let* v := snd (evaluate_condition test ns) in
  truth machine v.

(** Function definitions (evaluation.py:161-179), the parameter [execute] of
    Evaluation.v; [ns]: [dict(parent_namespace)] *)
Definition execute_function (ns : dict pystr V) (q : qualified_path) (s : stmt) : res V :=
  let define asynchronous f :=
    let* f' := lazy_function f in
    match execute_statement (Defined asynchronous f') ns with
    | (ns, Ok _) => snd (pop (fd_name f) ns)
    | (_, Err e) => Err e
    end in
  match s with
  | SFunctionDef f => define false f
  | SAsyncFunctionDef f => define true f
  | _ => Err TypeError
  end.
Definition with_execution : python V :=
  @mk_python V (of_constant py) (tuple_of py) (list_of py) (dict_of py) (unary py) (binary py) (union py) (getattr py) (getitem py)
    (call py) (forward_ref py) (import_object py) (empty_dict py) execute_function (new_class py) (new_module py).
End Execution.
