(** The tables that signatures.py and evaluation.py work with, when they come from
    the parser of stubs: stubs.py:31-74, as far as in-memory tables go. Model
    of the joints between Stubs.v, Signatures.v and Evaluation.v; that
    tables and nodes survive the cache file is C77 and C78. *)
From Verif Require Import Base Ast Scoping Stubs.
From Verif Require Signatures Evaluation.

(** A statement as far as [_from_statement_node] looks at it (signatures.py:269-310) *)
Definition statement_of (s : stmt) : Signatures.statement :=
  match s with
  | SAnnAssign _ annotation value => Signatures.AnnAssign annotation value
  | SAssign _ value => Signatures.Assign value
  | SFunctionDef f | SAsyncFunctionDef f => Signatures.FunctionDef f
  | _ => Signatures.OtherStatement
  end.
Definition values_with {A B} (f : A -> B) (t : dict path A) : dict path B :=
  map (fun '(k, v) => (k, f v)) t.
(** [_stubs.definitions], [_stubs.references], [_stubs.submodules],
    [_stubs.superclasses], [_stubs.nodes_kinds] and [_stubs.raw_ast_nodes], from which
    [construction.from_raw] makes nodes (signatures.py:446-451) *)
Definition signature_tables (st : state) : Signatures.stubs_tables :=
  Signatures.mk_tables (db st) (kinds st) (values_with (values_with (map statement_of)) (nodes st)).

(** [scoping.resolve_object_path(module_path, parent_path, object_path, stubs.definitions, ...)]
    (evaluation.py:219-223, 268-271, 286-290, 382-386) *)
Definition resolve_from (d : database) (limit : nat) (m parent o : path) : res qualified_path :=
  match resolve_object_path d limit m parent o [] with
  | Resolved q => Ok q
  | ObjectNotFound => Err OtherException
  | Raises e => Err e
  end.
Definition evaluation_tables (limit : nat) (st : state) : Evaluation.tables :=
  Evaluation.mk_tables (resolve_from (db st) limit) (nodes st) (kinds st) (definitions (db st)) (superclasses (db st)).

(** [_evaluate_expression_node(node, module_path, parent_path, {})] (signatures.py:237-262,
    358, 574-580) when [c] is remembered from earlier evaluations. Simplified: each expression is
    evaluated with [c], not with what the one before has left; C106_sequence_partial shows that
    expressions that have a meaning have the same value either way. *)
Definition evaluate_node {V} (py : Evaluation.python V) (limit fuel : nat) (st : state) (c : Evaluation.memory V)
    (e : expr) (m parent : path) : res V :=
  snd (Evaluation.evaluate_expression_node py (evaluation_tables limit st) fuel m parent e c).
