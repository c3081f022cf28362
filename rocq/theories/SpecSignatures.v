(** Specification only: Python's reading of introspected parameters and of stub
    definitions, and what the hierarchy of a class, its builder and the choice
    among stub locations should be. Uses the data types of the model, and none
    of the functions of the model of signatures.py. *)
From Verif Require Import Base PySort Models SpecCall Ast Scoping SpecScoping Signatures.

(** ** inspect *)
(** The values of [inspect._ParameterKind] *)
Definition inspect_kind (k : kind) : nat :=
  match k with
  | POSITIONAL_ONLY => 0
  | POSITIONAL_OR_KEYWORD => 1
  | VARIADIC_POSITIONAL => 2
  | KEYWORD_ONLY => 3
  | VARIADIC_KEYWORD => 4
  end.
Definition takes_many (k : kind) : Prop := k = VARIADIC_POSITIONAL \/ k = VARIADIC_KEYWORD.

Section Values.
Context {V : Type}.
Variables (is_NONE is_Ellipsis : V -> bool) (Any : V).

(** Python's view of an introspected parameter *)
Definition raw_view (raw : raw_parameter V) (v : pview) : Prop :=
  raw_kind raw = inspect_kind (v_kind v) /\ raw_name raw = v_name v
  /\ (v_required v = true <-> raw_default raw = None /\ ~ takes_many (v_kind v))
  /\ (takes_many (v_kind v) -> raw_default raw = None).

(** [p] says the same as [raw]. *)
Record kept (raw : raw_parameter V) (p : parameter V) : Prop := {
  kept_name : p_name p = raw_name raw;
  kept_kind : inspect_kind (p_kind p) = raw_kind raw;
  kept_annotation : p_annotation p = match raw_annotation raw with Some a => a | None => Any end;
  kept_default : p_default p = raw_default raw;
  kept_required : v_required (view p) = true <-> raw_default raw = None /\ ~ takes_many (p_kind p)
}.

(** ** Stub definitions *)
(** A parameter as written: Python's kind, the node and its default *)
Record written_parameter := mk_written {
  w_kind : kind;
  w_arg : arg;
  w_default : option expr
}.

(** Defaults belong to the last positional parameters: the default of the [i]-th
    of [n] when there are [length ds] defaults. *)
Definition default_at (n : nat) (ds : list expr) (i : nat) : option expr :=
  if i + length ds <? n then None else nth_error ds (i + length ds - n).
Fixpoint number {A} (i : nat) (xs : list A) : list (nat * A) :=
  match xs with
  | [] => []
  | x :: r => (i, x) :: number (S i) r
  end.
Definition one (k : kind) (a : option arg) : list written_parameter :=
  match a with
  | Some a => [mk_written k a None]
  | None => []
  end.
(** The parameters of [def f(posonlyargs, /, args, *vararg, kwonlyargs, **kwarg)] *)
Definition written (a : arguments) : list written_parameter :=
  let n := length (posonlyargs a) + length (args a) in
  map (fun '(i, x) => mk_written POSITIONAL_ONLY x (default_at n (defaults a) i))
      (number 0 (posonlyargs a))
  ++ map (fun '(i, x) => mk_written POSITIONAL_OR_KEYWORD x (default_at n (defaults a) i))
         (number (length (posonlyargs a)) (args a))
  ++ one VARIADIC_POSITIONAL (vararg a)
  ++ map (fun '(i, x) => mk_written KEYWORD_ONLY x (nth i (kw_defaults a) None))
         (number 0 (kwonlyargs a))
  ++ one VARIADIC_KEYWORD (kwarg a).

(** What the parser guarantees *)
Definition legal_arguments (a : arguments) : Prop :=
  length (defaults a) <= length (posonlyargs a) + length (args a)
  /\ length (kw_defaults a) = length (kwonlyargs a)
  /\ NoDup (map (fun w => arg_name (w_arg w)) (written a)).

Definition written_view (w : written_parameter) : pview :=
  mk_view (w_kind w)
    (match w_default w, w_kind w with
     | None, (POSITIONAL_ONLY | POSITIONAL_OR_KEYWORD | KEYWORD_ONLY) => true
     | _, _ => false
     end)
    (arg_name (w_arg w)).

(** All annotations and defaults have a value, and no default is the private
    sentinel of models.py. *)
Variable value_of : expr -> V.
Definition annotation_value (w : written_parameter) : V :=
  match arg_annotation (w_arg w) with
  | Some e => value_of e
  | None => Any
  end.
Definition evaluates (evaluate : expr -> res V) (w : written_parameter) : Prop :=
  (forall e, arg_annotation (w_arg w) = Some e -> evaluate e = Ok (value_of e))
  /\ forall e, w_default w = Some e -> evaluate e = Ok (value_of e) /\ is_NONE (value_of e) = false.

(** [p] is the parameter written as [w]: [...] as a default means "optional,
    value unknown"; the kind [k] is given separately. *)
Record follows (k : kind) (w : written_parameter) (p : parameter V) : Prop := {
  fo_name : p_name p = arg_name (w_arg w);
  fo_kind : p_kind p = k;
  fo_annotation : p_annotation p = annotation_value w;
  fo_required : v_required (view p) = v_required (written_view w);
  fo_default : forall e, w_default w = Some e ->
    p_default p = if is_Ellipsis (value_of e) then None else Some (value_of e);
  fo_no_default : w_default w = None -> p_default p = None
}.
End Values.
Arguments follows {V}.
Arguments kept {V}.

(** The kind the code gives: positional parameters cannot be passed by keyword. *)
Definition stored_kind (k : kind) : kind :=
  match k with
  | POSITIONAL_OR_KEYWORD => POSITIONAL_ONLY
  | _ => k
  end.

(** A dotted name *)
Inductive dotted : expr -> path -> Prop :=
| d_name n : dotted (Name n) [n]
| d_attribute e p n : dotted e p -> dotted (Attribute e n) (p ++ [n]).

(** ** Class hierarchies *)
(** Depth first, bases in declaration order *)
Inductive lineage (db : database) : qualified_path -> list qualified_path -> Prop :=
| li c ls : Forall2 (lineage db) (bases db c) ls -> lineage db c (c :: concat ls).

(** [d] is an ancestor of [c], at one or more base-class links. *)
Definition inherits_from (db : database) (c d : qualified_path) : Prop :=
  exists b, In b (bases db c) /\ reaches db b d.
Definition acyclic (db : database) (c : qualified_path) : Prop :=
  forall d, reaches db c d -> ~ inherits_from db d d.

(** The stub of module [m] has a definition of [o]. *)
Definition has_nodes (stubs : stubs_tables) (m o : path) : Prop :=
  exists t, dget m (raw_ast_nodes stubs) = Some t /\ In o (dkeys t).
Definition has_module (stubs : stubs_tables) (m : path) : Prop :=
  In m (dkeys (raw_ast_nodes stubs)).

(** The builder a class body defines itself *)
Inductive own_builder (stubs : stubs_tables) : qualified_path -> qualified_path -> Prop :=
| ob_init m o : has_nodes stubs m (o ++ [$"__init__"]) ->
    own_builder stubs (m, o) (m, o ++ [$"__init__"])
| ob_new m o : ~ has_nodes stubs m (o ++ [$"__init__"]) -> has_nodes stubs m (o ++ [$"__new__"]) ->
    own_builder stubs (m, o) (m, o ++ [$"__new__"]).
Definition object_new : qualified_path := ([$"builtins"], [$"object"; $"__new__"]).

(** The nearest builder in a hierarchy *)
Inductive nearest (stubs : stubs_tables) : list qualified_path -> qualified_path -> Prop :=
| ne_none : nearest stubs [] object_new
| ne_here c r b : own_builder stubs c b -> nearest stubs (c :: r) b
| ne_later c r b : (forall b', ~ own_builder stubs c b') -> nearest stubs r b -> nearest stubs (c :: r) b.

(** The choice among builders of aliases *)
Definition only {A} (P : A -> Prop) (a : A) : Prop := forall x, P x <-> x = a.
Inductive choice (builder : qualified_path -> Prop) : option qualified_path -> Prop :=
| ch_unique b : only builder b -> choice builder (Some b)
| ch_besides b : builder object_new -> only (fun x => builder x /\ x <> object_new) b ->
    choice builder (Some b)
| ch_none :
    (forall b, ~ only builder b) ->
    (builder object_new -> forall b, ~ only (fun x => builder x /\ x <> object_new) b) ->
    choice builder None.

(** Lists with the same elements *)
Definition same_elements {A} (xs ys : list A) : Prop := forall x, In x xs <-> In x ys.

(** ** Decorators *)
(** The decorator [d], written in scope [parent] of module [m], is the object [q]. *)
Definition denotes (stubs : stubs_tables) (limit : nat) (m parent : path) (d : expr) (q : qualified_path) : Prop :=
  exists p, dotted d p
    /\ resolve_object_path (database_of stubs) limit m parent p [] = Resolved q.
Definition the_classmethod : qualified_path := ([$"builtins"], [$"classmethod"]).
(** [d] is an expression other than a dotted name, or a name of something else. *)
Definition other_decorator (stubs : stubs_tables) (limit : nat) (m parent : path) (d : expr) : Prop :=
  (forall p, ~ dotted d p) \/ exists q, denotes stubs limit m parent d q /\ q <> the_classmethod.
Definition is_class (stubs : stubs_tables) (m o : path) : Prop :=
  exists t, dget m (nodes_kinds stubs) = Some t /\ dget o t = Some CLASS.
Definition has_kinds (stubs : stubs_tables) (m : path) : Prop := In m (dkeys (nodes_kinds stubs)).

(** ** Partial objects *)
(** [partial(...partial(partial(f, *a1, **k1), *a2, **k2)..., *an, **kn)] *)
Fixpoint layers {V O} (f : @callable V O) (calls : list (list V * dict pystr V)) : @callable V O :=
  match calls with
  | [] => f
  | (a, k) :: r => layers (PartialCallable f a k) r
  end.
Fixpoint bind_all {V} (is_NONE : V -> bool) (s : res (signature V)) (calls : list (list V * dict pystr V))
  : res (signature V) :=
  match calls with
  | [] => s
  | (a, k) :: r => bind_all is_NONE (let* s := s in bind is_NONE s a k) r
  end.

(** ** Stub locations of a callable *)
Section Locations.
Context {O : Type}.
Variables (sys_modules : dict pystr O) (getattr : O -> pystr -> option O).

(** [o.a.b.c is r] *)
Inductive attribute : O -> path -> O -> Prop :=
| at_here o : attribute o [] o
| at_step o n o' p r : getattr o n = Some o' -> attribute o' p r -> attribute o (n :: p) r.

(** The module is not imported, or the object found there is [value]. *)
Definition plausible (value : O) (q : qualified_path) : Prop :=
  dget (join $"." (fst q)) sys_modules = None
  \/ exists m, dget (join $"." (fst q)) sys_modules = Some m /\ attribute m (snd q) value.

Definition listed (table : dict path (dict path (list qualified_path))) (q : qualified_path)
  : option (list qualified_path) :=
  match dget (fst q) table with
  | Some t => dget (snd q) t
  | None => None
  end.
(** Where to look for a value whose own qualified path is [q] *)
Inductive candidate (table : dict path (dict path (list qualified_path))) (value : O) (q : qualified_path)
  : qualified_path -> Prop :=
| ca_listed cs c : listed table q = Some cs -> In c cs -> plausible value c -> candidate table value q c
| ca_itself : listed table q = None -> fst q <> [] -> candidate table value q q.

(** The same locations, in another order or repeated *)
Definition same_tables (t t' : dict path (dict path (list qualified_path))) : Prop :=
  forall q, match listed t q, listed t' q with
            | Some cs, Some cs' => same_elements cs cs'
            | None, None => True
            | _, _ => False
            end.
End Locations.

Section Building.
Context {V : Type}.
Variables (stubs : stubs_tables) (build : statement -> path -> path -> outcome (signature V)).

Definition nodes_at (loc : qualified_path) (nodes : list statement) : Prop :=
  exists t, dget (fst loc) (raw_ast_nodes stubs) = Some t /\ dget (snd loc) t = Some nodes /\ nodes <> [].
(** The definition [n] found at [loc], whose enclosing scope is [loc] without its last name *)
Definition build_at (loc : qualified_path) (n : statement) : outcome (signature V) :=
  build n (fst loc) (removelast (snd loc)).
(** All definitions at [loc] can be turned into signatures. *)
Definition buildable (loc : qualified_path) (ss : list (signature V)) : Prop :=
  exists nodes, nodes_at loc nodes /\ Forall2 (fun n s => build_at loc n = Return s) nodes ss.
(** Some definition at [loc] has no signature. *)
Definition unbuildable (loc : qualified_path) : Prop :=
  exists before n after, nodes_at loc (before ++ n :: after)
    /\ (forall b, In b before -> exists s, build_at loc b = Return s)
    /\ build_at loc n = SignatureNotFound.
End Building.

(** Increasing and without repetition *)
Definition strictly_sorted (l : list qualified_path) : Prop :=
  StronglySorted (fun a b => qualified_path_leb a b = true /\ a <> b) l.

(** ** Whole definitions *)
Section Definitions.
Context {V : Type}.
Variables (is_NONE : V -> bool) (Any : V) (evaluate : expr -> path -> path -> res V) (value_of : expr -> V).
(** [fd] has no '/' section and everything written in it evaluates. *)
Definition well_formed (fd : function_def) (m parent : path) : Prop :=
  posonlyargs (fd_args fd) = [] /\ legal_arguments (fd_args fd)
  /\ Forall (evaluates is_NONE value_of (fun e => evaluate e m parent)) (written (fd_args fd))
  /\ forall e, fd_returns fd = Some e -> evaluate e m parent = Ok (value_of e).
Definition return_value (fd : function_def) : V :=
  match fd_returns fd with Some e => value_of e | None => Any end.
End Definitions.
