(** What a stub says, independently of the parser except for what names are
    resolved to. *)
From Verif Require Import Base Ast Conversion Generics SpecCatalog SpecArboreal Scoping SpecScoping Signatures SpecSignatures SpecGenerics Stubs.

(** What the tables say about an object *)
Definition nodes_of_object (st : state) (m o : path) : list stmt :=
  match dget m (nodes st) with
  | Some t => match dget o t with Some l => l | None => [] end
  | None => []
  end.
Definition kind_of_object (st : state) (m o : path) : option node_kind :=
  match dget m (kinds st) with
  | Some t => dget o t
  | None => None
  end.

(** Every object with definitions has a kind; every object with a kind is in the
    definitions tree. *)
Definition consistent (st : state) : Prop :=
  (forall m o, nodes_of_object st m o <> [] -> kind_of_object st m o <> None)
  /\ (forall m o, kind_of_object st m o <> None -> defined (db st) m o).

(** The fields of a named tuple: the annotated names in the body, in order. *)
Inductive fields : list stmt -> list (pystr * expr * option expr) -> Prop :=
| f_nil : fields [] []
| f_field n a v body fs : fields body fs -> fields (SAnnAssign (Name n) a v :: body) ((n, a, v) :: fs)
| f_other s body fs : (forall t a v, s <> SAnnAssign t a v) -> fields body fs -> fields (s :: body) fs.
(** [def __new__(cls, field: annotation, ...) -> name], with the fields' values as
    defaults *)
Inductive constructor_of (name : pystr) (body : list stmt) : stmt -> Prop :=
| co fs f :
    fields body fs ->
    fd_name f = $"__new__" -> fd_returns f = Some (Name name) -> fd_decorators f = [] ->
    posonlyargs (fd_args f) = [] -> vararg (fd_args f) = None -> kwonlyargs (fd_args f) = [] ->
    kwarg (fd_args f) = None ->
    args (fd_args f) = mk_arg $"cls" None :: map (fun x => mk_arg (fst (fst x)) (Some (snd (fst x)))) fs ->
    map Some (defaults (fd_args f)) = filter (fun v => match v with Some _ => true | None => false end) (map snd fs) ->
    constructor_of name body (SFunctionDef f).

(** ** Names *)
(** The parts of an expression, and the names that occur in it *)
Definition parts (e : expr) : list expr :=
  match e with
  | Name _ | Constant _ => []
  | Attribute v _ => [v]
  | Subscript v s => [v; s]
  | Tuple es | List es | OtherExpr es => es
  | Dict items => flat_map (fun i => match fst i with Some k => [k; snd i] | None => [snd i] end) items
  | Call f es ks => f :: es ++ map snd ks
  | BinOp l _ r => [l; r]
  | UnaryOp _ e => [e]
  end.
Inductive occurs (n : pystr) : expr -> Prop :=
| oc_name : occurs n (Name n)
| oc_part e p : In p (parts e) -> occurs n p -> occurs n e.
(** The expressions in a definition, apart from what is assigned to *)
Definition present {A} (o : option A) : list A := match o with Some a => [a] | None => [] end.
Definition function_parts (f : function_def) : list expr :=
  let a := fd_args f in
  flat_map (fun x => present (arg_annotation x))
    (posonlyargs a ++ args a ++ present (vararg a) ++ kwonlyargs a ++ present (kwarg a))
  ++ defaults a ++ flat_map present (kw_defaults a) ++ fd_decorators f ++ present (fd_returns f).
Definition stmt_parts (s : stmt) : list expr :=
  match s with
  | SAnnAssign _ annotation value => annotation :: present value
  | SAssign _ value => [value]
  | SFunctionDef f | SAsyncFunctionDef f => function_parts f
  | _ => []
  end.
(** A name occurs in a definition. *)
Definition stmt_occurs (n : pystr) (s : stmt) : Prop := exists e, In e (stmt_parts s) /\ occurs n e.
(** A name is defined by a definition. *)
Definition defines (n : pystr) (s : stmt) : Prop :=
  match s with
  | SAnnAssign target _ _ => target = Name n
  | SAssign targets _ => In (Name n) targets
  | SFunctionDef f | SAsyncFunctionDef f => fd_name f = n
  | SClassDef name _ _ => name = n
  | _ => False
  end.

(** ** What a stub says *)
(** What one statement contributes to the tables of its module *)
Inductive fact :=
| Defines (o : path) (k : node_kind) (s : stmt)   (* a definition of the object [o] *)
| ClassAt (o : path)                              (* a class, without bases so far *)
| Builds (o : path) (s : stmt)                    (* the constructor of a named tuple *)
| Inherits (o : path) (base : expr)
| Takes (o : path) (parameters : list path)       (* type parameters *)
| Refers (p : path) (q : qualified_path)          (* a name for something else *)
| Stars (sub : path)                              (* all names of another module *)
| Mentions (o : path).                            (* a name that is not found: it is taken for
                                                     one of the module's own *)

(** [distinct seen l l']: [l'] are the first occurrences in [l] of what is not in
    [seen]. *)
Inductive distinct {A} : list A -> list A -> list A -> Prop :=
| di_nil seen : distinct seen [] []
| di_again seen x l l' : In x seen -> distinct seen l l' -> distinct seen (x :: l) l'
| di_first seen x l l' : ~ In x seen -> distinct (x :: seen) l l' -> distinct seen (x :: l) (x :: l').

(** What the bases and values that are special are names of *)
Definition typing_NamedTuple : qualified_path := ([$"typing"], [$"NamedTuple"]).
Definition typing_Protocol : qualified_path := ([$"typing"], [$"Protocol"]).
Definition typing_Generic : qualified_path := ([$"typing"], [$"Generic"]).
Definition typing_TypeVar : qualified_path := ([$"typing"], [$"TypeVar"]).
Section Says.
(** The module, and whether it is a package *)
Variable m : path.
Variable package : bool.
(** The truth of a condition, given its names and what they are resolved to *)
Variable condition : list (pystr * qualified_path) -> expr -> res bool.
(** [finds before parent p r]: when the facts [before] are known about [m], the
    dotted name [p] in the class (or module) [parent] denotes [q] ([r = Some q]) or
    is not found. *)
Variable finds : list fact -> path -> path -> option qualified_path -> Prop.
(** Whether an object is a type variable; [None]: this could not be found out. *)
Variable type_variable : list fact -> qualified_path -> option bool -> Prop.
(** The arguments of a subscript *)
Variable arguments_of : expr -> list expr -> Prop.

(** A name that need not be found *)
Inductive stands_for (before : list fact) (parent p : path) : list fact -> qualified_path -> Prop :=
| re_found q : finds before parent p (Some q) -> stands_for before parent p [] q
| re_missing : finds before parent p None -> stands_for before parent p [Mentions (parent ++ p)] (m, p).

(** The names of a condition other than a bare name (see C68), and its value *)
Definition holds (before : list fact) (parent : path) (test : expr) (c : bool) : Prop :=
  exists bindings,
    condition bindings test = Ok c
    /\ (forall n q, In (n, q) bindings -> finds before parent [n] (Some q))
    /\ (forall n, In n (map fst bindings) <-> occurs n test /\ test <> Name n).
Definition undecided (before : list fact) (parent : path) (test : expr) : Prop :=
  exists n, occurs n test /\ test <> Name n /\ finds before parent [n] None.

(** [import a.b as c], and [import a.b], which binds [a] and [a.b] *)
Inductive import_says : alias -> list fact -> Prop :=
| im_as name n p : spelled 46 p name -> import_says (mk_alias name (Some n)) [Refers [n] (p, [])]
| im_plain name p fs :
    spelled 46 p name ->
    length fs = length p ->
    (forall k, k < length p -> nth_error fs k = Some (Refers (firstn (S k) p) (firstn (S k) p, []))) ->
    import_says (mk_alias name None) fs.
(** [from pm import ...] *)
Inductive from_says (pm : path) : alias -> list fact -> Prop :=
| fr_star asname : from_says pm (mk_alias $"*" asname) [Stars pm]
| fr_as name n p : name <> $"*" -> spelled 46 p name -> from_says pm (mk_alias name (Some n)) [Refers [n] (pm, p)]
| fr_plain name p : name <> $"*" -> spelled 46 p name -> from_says pm (mk_alias name None) [Refers p (pm, p)].

(** The type variables among arguments *)
Inductive variables (parent : path) : list fact -> list expr -> list fact -> list path -> Prop :=
| va_nil before : variables parent before [] [] []
| va_other before e es fs ps :
    (forall p, ~ dotted e p) -> variables parent before es fs ps -> variables parent before (e :: es) fs ps
| va_name before e es p q (b : bool) fs fs' ps :
    dotted e p -> stands_for before parent p fs q -> type_variable (before ++ fs) q (Some b) ->
    variables parent (before ++ fs) es fs' ps ->
    variables parent before (e :: es) (fs ++ fs') (if b then p :: ps else ps).
(** ... up to one of which it could not be found out *)
Inductive variables_cut (parent : path) : list fact -> list expr -> list fact -> Prop :=
| vc_other before e es fs :
    (forall p, ~ dotted e p) -> variables_cut parent before es fs -> variables_cut parent before (e :: es) fs
| vc_later before e es p q b fs fs' :
    dotted e p -> stands_for before parent p fs q -> type_variable (before ++ fs) q (Some b) ->
    variables_cut parent (before ++ fs) es fs' -> variables_cut parent before (e :: es) (fs ++ fs')
| vc_here before e es p q fs :
    dotted e p -> stands_for before parent p fs q -> type_variable (before ++ fs) q None ->
    variables_cut parent before (e :: es) fs.

(** One base of the class [name] in [parent]: what it contributes, and the type
    variables in it *)
Section Bases.
Variable parent : path.
Variable name : pystr.
Variable body : list stmt.
Inductive base_says : list fact -> expr -> list fact -> list path -> Prop :=
| bs_named_tuple before b p s fs :
    dotted b p -> stands_for before parent p fs typing_NamedTuple -> constructor_of name body s ->
    base_says before b (fs ++ [Builds (parent ++ [name]) s]) []
| bs_protocol before b p fs : dotted b p -> stands_for before parent p fs typing_Protocol -> base_says before b fs []
| bs_plain before b p q fs :
    dotted b p -> stands_for before parent p fs q -> ~ In q [typing_NamedTuple; typing_Protocol; typing_Generic] ->
    base_says before b (fs ++ [Inherits (parent ++ [name]) b]) []
| bs_parameters before v s p q es fs ps :
    arguments_of (Subscript v s) es -> variables parent before es fs ps ->
    dotted v p -> finds (before ++ fs) parent p (Some q) -> In q [typing_Generic; typing_Protocol] ->
    base_says before (Subscript v s) fs ps
| bs_generic before v s es fs ps :
    arguments_of (Subscript v s) es -> variables parent before es fs ps ->
    (forall p, dotted v p -> exists q, finds (before ++ fs) parent p (Some q) /\ ~ In q [typing_Generic; typing_Protocol]) ->
    base_says before (Subscript v s) (fs ++ [Inherits (parent ++ [name]) (Subscript v s)]) ps.
Inductive base_cut : list fact -> expr -> list fact -> Prop :=
| bc_variables before v s es fs :
    arguments_of (Subscript v s) es -> variables_cut parent before es fs -> base_cut before (Subscript v s) fs
| bc_value before v s es p fs ps :
    arguments_of (Subscript v s) es -> variables parent before es fs ps ->
    dotted v p -> finds (before ++ fs) parent p None -> base_cut before (Subscript v s) fs.
Inductive bases_say : list fact -> list expr -> list fact -> list path -> Prop :=
| bss_nil before : bases_say before [] [] []
| bss_cons before b bs fs fs' ps ps' :
    base_says before b fs ps -> bases_say (before ++ fs) bs fs' ps' ->
    bases_say before (b :: bs) (fs ++ fs') (ps ++ ps').
Inductive bases_cut : list fact -> list expr -> list fact -> Prop :=
| bsc_here before b bs fs : base_cut before b fs -> bases_cut before (b :: bs) fs
| bsc_later before b bs fs fs' ps :
    base_says before b fs ps -> bases_cut (before ++ fs) bs fs' -> bases_cut before (b :: bs) (fs ++ fs').
End Bases.
Inductive parameters_say (o : path) (vars : list path) : list fact -> Prop :=
| ps_none : vars = [] -> parameters_say o vars []
| ps_some ps : vars <> [] -> distinct [] vars ps -> parameters_say o vars [Takes o ps].

Inductive concerning {A} (f : A -> list fact -> Prop) : list A -> list fact -> Prop :=
| con_nil : concerning f [] []
| con_cons x xs fs fs' : f x fs -> concerning f xs fs' -> concerning f (x :: xs) (fs ++ fs').

(** [says before parent s fs]: when [before] is known, the statement [s] inside the
    class (or module) [parent] contributes [fs], in this order. Assignments of a
    dotted name make a name of the module, wherever they are. *)
Inductive says : list fact -> path -> stmt -> list fact -> Prop :=
| sa_annotation before parent t a v p :
    dotted t p -> (forall e q, v = Some e -> ~ dotted e q) ->
    says before parent (SAnnAssign t a v) [Defines (parent ++ p) ANNOTATED_ASSIGNMENT (SAnnAssign t a v)]
| sa_annotated_alias before parent t a e p p' q fs :
    dotted t p -> dotted e p' -> stands_for before parent p' fs q ->
    says before parent (SAnnAssign t a (Some e)) (fs ++ [Refers p q])
| sa_assign before parent ts v fs :
    (forall q, ~ dotted v q) ->
    concerning (fun t fs => exists p, dotted t p /\ fs = [Defines (parent ++ p) ASSIGNMENT (SAssign ts v)]) ts fs ->
    says before parent (SAssign ts v) fs
| sa_alias before parent ts v p q fs fs' :
    dotted v p -> stands_for before parent p fs q ->
    concerning (fun t fs => exists p, dotted t p /\ fs = [Refers p q]) ts fs' ->
    says before parent (SAssign ts v) (fs ++ fs')
| sa_function before parent f :
    says before parent (SFunctionDef f) [Defines (parent ++ [fd_name f]) FUNCTION (SFunctionDef f)]
| sa_async before parent f :
    says before parent (SAsyncFunctionDef f) [Defines (parent ++ [fd_name f]) ASYNC_FUNCTION (SAsyncFunctionDef f)]
| sa_class before parent name bases body fs vars fs' fs'' :
    bases_say parent name body (before ++ [ClassAt (parent ++ [name])]) bases fs vars ->
    parameters_say (parent ++ [name]) vars fs' ->
    all_say (before ++ ClassAt (parent ++ [name]) :: fs ++ fs') (parent ++ [name]) body fs'' ->
    says before parent (SClassDef name bases body) (ClassAt (parent ++ [name]) :: fs ++ fs' ++ fs'')
| sa_if before parent test (c : bool) body orelse fs :
    holds before parent test c -> all_say before parent (if c then body else orelse) fs ->
    says before parent (SIf test body orelse) fs
| sa_import before parent names fs : concerning import_says names fs -> says before parent (SImport names) fs
| sa_import_from before parent module names level pm fs :
    (forall p, imports m package level module p -> p = pm) ->
    concerning (from_says pm) names fs ->
    says before parent (SImportFrom module names level) fs
| sa_other before parent children fs : all_say before parent children fs -> says before parent (SOther children) fs
with all_say : list fact -> path -> list stmt -> list fact -> Prop :=
| al_nil before parent : all_say before parent [] []
| al_cons before parent s ss fs fs' :
    says before parent s fs -> all_say (before ++ fs) parent ss fs' -> all_say before parent (s :: ss) (fs ++ fs').

(** ... only up to a base or condition with a name that is not found: the rest of the
    module is not read. *)
Inductive says_cut : list fact -> path -> stmt -> list fact -> Prop :=
| sc_bases before parent name bases body fs :
    bases_cut parent name body (before ++ [ClassAt (parent ++ [name])]) bases fs ->
    says_cut before parent (SClassDef name bases body) (ClassAt (parent ++ [name]) :: fs)
| sc_body before parent name bases body fs vars fs' fs'' :
    bases_say parent name body (before ++ [ClassAt (parent ++ [name])]) bases fs vars ->
    parameters_say (parent ++ [name]) vars fs' ->
    all_cut (before ++ ClassAt (parent ++ [name]) :: fs ++ fs') (parent ++ [name]) body fs'' ->
    says_cut before parent (SClassDef name bases body) (ClassAt (parent ++ [name]) :: fs ++ fs' ++ fs'')
| sc_condition before parent test body orelse :
    undecided before parent test -> says_cut before parent (SIf test body orelse) []
| sc_if before parent test (c : bool) body orelse fs :
    holds before parent test c -> all_cut before parent (if c then body else orelse) fs ->
    says_cut before parent (SIf test body orelse) fs
| sc_other before parent children fs : all_cut before parent children fs -> says_cut before parent (SOther children) fs
with all_cut : list fact -> path -> list stmt -> list fact -> Prop :=
| ac_here before parent s ss fs : says_cut before parent s fs -> all_cut before parent (s :: ss) fs
| ac_later before parent s ss fs fs' :
    says before parent s fs -> all_cut (before ++ fs) parent ss fs' -> all_cut before parent (s :: ss) (fs ++ fs').
End Says.

(** Reading the facts: the definitions of an object in order, its kind, its bases
    in order since it became a class, its parameters, what a name refers to, and
    the modules starred in order; of several facts the last counts. *)
Definition nodes_in (o : path) (fs : list fact) : list stmt :=
  flat_map (fun f => match f with
                     | Defines o' _ s | Builds o' s => if o' == o then [s] else []
                     | _ => []
                     end) fs.
Definition kind_step (o : path) (k : option node_kind) (f : fact) : option node_kind :=
  match f with
  | Defines o' k' _ => if o' == o then Some k' else k
  | ClassAt o' => if o' == o then Some CLASS else k
  | _ => k
  end.
Definition kind_in (o : path) (fs : list fact) : option node_kind := fold_left (kind_step o) fs None.
Definition bases_step (o : path) (l : option (list expr)) (f : fact) : option (list expr) :=
  match f with
  | ClassAt o' => if o' == o then Some [] else l
  | Inherits o' b => if o' == o then Some (match l with Some l => l | None => [] end ++ [b]) else l
  | _ => l
  end.
Definition bases_in (o : path) (fs : list fact) : option (list expr) := fold_left (bases_step o) fs None.
Definition parameters_step (o : path) (l : option (list path)) (f : fact) : option (list path) :=
  match f with
  | Takes o' ps => if o' == o then Some ps else l
  | _ => l
  end.
Definition parameters_in (o : path) (fs : list fact) : option (list path) := fold_left (parameters_step o) fs None.
Definition reference_step (p : path) (q : option qualified_path) (f : fact) : option qualified_path :=
  match f with
  | Refers p' q' => if p' == p then Some q' else q
  | _ => q
  end.
Definition reference_in (p : path) (fs : list fact) : option qualified_path := fold_left (reference_step p) fs None.
Definition stars_in (fs : list fact) : list path :=
  flat_map (fun f => match f with Stars sub => [sub] | _ => [] end) fs.
(** Named tuples have [typing.NamedTuple] as superclass for each constructor. *)
Definition tuples_in (o : path) (fs : list fact) : list qualified_path :=
  flat_map (fun f => match f with Builds o' _ => if o' == o then [typing_NamedTuple] else [] | _ => [] end) fs.

(** The names in the definitions tree of a module: of definitions and classes,
    those mentioned, and what they are parts of. *)
Definition named (f : fact) : option path :=
  match f with
  | Defines o _ _ | ClassAt o | Mentions o => Some o
  | _ => None
  end.
Definition named_in (o : path) (fs : list fact) : Prop := exists f rest, In f fs /\ named f = Some (o ++ rest).

(** The tables of the module [m] contain just these facts. *)
Definition tables_say (m : path) (st : state) (fs : list fact) : Prop :=
  (forall o, nodes_of_object st m o = nodes_in o fs)
  /\ (forall o, kind_of_object st m o = kind_in o fs)
  /\ (forall o, dget (m, o) (bases_of st) = bases_in o fs)
  /\ (forall o, dget (m, o) (parameters_of st) = parameters_in o fs)
  /\ (forall p, dget p (dget_or m [] (references (db st))) = reference_in p fs)
  /\ dget_or m [] (submodules (db st)) = stars_in fs
  /\ (forall o, dget_or o [] (dget_or m [] (superclasses (db st))) = tuples_in o fs)
  /\ (forall o, o <> [] -> (defined (db st) m o <-> named_in o fs)).

(** ** What names denote *)
(** [st] may have come before [st']: fewer modules have been begun, and about each of
    them an initial part of what is known in [st']. *)
Definition earlier (st st' : state) : Prop :=
  (exists more, visited st' = visited st ++ more)
  /\ (forall x, ~ In x (visited st) -> tables_say x st [])
  /\ (forall x, In x (visited st) -> exists fs more, tables_say x st fs /\ tables_say x st' (fs ++ more)).

(** Something can be said about every module, nothing about those not begun. *)
Definition well_told (st : state) : Prop :=
  (forall x, exists fs, tables_say x st fs) /\ (forall x, ~ In x (visited st) -> tables_say x st []).

Section Denotes.
Variable parse : path -> state -> step scope.
Variable resolve : path -> path -> path -> state -> step qualified_path.
Variable m : path.
(** Names are looked up in some states. *)
Definition finds_in (stage : state -> Prop) (before : list fact) (parent p : path) (r : option qualified_path) : Prop :=
  exists st, stage st /\ tables_say m st before
    /\ match r with
       | Some q => exists st', resolve m parent p st = Done st' q
       | None => exists st', resolve m parent p st = Missing st'
       end.
(** A type variable is assigned once, a call of [typing.TypeVar]. *)
Inductive constructed : stmt -> expr -> Prop :=
| cd_annotation t a f es ks : constructed (SAnnAssign t a (Some (Call f es ks))) f
| cd_assign ts f es ks : constructed (SAssign ts (Call f es ks)) f.
Definition type_variable_in (stage : state -> Prop) (before : list fact) (q : qualified_path) (r : option bool) : Prop :=
  exists st, stage st /\ tables_say m st before
    /\ match r with
       | Some true =>
           exists s f p st', nodes_of_object st (fst q) (snd q) = [s] /\ constructed s f /\ dotted f p
             /\ resolve (fst q) [] p st = Done st' typing_TypeVar
       | Some false =>
           forall s f p, nodes_of_object st (fst q) (snd q) = [s] -> constructed s f -> dotted f p ->
             exists st' c, resolve (fst q) [] p st = Done st' c /\ c <> typing_TypeVar
       | None =>
           (exists st', parse (fst q) st = Missing st')
           \/ exists s f p st', nodes_of_object st (fst q) (snd q) = [s] /\ constructed s f /\ dotted f p
                /\ resolve (fst q) [] p st = Missing st'
       end.
End Denotes.
(** Names resolved one after the other *)
Inductive looked_up (resolve : path -> path -> path -> state -> step qualified_path) (m parent : path)
  : state -> list (pystr * qualified_path) -> state -> Prop :=
| lu_none st : looked_up resolve m parent st [] st
| lu_name st n q st1 r st2 :
    resolve m parent [n] st = Done st1 q -> looked_up resolve m parent st1 r st2 ->
    looked_up resolve m parent st ((n, q) :: r) st2.
(** The arguments of a subscript (see C44) *)
Definition arguments_of (e : expr) (l : list expr) : Prop := collect_type_args (weight e) e = Some l.

(** What the stub [body] of the module [m] says, and what it says up to where it is
    cut off, in a run that ends in [final] *)
Section Module.
Variable source : path -> option (list stmt).
Variable is_package : path -> bool.
Variable condition : list (pystr * qualified_path) -> expr -> res bool.
Variable fuel : nat.
Let parse := parse_stub_scope source is_package condition fuel.
Let resolve := resolve_in parse fuel.
Definition says_in (stage : state -> Prop) (m : path) (body : list stmt) (fs : list fact) : Prop :=
  all_say m (is_package m) condition (finds_in resolve m stage) (type_variable_in parse resolve m stage) arguments_of [] [] body fs.
Definition cut_in (stage : state -> Prop) (m : path) (body : list stmt) (fs : list fact) : Prop :=
  all_cut m (is_package m) condition (finds_in resolve m stage) (type_variable_in parse resolve m stage) arguments_of [] [] body fs.
Definition module_says (final : state) : path -> list stmt -> list fact -> Prop := says_in (fun st => earlier st final).
Definition module_cut (final : state) : path -> list stmt -> list fact -> Prop := cut_in (fun st => earlier st final).
End Module.
(** ... one or the other *)
Definition told_by (source : path -> option (list stmt)) (is_package : path -> bool)
    (condition : list (pystr * qualified_path) -> expr -> res bool) (final : state) (m : path) (body : list stmt) (fs : list fact) : Prop :=
  exists fuel, module_says source is_package condition fuel final m body fs \/ module_cut source is_package condition fuel final m body fs.

(** [stmt_instance table s s']: the definition [s'] is [s] with every occurrence of
    a parameter in [table] replaced by its argument; targets are not touched. *)
Inductive stmt_instance (table : dict path expr) : stmt -> stmt -> Prop :=
| si_annotation t a a' v v' :
    instance table a a' -> opt_instance table v v' ->
    stmt_instance table (SAnnAssign t a v) (SAnnAssign t a' v')
| si_assign ts v v' : instance table v v' -> stmt_instance table (SAssign ts v) (SAssign ts v')
| si_function f f' : function_instance table f f' -> stmt_instance table (SFunctionDef f) (SFunctionDef f')
| si_async f f' : function_instance table f f' -> stmt_instance table (SAsyncFunctionDef f) (SAsyncFunctionDef f').

(** Two states agree on everything about the module [m]. *)
Definition same_module (m : path) (st st' : state) : Prop :=
  dget m (nodes st') = dget m (nodes st) /\ dget m (kinds st') = dget m (kinds st)
  /\ dget m (definitions (db st')) = dget m (definitions (db st))
  /\ dget m (references (db st')) = dget m (references (db st))
  /\ dget m (submodules (db st')) = dget m (submodules (db st))
  /\ dget m (superclasses (db st')) = dget m (superclasses (db st)).

(** Two databases differ at most in the references of the specialisations. *)
Definition alike (d d' : database) : Prop :=
  definitions d = definitions d' /\ submodules d = submodules d' /\ superclasses d = superclasses d'
  /\ forall m, m <> specializations_path -> dget m (references d) = dget m (references d').
(** The name [n] in the module [m] denotes [q], in a database like [d]. *)
Definition denotes (limit : nat) (d : database) (m : path) (n : pystr) (q : qualified_path) : Prop :=
  exists d', alike d' d /\ resolve_object_path d' limit m [] [n] [] = Resolved q.

(** [e'] is [e] with arguments put for parameters any number of times. *)
Inductive rewritten : expr -> expr -> Prop :=
| rw_same e : rewritten e e
| rw_more table e e' e'' : rewritten e e' -> instance table e' e'' -> rewritten e e''.
(** The same definitions, references and starred modules in real modules *)
Definition same_names (d d' : database) : Prop :=
  forall m, m <> specializations_path ->
    dget m (definitions d') = dget m (definitions d) /\ dget m (references d') = dget m (references d)
    /\ dget m (submodules d') = dget m (submodules d).
(** What becomes of a base of the class [o] in [m]: a name is looked up where the
    class is, a subscript gets a class of its own, named after it. *)
Inductive superclass_of (printable : N -> bool) (limit : nat) (st : state) (m o : path) : expr -> qualified_path -> Prop :=
| sc_plain b p q d :
    dotted b p -> same_names d (db st) ->
    resolve_object_path d limit m (removelast o) p [] = Resolved q ->
    superclass_of printable limit st m o b q
| sc_generic v s b' n :
    rewritten (Subscript v s) b' -> to_identifier printable b' = Ok n ->
    superclass_of printable limit st m o (Subscript v s) (specializations_path, [n]).

(** The specialisation [n] is one of the class [q]: [n] is the identifier of a
    subscript of a name that was resolved to [q]. *)
Definition specialisation_of (printable : N -> bool) (limit : nat) (st : state) (n : pystr) (q : qualified_path) : Prop :=
  fst q <> specializations_path
  /\ exists v s p d m parent,
       to_identifier printable (Subscript v s) = Ok n /\ dotted v p
       /\ same_names d (db st) /\ resolve_object_path d limit m parent p [] = Resolved q.

(** The tables of the module [m] in the end, when all bases have been dealt with *)
Definition finally_say (printable : N -> bool) (limit : nat) (m : path) (st : state) (fs : list fact) : Prop :=
  (forall o, nodes_of_object st m o = nodes_in o fs)
  /\ (forall o, kind_of_object st m o = kind_in o fs)
  /\ (forall o, dget (m, o) (parameters_of st) = parameters_in o fs)
  /\ (forall p, dget p (dget_or m [] (references (db st))) = reference_in p fs)
  /\ dget_or m [] (submodules (db st)) = stars_in fs
  /\ (forall o, o <> [] -> (defined (db st) m o <-> named_in o fs))
  /\ (forall o, exists others,
        dget_or o [] (dget_or m [] (superclasses (db st))) = tuples_in o fs ++ others
        /\ Forall2 (superclass_of printable limit st m o)
             (match bases_in o fs with Some bases => bases | None => [] end) others).

(** The run over [modules_paths] reads the stub of [m] when its turn comes, and not
    earlier on behalf of another module (see C66). *)
Definition read_in_turn (source : path -> option (list stmt)) (is_package : path -> bool)
    (condition : list (pystr * qualified_path) -> expr -> res bool) (fuel : nat)
    (modules_paths : list path) (m : path) : Prop :=
  exists before after st u,
    builtins_path :: modules_paths = before ++ m :: after
    /\ each (fun m st => run [st, _] <- parse_stub_scope source is_package condition fuel m st; Done st tt) before empty_state = Done st u
    /\ ~ In m (visited st).
