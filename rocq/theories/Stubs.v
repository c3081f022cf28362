(** Model of paradigm/_core/stubs.py:93-973, the parser that builds the stub
    database.

    - All mutable tables are one [state] passed along; [scope_definitions] of a
      [_StateParser], a reference into the definitions of its module, is the
      place [parent_path] in them ([setdefault] never replaces a scope, so the
      two are the same).
    - [_ObjectNotFound] (stubs.py:494-495) is caught by the code and keeps the
      state reached; every other exception ends the whole run ([Fails]), as
      nothing catches it.
    - Source files, [sources.is_package], and the value of [if] conditions
      ([import_module], [namespacing.search], [_evaluate_expression]) are Section
      variables; a condition gets the names it was given with what they were
      resolved to.
    - The sets of dependency names (stubs.py:342-346, 948-953) are iterated in an
      unspecified order; the model takes one.
    - Recursion has fuel; running out is [Fails RecursionError].
    - The loading or saving of the cache (stubs.py:41-61, 975-993) is in Pretty
      and CachingProofs. *)
From Verif Require Import Base Ast Conversion Catalog Arboreal Generics Scoping Signatures.

Record alias := mk_alias { alias_name : pystr; alias_asname : option pystr }.

(** Statements of a stub; [SOther]: any other statement, with the statements in it
    (visited by [NodeVisitor.generic_visit]). *)
Inductive stmt :=
| SAnnAssign (target annotation : expr) (value : option expr)
| SAssign (targets : list expr) (value : expr)
| SFunctionDef (f : function_def)
| SAsyncFunctionDef (f : function_def)
| SClassDef (name : pystr) (bases : list expr) (body : list stmt)
| SIf (test : expr) (body orelse : list stmt)
| SImport (names : list alias)
| SImportFrom (module : option pystr) (names : list alias) (level : nat)
| SOther (children : list stmt).

(** What [_parse_stubs_state] accumulates (stubs.py:659-669); [db] holds
    [modules_definitions], [modules_references], [modules_submodules],
    [modules_superclasses]. *)
Record state := mk_state {
  db : database;
  nodes : dict path (dict path (list stmt));
  kinds : dict path (dict path node_kind);
  visited : list path;
  bases_of : dict qualified_path (list expr);
  parameters_of : dict qualified_path (list path)
}.
Definition empty_state : state := mk_state (mk_database [] [] [] []) [] [] [] [] [].

Definition with_db (st : state) (d : database) : state :=
  mk_state d (nodes st) (kinds st) (visited st) (bases_of st) (parameters_of st).
Definition with_definitions (st : state) d : state :=
  with_db st (mk_database d (references (db st)) (submodules (db st)) (superclasses (db st))).
Definition with_references (st : state) r : state :=
  with_db st (mk_database (definitions (db st)) r (submodules (db st)) (superclasses (db st))).
Definition with_submodules (st : state) s : state :=
  with_db st (mk_database (definitions (db st)) (references (db st)) s (superclasses (db st))).
Definition with_superclasses (st : state) s : state :=
  with_db st (mk_database (definitions (db st)) (references (db st)) (submodules (db st)) s).
Definition with_nodes (st : state) n : state :=
  mk_state (db st) n (kinds st) (visited st) (bases_of st) (parameters_of st).
Definition with_kinds (st : state) k : state :=
  mk_state (db st) (nodes st) k (visited st) (bases_of st) (parameters_of st).
Definition with_visited (st : state) v : state :=
  mk_state (db st) (nodes st) (kinds st) v (bases_of st) (parameters_of st).
Definition with_bases (st : state) b : state :=
  mk_state (db st) (nodes st) (kinds st) (visited st) b (parameters_of st).
Definition with_parameters (st : state) p : state :=
  mk_state (db st) (nodes st) (kinds st) (visited st) (bases_of st) p.

Inductive step (A : Type) :=
| Done (st : state) (a : A)
| Missing (st : state)
| Fails (e : exc).
Arguments Done {A}.
Arguments Missing {A}.
Arguments Fails {A}.
Definition sbind {A B} (x : step A) (f : state -> A -> step B) : step B :=
  match x with
  | Done st a => f st a
  | Missing st => Missing st
  | Fails e => Fails e
  end.
Notation "'run' '[' st , x ] <- a ; b" := (sbind a (fun st x => b))
  (at level 200, st name, x name, a at level 100, b at level 200).
(** A computation that leaves the state alone *)
Definition pure {A} (st : state) (x : res A) : step A :=
  match x with Ok a => Done st a | Err e => Fails e end.
(** [mapping.get(key)] with [KeyError] *)
Definition fetch {K A} `{Eqb K} (k : K) (d : dict K A) : res A :=
  match dget k d with Some a => Ok a | None => Err KeyError end.
(** [for x in xs: f(x)] *)
Section Each.
Context {A : Type}.
Variable f : A -> state -> step unit.
Fixpoint each (xs : list A) (st : state) : step unit :=
  match xs with
  | [] => Done st tt
  | x :: r => run [st, _] <- f x st; each r st
  end.
End Each.

(** [d[key] = f(d.get(key, default))] *)
Definition dmodify {K A} `{Eqb K} (k : K) (default : A) (f : A -> A) (d : dict K A) : dict K A :=
  dset k (f (dget_or k default d)) d.

(** ** The table updates (stubs.py:388-428); [m] and [parent] are
    [self.module_path] and [self.parent_path] *)
Definition add_ast_node (m parent p : path) (node : stmt) (st : state) : state :=
  with_nodes st (dmodify m [] (dmodify (parent ++ p) [] (fun l => l ++ [node])) (nodes st)).
Definition add_ast_node_kind (m parent p : path) (k : node_kind) (st : state) : state :=
  with_kinds st (dmodify m [] (dset (parent ++ p) k) (kinds st)).
(** [scope.setdefault(part, {})] along a path *)
Fixpoint add_path (p : path) (s : scope) : scope :=
  match p with
  | [] => s
  | part :: r => Scope (dset part (add_path r (dget_or part (Scope []) (entries s))) (entries s))
  end.
Definition add_path_definition (m parent p : path) (st : state) : state :=
  with_definitions st (dmodify m (Scope []) (add_path (parent ++ p)) (definitions (db st))).
Definition add_name_definition (m parent : path) (name : pystr) (st : state) : state :=
  add_path_definition m parent [name] st.
(** [_add_reference] (stubs.py:409-414): no [parent_path] *)
Definition add_reference (m p : path) (referent : qualified_path) (st : state) : state :=
  with_references st (dmodify m [] (dset p referent) (references (db st))).
Definition add_submodule (m sub : path) (st : state) : state :=
  with_submodules st (dmodify m [] (fun l => l ++ [sub]) (submodules (db st))).
Definition add_superclass (m child : path) (base : qualified_path) (st : state) : state :=
  with_superclasses st
    (dmodify m [] (dmodify child [] (fun l => l ++ [base])) (superclasses (db st))).
(** [class_bases.append(base)] (stubs.py:315) *)
Definition add_base (c : qualified_path) (base : expr) (st : state) : state :=
  with_bases st (dmodify c [] (fun l => l ++ [base]) (bases_of st)).

(** ** Named tuples (stubs.py:96-129) *)
Definition annotations_of (body : list stmt) : list (expr * expr * option expr) :=
  flat_map (fun s => match s with SAnnAssign t a v => [(t, a, v)] | _ => [] end) body.
Definition ann_assign_to_arg (x : expr * expr * option expr) : res arg :=
  match fst (fst x) with
  | Name id => Ok (mk_arg id (Some (snd (fst x))))
  | _ => Err AssertionError
  end.
Definition named_tuple_to_constructor (name : pystr) (body : list stmt) : res stmt :=
  let annotations := annotations_of body in
  let* args := map_m ann_assign_to_arg annotations in
  Ok (SFunctionDef (mk_function_def $"__new__"
    (mk_arguments [] (mk_arg $"cls" None :: args) None [] [] None
       (flat_map (fun x => match snd x with Some v => [v] | None => [] end) annotations))
    [] (Some (Name name)))).

(** ** Names *)
Definition typing_path : path := [$"typing"].
Definition Generic_path : qualified_path := (typing_path, [$"Generic"]).
Definition Protocol_path : qualified_path := (typing_path, [$"Protocol"]).
Definition NamedTuple_path : qualified_path := (typing_path, [$"NamedTuple"]).
Definition TypeVar_path : qualified_path := (typing_path, [$"TypeVar"]).

(** All names in an expression *)
Fixpoint names_in (e : expr) : list pystr :=
  match e with
  | Name id => [id]
  | Attribute v _ => names_in v
  | Subscript v s => names_in v ++ names_in s
  | Tuple es | List es | OtherExpr es => flat_map names_in es
  | Dict items => flat_map (fun i => match fst i with Some k => names_in k | None => [] end ++ names_in (snd i)) items
  | Call f es ks => names_in f ++ flat_map names_in es ++ flat_map (fun k => names_in (snd k)) ks
  | BinOp l _ r => names_in l ++ names_in r
  | UnaryOp _ e => names_in e
  | Constant _ => []
  end.
(** ... of its proper descendants: [_recursively_iterate_children] does not yield
    the node itself *)
Definition names_below (e : expr) : list pystr :=
  match e with Name _ => [] | _ => names_in e end.
Fixpoint dedupe {A} `{Eqb A} (xs : list A) : list A :=
  match xs with
  | [] => []
  | x :: r => x :: filter (fun y => negb (y == x)) (dedupe r)
  end.

(** Names in the parts of a function definition and of a recorded statement *)
Definition names_opt (e : option expr) : list pystr :=
  match e with Some e => names_in e | None => [] end.
Definition names_arg (a : arg) : list pystr := names_opt (arg_annotation a).
Definition names_opt_arg (a : option arg) : list pystr :=
  match a with Some a => names_arg a | None => [] end.
Definition names_function (f : function_def) : list pystr :=
  let a := fd_args f in
  flat_map names_arg (posonlyargs a) ++ flat_map names_arg (args a) ++ names_opt_arg (vararg a)
  ++ flat_map names_arg (kwonlyargs a) ++ flat_map names_opt (kw_defaults a)
  ++ names_opt_arg (kwarg a) ++ flat_map names_in (defaults a)
  ++ flat_map names_in (fd_decorators f) ++ names_opt (fd_returns f).
Definition names_stmt (s : stmt) : list pystr :=
  match s with
  | SAnnAssign _ annotation value => names_in annotation ++ names_opt value
  | SAssign _ value => names_in value
  | SFunctionDef f | SAsyncFunctionDef f => names_function f
  | _ => []
  end.

Section Parser.
(** The stub of a module, if there is one ([sources.from_module_path] and
    [construction.from_source_path]) *)
Variable source : path -> option (list stmt).
(** [sources.is_package] *)
Variable is_package : path -> bool.
(** The truth of a condition, given its names and what they were resolved to *)
Variable condition : list (pystr * qualified_path) -> expr -> res bool.

(** ** [_resolve_object_path] (stubs.py:498-561) *)
Section Resolve.
(** [_parse_stub_scope], giving the definitions of the module *)
Variable parse : path -> state -> step scope.

(** The loop of stubs.py:532-543 *)
Fixpoint try_submodules (f : path -> state -> step qualified_path) (subs : list path) (st : state)
  : step (option qualified_path) :=
  match subs with
  | [] => Done st None
  | sub :: r =>
      match f sub st with
      | Done st q => Done st (Some q)
      | Missing st => try_submodules f r st
      | Fails e => Fails e
      end
  end.
Fixpoint resolve_in (fuel : nat) (m parent o : path) (st : state) {struct fuel} : step qualified_path :=
  match fuel with
  | O => Fails RecursionError
  | S fuel =>
      match o with
      | [] => Fails IndexError
      | first :: _ =>
          run [st, scope] <- parse m st;
          if scope_contains_path scope (parent ++ [first]) then Done st (m, parent ++ o)
          else if dmem first (entries scope) then Done st (m, o)
          else
            run [st, found] <- try_submodules (fun sub => resolve_in fuel sub [] o)
                                 (dget_or m [] (submodules (db st))) st;
            match found with
            | Some q => Done st q
            | None =>
                run [st, module_references] <- pure st (fetch m (references (db st)));
                match longest_reference module_references o (length o) with
                | Some (referent, rest) => Done st (fst referent, snd referent ++ rest)
                | None =>
                    run [st, builtins] <- pure st (fetch builtins_path (definitions (db st)));
                    if scope_contains_path builtins o then Done st (builtins_path, o)
                    else Missing st
                end
            end
      end
  end.
End Resolve.

(** ** [_StateParser] (stubs.py:162-491) *)
Section Visitor.
Variable parse : path -> state -> step scope.
Variable resolve : path -> path -> path -> state -> step qualified_path.

(** [_to_qualified_path] (stubs.py:442-449) *)
Definition to_qualified_path (m parent o : path) (st : state) : step qualified_path :=
  match resolve m parent o st with
  | Missing st => Done (add_path_definition m parent o st) (m, o)
  | x => x
  end.

(** [_is_type_var_object_path] (stubs.py:451-491) *)
Definition is_type_var_object_path (m parent o : path) (st : state) : step bool :=
  run [st, q] <- to_qualified_path m parent o st;
  run [st, _] <- parse (fst q) st;
  run [st, module_ast_nodes] <- pure st (fetch (fst q) (nodes st));
  match dget_or (snd q) [] module_ast_nodes with
  | [SAnnAssign _ _ (Some (Call func _ _))] | [SAssign _ (Call func _ _)] =>
      match to_maybe_path func with
      | None => Done st false
      | Some p => run [st, c] <- resolve (fst q) [] p st; Done st (c == TypeVar_path)
      end
  | _ => Done st false
  end.

(** stubs.py:271-281: the arguments of a base that are type variables *)
Fixpoint type_variables (m parent : path) (arguments : list expr) (st : state) : step (list path) :=
  match arguments with
  | [] => Done st []
  | argument :: r =>
      match to_maybe_path argument with
      | None => type_variables m parent r st
      | Some p =>
          run [st, is_type_var] <- is_type_var_object_path m parent p st;
          run [st, rest] <- type_variables m parent r st;
          Done st (if is_type_var then p :: rest else rest)
      end
  end.

(** The loop over [node.bases] (stubs.py:269-315), giving the paths of type
    variables *)
Definition visit_base (m parent : path) (class_name : pystr) (body : list stmt) (base : expr) (st : state)
  : step (list path) :=
  let class_path := parent ++ [class_name] in
  match base with
  | Subscript value _ =>
      run [st, arguments] <- pure st (match collect_type_args (weight base) base with
                                      | Some l => Ok l
                                      | None => Err RecursionError
                                      end);
      run [st, vars] <- type_variables m parent arguments st;
      match to_maybe_path value with
      | None => Done (add_base (m, class_path) base st) vars
      | Some p =>
          run [st, q] <- resolve m parent p st;
          if mem q [Generic_path; Protocol_path] then Done st vars
          else Done (add_base (m, class_path) base st) vars
      end
  | _ =>
      run [st, p] <- pure st (to_path base);
      run [st, q] <- to_qualified_path m parent p st;
      if q == NamedTuple_path then
        run [st, constructor] <- pure st (named_tuple_to_constructor class_name body);
        Done (add_superclass m class_path q (add_ast_node m parent [class_name] constructor st)) []
      else if q == Protocol_path then Done st []
      else if q == Generic_path then Fails AssertionError
      else Done (add_base (m, class_path) base st) []
  end.
Fixpoint visit_bases (m parent : path) (class_name : pystr) (body : list stmt) (bases : list expr) (st : state)
  : step (list path) :=
  match bases with
  | [] => Done st []
  | base :: r =>
      run [st, vars] <- visit_base m parent class_name body base st;
      run [st, rest] <- visit_bases m parent class_name body r st;
      Done st (vars ++ rest)
  end.

(** [path[:1], path[:2], ...] (stubs.py:365-369) *)
Definition prefixes (p : path) : list path := map (fun n => firstn n p) (seq 1 (length p)).
(** [visit_Import] (stubs.py:361-371) *)
Definition visit_import (m : path) (a : alias) (st : state) : state :=
  let module_path := path_from_string (alias_name a) in
  match alias_asname a with
  | None => fold_left (fun st p => add_reference m p (p, []) st) (prefixes module_path) st
  | Some name => add_reference m [name] (module_path, []) st
  end.
(** [visit_ImportFrom] (stubs.py:378-386) *)
Definition visit_import_from (m parent_module_path : path) (a : alias) (st : state) : state :=
  if alias_name a == $"*" then add_submodule m parent_module_path st
  else
    let actual_path := path_from_string (alias_name a) in
    add_reference m (match alias_asname a with None => actual_path | Some name => [name] end)
      (parent_module_path, actual_path) st.

(** The names of a condition and what they are resolved to (stubs.py:341-354) *)
Fixpoint resolve_names (m parent : path) (names : list pystr) (st : state)
  : step (list (pystr * qualified_path)) :=
  match names with
  | [] => Done st []
  | n :: r =>
      run [st, q] <- resolve m parent [n] st;
      run [st, rest] <- resolve_names m parent r st;
      Done st ((n, q) :: rest)
  end.

(** [visit] *)
Fixpoint visit (m parent : path) (s : stmt) (st : state) {struct s} : step unit :=
  match s with
  | SAnnAssign target annotation value =>                          (* 208-224 *)
      run [st, target_path] <- pure st (to_path target);
      match match value with None => None | Some v => to_maybe_path v end with
      | None =>
          Done (add_path_definition m parent target_path
                  (add_ast_node_kind m parent target_path ANNOTATED_ASSIGNMENT
                     (add_ast_node m parent target_path s st))) tt
      | Some value_path =>
          run [st, q] <- to_qualified_path m parent value_path st;
          Done (add_reference m target_path q st) tt
      end
  | SAssign targets value =>                                       (* 226-241 *)
      match to_maybe_path value with
      | None =>
          each (fun target st =>
                  run [st, target_path] <- pure st (to_path target);
                  Done (add_path_definition m parent target_path
                          (add_ast_node_kind m parent target_path ASSIGNMENT
                             (add_ast_node m parent target_path s st))) tt) targets st
      | Some value_path =>
          run [st, q] <- to_qualified_path m parent value_path st;
          each (fun target st =>
                  run [st, target_path] <- pure st (to_path target);
                  Done (add_reference m target_path q st) tt) targets st
      end
  | SAsyncFunctionDef f =>                                         (* 243-247 *)
      Done (add_name_definition m parent (fd_name f)
              (add_ast_node_kind m parent [fd_name f] ASYNC_FUNCTION
                 (add_ast_node m parent [fd_name f] s st))) tt
  | SFunctionDef f =>                                              (* 334-338 *)
      Done (add_name_definition m parent (fd_name f)
              (add_ast_node_kind m parent [fd_name f] FUNCTION
                 (add_ast_node m parent [fd_name f] s st))) tt
  | SClassDef name bases body =>                                   (* 249-332 *)
      let class_path := parent ++ [name] in
      let st := add_name_definition m parent name (add_ast_node_kind m parent [name] CLASS st) in
      let st := with_bases st (dset (m, class_path) [] (bases_of st)) in
      run [st, vars] <- visit_bases m parent name body bases st;
      let generic_parameters := dedupe vars in
      let st := if is_nil generic_parameters then st
                else with_parameters st (dset (m, class_path) generic_parameters (parameters_of st)) in
      each (visit m class_path) body st
  | SIf test body orelse =>                                        (* 340-359 *)
      run [st, bindings] <- resolve_names m parent (dedupe (names_below test)) st;
      run [st, c] <- pure st (condition bindings test);
      each (visit m parent) (if c then body else orelse) st
  | SImport names => Done (fold_left (fun st a => visit_import m a st) names st) tt
  | SImportFrom module names level =>                              (* 373-386 *)
      run [st, parent_module_path] <- pure st (to_parent_module_path level module m (is_package m));
      Done (fold_left (fun st a => visit_import_from m parent_module_path a st) names st) tt
  | SOther children => each (visit m parent) children st
  end.
End Visitor.

(** [_parse_stub_scope] (stubs.py:564-597) *)
Fixpoint parse_stub_scope (fuel : nat) (m : path) (st : state) {struct fuel} : step scope :=
  if mem m (visited st) then pure st (fetch m (definitions (db st)))
  else
    match fuel with
    | O => Fails RecursionError
    | S fuel =>
        match source m with
        | None => Fails OtherException                             (* [sources.NotFound] *)
        | Some body =>
            let st := with_visited st (visited st ++ [m]) in
            let st := with_definitions st (dset m (Scope []) (definitions (db st))) in
            let st := with_kinds st (dset m [] (kinds st)) in
            let st := with_nodes st (dset m [] (nodes st)) in
            let st := with_references st (dset m [] (references (db st))) in
            let parse := parse_stub_scope fuel in
            run [st, _] <- each (visit parse (resolve_in parse fuel) m []) body st;
            pure st (fetch m (definitions (db st)))
        end
    end.

(** stubs.py:670-683 *)
Definition parse_modules (fuel : nat) (modules_paths : list path) : step unit :=
  each (fun m st => run [st, _] <- parse_stub_scope fuel m st; Done st tt)
    (builtins_path :: modules_paths) empty_state.

(** ** Specialisations (stubs.py:703-972) *)
Section Specializations.
Variable printable : N -> bool.
(** The recursion limit for [_scoping.resolve_object_path] *)
Variable limit : nat.
Definition specializations_path : path := [$"__specializations"].

(** [_scoping.resolve_object_path]; its [ObjectNotFound] is caught nowhere here *)
Definition resolve_stub (m parent o : path) (st : state) : res qualified_path :=
  match resolve_object_path (db st) limit m parent o [] with
  | Resolved q => Ok q
  | ObjectNotFound => Err OtherException
  | Raises e => Err e
  end.

(** [_conversion.to_names] (conversion.py:12-40) *)
Definition target_name (e : expr) : res pystr :=
  match e with Name id => Ok id | _ => Err TypeError end.
Definition to_names (s : stmt) : res (list pystr) :=
  match s with
  | SFunctionDef f | SAsyncFunctionDef f => Ok [fd_name f]
  | SClassDef name _ _ => Ok [name]
  | SAnnAssign target _ _ => let* n := target_name target in Ok [n]
  | SAssign targets _ => map_m target_name targets
  | _ => Err TypeError
  end.

(** [_SpecializeGeneric(table).visit] on a recorded statement *)
Definition specialize_stmt (table : dict path expr) (s : stmt) : res stmt :=
  match s with
  | SAnnAssign target annotation value =>
      let* annotation := specialize table annotation in
      let* value := specialize_opt table value in
      Ok (SAnnAssign target annotation value)
  | SAssign targets value =>
      let* value := specialize table value in
      Ok (SAssign targets value)
  | SFunctionDef f => let* f := specialize_function table f in Ok (SFunctionDef f)
  | SAsyncFunctionDef f => let* f := specialize_function table f in Ok (SAsyncFunctionDef f)
  | other => Ok other
  end.

(** [dict(zip(keys, values))] *)
Definition table_of (parameters : list path) (arguments : list expr) : dict path expr :=
  dict_of (combine parameters arguments).

(** [scope[part]] along a path *)
Fixpoint scope_at (s : scope) (p : path) : res scope :=
  match p with
  | [] => Ok s
  | part :: r => let* s := fetch part (entries s) in scope_at s r
  end.
(** [scope.update(other)] at a path, which exists *)
Fixpoint update_at (p : path) (other : scope) (s : scope) : scope :=
  match p with
  | [] => Scope (fold_left (fun d kv => dset (fst kv) (snd kv) d) (entries other) (entries s))
  | part :: r => Scope (dset part (update_at r other (dget_or part (Scope []) (entries s))) (entries s))
  end.

(** The references of one specialised field (stubs.py:948-969) *)
Fixpoint add_dependencies (specialization_module generic_module : path) (arguments_names : list pystr)
    (names : list pystr) (st : state) : res state :=
  match names with
  | [] => Ok st
  | n :: r =>
      let* q := resolve_stub (if mem n arguments_names then specialization_module else generic_module)
                  [] [n] st in
      let st := if fst q == builtins_path then st
                else add_reference specializations_path [n] q st in
      add_dependencies specialization_module generic_module arguments_names r st
  end.

(** The loop over the fields of the generic class (stubs.py:934-972) *)
Fixpoint specialize_fields (generic : qualified_path) (specialization_module specialization : path)
    (table : dict path expr) (arguments_names fields : list pystr) (st : state) : res state :=
  match fields with
  | [] => Ok st
  | name :: r =>
      let* module_nodes := fetch (fst generic) (nodes st) in
      let* generic_nodes := fetch (snd generic ++ [name]) module_nodes in
      let* specialized := map_m (specialize_stmt table) generic_nodes in
      let st := with_nodes st (dmodify specializations_path []
                                 (dset (specialization ++ [name]) specialized) (nodes st)) in
      let* defined := map_m to_names specialized in
      let dependencies := filter (fun n => negb (mem n (concat defined)))
                            (dedupe (flat_map names_stmt specialized)) in
      let* st := add_dependencies specialization_module (fst generic) arguments_names dependencies st in
      let* module_kinds := fetch (fst generic) (kinds st) in
      let* kind := fetch (snd generic ++ [name]) module_kinds in
      let st := with_kinds st (dmodify specializations_path []
                                 (dset (specialization ++ [name]) kind) (kinds st)) in
      specialize_fields generic specialization_module specialization table arguments_names r st
  end.

(** [_register_generic_specialization] (stubs.py:889-972) *)
Definition register_generic_specialization (generic : qualified_path)
    (specialization_module specialization : path) (parameters : list path) (arguments : list expr)
    (st : state) : res state :=
  let st := with_definitions st (dmodify specializations_path (Scope []) (add_path specialization)
                                   (definitions (db st))) in
  let* generic_definitions := fetch (fst generic) (definitions (db st)) in
  let* generic_scope := scope_at generic_definitions (snd generic) in
  let st := with_definitions st (dmodify specializations_path (Scope [])
                                   (update_at specialization generic_scope) (definitions (db st))) in
  let* _ := fetch (fst generic) (nodes st) in
  let st := with_kinds st (dmodify specializations_path [] (dset specialization CLASS) (kinds st)) in
  specialize_fields generic specialization_module specialization (table_of parameters arguments)
    (flat_map names_in arguments) (dkeys (entries generic_scope)) st.

(** The loop over [generic_bases] (stubs.py:813-877). [specialize(generic_base)]
    (stubs.py:817) transforms the node in place: the table [classes_bases] has
    the specialised node from then on. [i] is the position. *)
Definition set_nth {A} (i : nat) (a : A) (l : list A) : list A :=
  firstn i l ++ match skipn i l with [] => [] | _ :: r => a :: r end.
Definition register_generic_base (generic : qualified_path) (child_module specialization : path)
    (table : dict path expr) (i : nat) (st : state) : res state :=
  let* generic_bases := fetch generic (bases_of st) in
  match nth_error generic_bases i with
  | None => Err IndexError
  | Some generic_base =>
      let* result :=
        match generic_base with
        | Subscript _ _ =>
            let* specialized := specialize table generic_base in
            let st := with_bases st (dset generic (set_nth i specialized generic_bases) (bases_of st)) in
            let* base_base_name := to_identifier printable specialized in
            let base_base := [base_base_name] in
            let* scope := fetch specializations_path (definitions (db st)) in
            if dmem base_base_name (entries scope) then Ok (st, (specializations_path, base_base))
            else
              match specialized with
              | Subscript value slice =>
                  let* p := to_path value in
                  let* q := resolve_stub (fst generic) (removelast (snd generic)) p st in
                  let* parameters := fetch q (parameters_of st) in
                  let* st := register_generic_specialization q child_module base_base parameters
                               (unpack_ast_node slice) st in
                  Ok (st, (specializations_path, base_base))
              | _ => Err AttributeError
              end
        | _ =>
            let* p := to_path generic_base in
            let* q := resolve_stub (fst generic) [] p st in
            Ok (st, q)
        end in
      Ok (add_superclass specializations_path specialization (snd result) (fst result))
  end.
Fixpoint register_generic_bases (generic : qualified_path) (child_module specialization : path)
    (table : dict path expr) (indices : list nat) (st : state) : res state :=
  match indices with
  | [] => Ok st
  | i :: r =>
      let* st := register_generic_base generic child_module specialization table i st in
      register_generic_bases generic child_module specialization table r st
  end.

(** [_register_base_ast_node] (stubs.py:754-886) *)
Definition register_base_ast_node (base : expr) (child : qualified_path) (st : state)
  : res (state * qualified_path) :=
  match base with
  | Subscript value slice =>
      let* base_name := to_identifier printable base in
      let base_object_path := [base_name] in
      let* scope := fetch specializations_path (definitions (db st)) in
      if dmem base_name (entries scope) then Ok (st, (specializations_path, base_object_path))
      else
        let arguments := unpack_ast_node slice in
        let* p := to_path value in
        let* generic := resolve_stub (fst child) (removelast (snd child)) p st in
        let* parameters := fetch generic (parameters_of st) in
        let* st := register_generic_specialization generic (fst child) base_object_path parameters
                     arguments st in
        if dmem base_object_path (dget_or specializations_path [] (superclasses (db st)))
        then Err AssertionError
        else
          let* generic_bases := fetch generic (bases_of st) in
          let* st := register_generic_bases generic (fst child) base_object_path
                       (table_of parameters arguments) (seq 0 (length generic_bases)) st in
          Ok (st, (specializations_path, base_object_path))
  | _ =>
      let* p := to_path base in
      let* q := resolve_stub (fst child) (removelast (snd child)) p st in
      Ok (st, q)
  end.

(** The loops of [_process_classes_bases] (stubs.py:733-751); the bases are read
    when their turn comes *)
Fixpoint process_bases (child : qualified_path) (indices : list nat) (st : state) : res state :=
  match indices with
  | [] => Ok st
  | i :: r =>
      let* class_bases := fetch child (bases_of st) in
      match nth_error class_bases i with
      | None => Err IndexError
      | Some base =>
          let* result := register_base_ast_node base child st in
          process_bases child r (add_superclass (fst child) (snd child) (snd result) (fst result))
      end
  end.
Fixpoint process_classes (classes : list (qualified_path * nat)) (st : state) : res state :=
  match classes with
  | [] => Ok st
  | (child, count) :: r =>
      let* st := process_bases child (seq 0 count) st in
      process_classes r st
  end.
(** [_process_classes_bases] (stubs.py:703-751) *)
Definition process_classes_bases (st : state) : res state :=
  if dmem specializations_path (nodes st) || dmem specializations_path (definitions (db st))
     || dmem specializations_path (kinds st) || dmem specializations_path (references (db st))
  then Err AssertionError
  else
    let st := with_nodes st (dset specializations_path [] (nodes st)) in
    let st := with_definitions st (dset specializations_path (Scope []) (definitions (db st))) in
    let st := with_kinds st (dset specializations_path [] (kinds st)) in
    let st := with_references st (dset specializations_path [] (references (db st))) in
    process_classes (map (fun c => (fst c, length (snd c))) (bases_of st)) st.

(** [_parse_stubs_state] (stubs.py:649-700), without the conversion of the nodes
    to text *)
Definition parse_stubs_state (fuel : nat) (modules_paths : list path) : res state :=
  match parse_modules fuel modules_paths with
  | Done st _ => process_classes_bases st
  | Missing _ => Err OtherException
  | Fails e => Err e
  end.
End Specializations.
End Parser.
