(** Specification only: what a definition in a stub says about calls, given what its
    expressions mean (SpecEvaluation.v). Uses parameters as written (SpecSignatures.v). *)
From Verif Require Import Base Ast Models SpecCall Scoping Stubs SpecStubs Signatures SpecSignatures Whole.
From Verif Require Evaluation SpecEvaluation SpecAliases.

(** The stub of [m] is read in the run over [modules], in its turn or on behalf of
    another module. *)
Definition was_read (source : path -> option (list stmt)) (is_package : path -> bool)
    (condition : list (pystr * qualified_path) -> expr -> res bool) (fuel : nat) (modules : list path) (m : path) : Prop :=
  exists parsed, parse_modules source is_package condition fuel modules = Done parsed tt /\ In m (visited parsed).
(** [says] is what is read of it: if its turn has come, all that it says (C66). *)
Definition described (source : path -> option (list stmt)) (is_package : path -> bool)
    (condition : list (pystr * qualified_path) -> expr -> res bool) (fuel : nat) (modules : list path) (m : path)
    (body : list stmt) (says : list fact) : Prop :=
  source m = Some body
  /\ exists parsed, parse_modules source is_package condition fuel modules = Done parsed tt
     /\ told_by source is_package condition parsed m body says
     /\ (read_in_turn source is_package condition fuel modules m ->
         module_says source is_package condition (pred fuel) parsed m body says).

Definition defines (s : stmt) (f : function_def) : Prop := s = SFunctionDef f \/ s = SAsyncFunctionDef f.
(** [f] without its parameters before [/] *)
Definition after_slash (f : function_def) : function_def :=
  let a := fd_args f in
  mk_function_def (fd_name f)
    {| posonlyargs := []; args := args a; vararg := vararg a; kwonlyargs := kwonlyargs a; kw_defaults := kw_defaults a;
       kwarg := kwarg a; defaults := defaults a |}
    (fd_decorators f) (fd_returns f).
Definition annotation_of (f : function_def) (e : expr) : Prop :=
  fd_returns f = Some e \/ exists w, In w (written (fd_args f)) /\ arg_annotation (w_arg w) = Some e.
Definition default_of (f : function_def) (e : expr) : Prop :=
  exists w, In w (written (fd_args f)) /\ w_default w = Some e.

(** The tables in which evaluation looks up names *)
Definition evaluator_tables (limit : nat) (st : state) : Evaluation.tables :=
  Evaluation.mk_tables
    (fun m parent o => match resolve_object_path (db st) limit m parent o [] with
                       | Resolved q => Ok q
                       | ObjectNotFound => Err OtherException
                       | Raises e => Err e
                       end)
    (nodes st) (kinds st) (definitions (db st)) (superclasses (db st)).

Section Values.
Context {V : Type}.
Variables (is_NONE is_Ellipsis : V -> bool) (Any Self : V).
Variable py : Evaluation.python V.
Variables (limit fuel : nat) (st : state) (memory : Evaluation.memory V).
Notation tables := (evaluator_tables limit st).
Notation classes := (Evaluation.classes memory).
Notation modules := (Evaluation.modules memory).
(** [e], in the scope [parent] of the module [m], means [v], when [memory] is remembered from
    earlier evaluations: its names are imported, or have been made from stubs, or are aliases
    defined by stubs or classes of stubs among [new], no deeper than the recursion limit allows,
    none of them remembered wrongly. *)
Definition known_with (new : list qualified_path) (m parent : path) (e : expr) (v : V) : Prop :=
  exists depth wrong, depth < fuel
    /\ SpecAliases.remembers_right py tables classes modules new wrong (Evaluation.aliases memory)
    /\ SpecEvaluation.means py (SpecAliases.named py tables classes modules new depth wrong m parent) e v.
Definition known (m parent : path) (e : expr) (v : V) : Prop := exists new, known_with new m parent e v.
(** ... without making classes *)
Definition known_before : path -> path -> expr -> V -> Prop := known_with [].
(** A definition that Python accepts, without [/], all of whose annotations and defaults
    have a meaning [value_of], no default meaning the private sentinel of models.py *)
Definition understood_if (known : path -> path -> expr -> V -> Prop) (value_of : expr -> V) (m parent : path) (f : function_def) : Prop :=
  legal_arguments (fd_args f) /\ posonlyargs (fd_args f) = []
  /\ (forall e, annotation_of f e -> known m parent e (value_of e))
  /\ (forall e, default_of f e -> known m parent e (value_of e) /\ is_NONE (value_of e) = false).
Definition understood := understood_if known.
Definition understood_before := understood_if known_before.

(** The overload [s] is what [f] says. *)
Definition says_function (value_of : expr -> V) (f : function_def) (s : plain_signature V) : Prop :=
  Forall2 (fun w p => follows is_Ellipsis Any value_of (stored_kind (w_kind w)) w p) (written (fd_args f)) (parameters s)
  /\ returns s = return_value Any value_of f.
(** ... with the first parameter standing for the instance *)
Definition says_method (value_of : expr -> V) (f : function_def) (s : plain_signature V) : Prop :=
  exists w ws ps, written (fd_args f) = w :: ws
    /\ parameters s = RequiredParameter Self POSITIONAL_ONLY (arg_name (w_arg w)) :: ps
    /\ Forall2 (fun w p => follows is_Ellipsis Any value_of (stored_kind (w_kind w)) w p) ws ps
    /\ returns s = return_value Any value_of f.
(** ... without the first parameter *)
Definition says_bound (value_of : expr -> V) (f : function_def) (s : plain_signature V) : Prop :=
  exists w ws, written (fd_args f) = w :: ws
    /\ Forall2 (fun w p => follows is_Ellipsis Any value_of (stored_kind (w_kind w)) w p) ws (parameters s)
    /\ returns s = return_value Any value_of f.
(** ... when it initializes the instance that is then returned *)
Definition says_initializer (value_of : expr -> V) (f : function_def) (s : plain_signature V) : Prop :=
  exists w ws, written (fd_args f) = w :: ws
    /\ Forall2 (fun w p => follows is_Ellipsis Any value_of (stored_kind (w_kind w)) w p) ws (parameters s)
    /\ returns s = Self.

(** All places where the object [o] may be described are names of [q]. *)
Definition found_at {O} (sys_modules : dict pystr O) (getattr : O -> pystr -> option O)
    (table : dict path (dict path (list qualified_path))) (own : O -> qualified_path) (o : O) (q : qualified_path) : Prop :=
  (exists c, candidate sys_modules getattr table o (own o) c)
  /\ forall c, candidate sys_modules getattr table o (own o) c ->
       resolve_object_path (db st) limit (fst c) [] (snd c) [] = Resolved q.
(** Some of these places are names of [q], and [q] comes first, in the order of tuples of
    tuples of strings, of all that they are names of. *)
Definition found_first {O} (sys_modules : dict pystr O) (getattr : O -> pystr -> option O)
    (table : dict path (dict path (list qualified_path))) (own : O -> qualified_path) (o : O) (q : qualified_path) : Prop :=
  (exists c, candidate sys_modules getattr table o (own o) c
     /\ resolve_object_path (db st) limit (fst c) [] (snd c) [] = Resolved q)
  /\ forall c, candidate sys_modules getattr table o (own o) c ->
       match resolve_object_path (db st) limit (fst c) [] (snd c) [] with
       | Resolved r => fst r <> [] -> snd r <> [] -> PySort.qualified_path_leb q r = true
       | ObjectNotFound => True
       | Raises _ => False
       end.
(** [q] is one of the things that these places are names of. *)
Definition place_of {O} (sys_modules : dict pystr O) (getattr : O -> pystr -> option O)
    (table : dict path (dict path (list qualified_path))) (own : O -> qualified_path) (o : O) (q : qualified_path) : Prop :=
  exists c, candidate sys_modules getattr table o (own o) c
    /\ resolve_object_path (db st) limit (fst c) [] (snd c) [] = Resolved q /\ fst q <> [] /\ snd q <> [].
(** There are such things, and all these places can be looked up. *)
Definition has_places {O} (sys_modules : dict pystr O) (getattr : O -> pystr -> option O)
    (table : dict path (dict path (list qualified_path))) (own : O -> qualified_path) (o : O) : Prop :=
  (exists q, place_of sys_modules getattr table own o q)
  /\ forall c, candidate sys_modules getattr table o (own o) c ->
       forall e, resolve_object_path (db st) limit (fst c) [] (snd c) [] <> Raises e.
(** The builder nearest to the class [q] is [b] (C29). *)
Definition made_by (q b : qualified_path) : Prop :=
  exists l, lineage (db st) q l /\ nearest (signature_tables st) (map (fun d => (fst d, snd q)) l) b.
End Values.

(** Callables that are looked up as they are, and those looked up by [u] and bound to [self] *)
Definition function_kinds {V O} : list (O -> @callable V O) :=
  [FunctionCallable; DescriptorCallable; (fun o => BuiltinCallable o NoReceiver); (fun o => BuiltinCallable o ModuleReceiver)].
Definition bound_kinds {V O} (self : V) (u : O) : list (O -> @callable V O) :=
  [(fun o => MethodCallable o (InstanceReceiver self (Ok u))); (fun o => BuiltinCallable o (InstanceReceiver self (Ok u)));
   (fun o => MethodWrapperCallable o (InstanceReceiver self (Ok u)))].
(** Methods of classes, got from the class (those of classes written in Python: C96) *)
Definition class_kinds {V O} : list (O -> @callable V O) := [(fun o => BuiltinCallable o TypeReceiver)].
(** The decorators of [f] make it a method of the class. *)
Definition class_method (stubs : stubs_tables) (limit : nat) (m parent : path) (f : function_def) : Prop :=
  exists before d after, fd_decorators f = before ++ d :: after
    /\ Forall (other_decorator stubs limit m parent) before /\ SpecSignatures.denotes stubs limit m parent d the_classmethod.

(** The call is accepted by the parameters as written, by all but the first of them. *)
Definition takes_call (f : function_def) (n : nat) (keywords : list pystr) : Prop :=
  accepts (map written_view (written (fd_args f))) n keywords.
Definition takes_rest (f : function_def) (n : nat) (keywords : list pystr) : Prop :=
  exists w ws, written (fd_args f) = w :: ws /\ accepts (map written_view ws) n keywords.
(** No positional parameter is passed by keyword (C26). *)
Definition by_position (f : function_def) (keywords : list pystr) : Prop :=
  forall x, In x (args (fd_args f)) -> ~ In (arg_name x) keywords.

(** The definitions named [n] *)
Definition named_n (n : pystr) (defs : list function_def) : list function_def :=
  filter (fun f => fd_name f == n) defs.

(** What is said about [p] are the functions [fs], outside of classes; in a class; in
    either. *)
Definition members_at (says : list fact) (p : path) (fs : list function_def) : Prop :=
  (exists k, kind_in p says = Some k /\ k <> CLASS) /\ Forall2 defines (nodes_in p says) fs /\ fs <> [].
Definition functions_at (says : list fact) (p : path) (fs : list function_def) : Prop :=
  members_at says p fs /\ kind_in (removelast p) says <> Some CLASS.
Definition methods_at (says : list fact) (p : path) (fs : list function_def) : Prop :=
  members_at says p fs /\ kind_in (removelast p) says = Some CLASS.
(** The class [p] is made by the functions [fs] called [__init__], or else by those
    called [__new__]. *)
Definition initializers_at (says : list fact) (p : path) (fs : list function_def) : Prop :=
  Forall2 defines (nodes_in (p ++ [$"__init__"]) says) fs /\ fs <> [] /\ Forall (fun f => fd_name f = $"__init__") fs.
Definition constructors_at (says : list fact) (p : path) (fs : list function_def) : Prop :=
  nodes_in (p ++ [$"__init__"]) says = []
  /\ Forall2 defines (nodes_in (p ++ [$"__new__"]) says) fs /\ fs <> [] /\ Forall (fun f => fd_name f = $"__new__") fs.
(** The overload [s] of a class is what [f], an initializer or a constructor, says. *)
Definition says_builder {V} (is_Ellipsis : V -> bool) (Any Self : V) (value_of : expr -> V) (f : function_def) (s : plain_signature V) : Prop :=
  fd_name f = $"__init__" /\ says_initializer is_Ellipsis Any Self value_of f s
  \/ fd_name f <> $"__init__" /\ says_bound is_Ellipsis Any value_of f s.
