(** Specification only: how Python's types of callables are told apart by [from_callable]
    (signatures.py:34-133) and by [qualified_path_from] (catalog.py:26-90), and where
    the index of modules.py finds an object. *)
From Verif Require Import Base Models Catalog Scoping Signatures SpecSignatures Indexing SpecIndexing.

(** [__self__] as seen by both *)
Inductive receives {V O} : owner -> @receiver V O -> Prop :=
| re_none : receives OwnerNone NoReceiver
| re_module m : receives (OwnerModule m) ModuleReceiver
| re_class t : receives (OwnerType t) TypeReceiver
| re_instance self underlying : receives OwnerInstance (InstanceReceiver self underlying).

(** The callable [c] is the object [o] (the object wrapped, for [functools.partial]). Methods
    of Python classes ([types.MethodType]) are nothing [qualified_path_from] knows. *)
Section Callables.
Context {V O : Type}.
Variable described : O -> Catalog.value.
Inductive dispatched : @callable V O -> O -> Prop :=
| di_builtin o self r q : described o = BuiltinFunction self q -> receives self r -> dispatched (BuiltinCallable o r) o
| di_function o m q : described o = PythonFunction m q -> dispatched (FunctionCallable o) o
| di_class_method o : described o = OtherValue -> dispatched (MethodCallable o TypeReceiver) o
| di_method o self u : described o = OtherValue -> dispatched (MethodCallable o (InstanceReceiver self u)) o
| di_wrapper o t q r : described o = Descriptor t q -> dispatched (MethodWrapperCallable o r) o
| di_descriptor o t q : described o = Descriptor t q -> dispatched (DescriptorCallable o) o
| di_class o t : described o = TypeValue t -> dispatched (TypeCallable o) o
| di_partial c o a k : dispatched c o -> dispatched (PartialCallable c a k) o.
End Callables.

Section Places.
(** The indexing process: its objects and the modules it imports *)
Context {O : Type}.
Variables (h : heap O) (import_module : path -> option O) (modules : list path).
Variables (names : database) (limit : nat).
(** An object with the qualified path [q] is found at [c] there, and the stubs know a name [c]. *)
Definition place (q c : qualified_path) : Prop :=
  In (fst c) modules
  /\ (exists module v, import_module (fst c) = Some module /\ reaches h module (snd c) v /\ indexed h v q)
  /\ exists r, resolve_object_path names limit (fst c) [] (snd c) [] = Resolved r.

(** Where an object [o] of the process asked, with the qualified path [q], is looked for:
    at its places, as far as they are plausible; if it has none, under [q] itself *)
Definition looked_for {O'} (sys_modules : dict pystr O') (getattr : O' -> pystr -> option O') (o : O') (q c : qualified_path)
  : Prop :=
  (place q c /\ plausible sys_modules getattr o c) \/ ((forall c, ~ place q c) /\ fst q <> [] /\ c = q).
(** All these are names of [r]. *)
Definition lives_at {O'} (sys_modules : dict pystr O') (getattr : O' -> pystr -> option O') (o : O') (q r : qualified_path)
  : Prop :=
  (exists c, looked_for sys_modules getattr o q c)
  /\ forall c, looked_for sys_modules getattr o q c ->
       resolve_object_path names limit (fst c) [] (snd c) [] = Resolved r.
(** Some are names of [r], which comes first of all that they are names of. *)
Definition lives_first {O'} (sys_modules : dict pystr O') (getattr : O' -> pystr -> option O') (o : O') (q r : qualified_path)
  : Prop :=
  (exists c, looked_for sys_modules getattr o q c /\ resolve_object_path names limit (fst c) [] (snd c) [] = Resolved r)
  /\ forall c, looked_for sys_modules getattr o q c ->
       match resolve_object_path names limit (fst c) [] (snd c) [] with
       | Resolved r' => fst r' <> [] -> snd r' <> [] -> PySort.qualified_path_leb r r' = true
       | ObjectNotFound => True
       | Raises _ => False
       end.
(** Some of these are names of [r]. *)
Definition lives_among {O'} (sys_modules : dict pystr O') (getattr : O' -> pystr -> option O') (o : O') (q r : qualified_path)
  : Prop :=
  fst r <> [] /\ snd r <> []
  /\ exists c, looked_for sys_modules getattr o q c /\ resolve_object_path names limit (fst c) [] (snd c) [] = Resolved r.
(** All these can be looked up. *)
Definition all_looked_up {O'} (sys_modules : dict pystr O') (getattr : O' -> pystr -> option O') (o : O') (q : qualified_path) : Prop :=
  forall c e, looked_for sys_modules getattr o q c -> resolve_object_path names limit (fst c) [] (snd c) [] <> Raises e.
End Places.

(** Callables that are not bound to an instance or a class, and not classes *)
Inductive unbound {V O} : @callable V O -> Prop :=
| un_function o : unbound (FunctionCallable o)
| un_descriptor o : unbound (DescriptorCallable o)
| un_builtin o : unbound (BuiltinCallable o NoReceiver)
| un_builtin_of_module o : unbound (BuiltinCallable o ModuleReceiver).
