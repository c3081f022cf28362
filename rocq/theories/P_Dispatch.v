(** Property C96: callables are looked for where they are found. *)
From Verif Require Import Base Models SpecCall Ast Catalog Scoping SpecScoping Stubs SpecStubs StubsProofs SpecializeProofs
  Signatures SpecSignatures Indexing SpecIndexing Whole SpecWhole WholeProofs RecordsProofs SpecDispatch DispatchProofs.
From Verif Require Evaluation SpecEvaluation P_Whole.

(** ** Where a callable is looked for *)
Theorem C96_places :
  forall O (E : Eqb O) h import_module modules fuel names limit table O' (sys_modules : dict pystr O') getattr v q c,
    @computed_table O E h import_module modules fuel names limit table ->
    (candidate sys_modules getattr table v q c
     <-> looked_for h import_module modules names limit sys_modules getattr v q c).
Proof. intros. now apply candidates with (1 := H). Qed.
Print Assumptions C96_places.

(** A callable that sits in the imported module, under a name the stubs know, is looked for
    there. *)
Theorem C96_found :
  forall O (h : heap O) import_module modules names limit O' (sys_modules : dict pystr O') getattr described v c
         module module' w r,
    In (fst c) modules ->
    import_module (fst c) = Some module -> reaches h module (snd c) w -> describe h w = described v ->
    qualified_path_from (described v) <> ([], []) ->
    dget (join $"." (fst c)) sys_modules = Some module' -> attribute getattr module' (snd c) v ->
    resolve_object_path names limit (fst c) [] (snd c) [] = Resolved r ->
    looked_for h import_module modules names limit sys_modules getattr v (qualified_path_from (described v)) c.
Proof.
  intros O h import_module modules names limit O' sys_modules getattr described v c module module' w r I M R D N S A X.
  left. split; [|right; eauto]. split; [exact I|]. split; [|eauto].
  exists module, w. split; [exact M|]. split; [exact R|]. split; [now rewrite D|].
  right. rewrite <- D in *. destruct (describe h w) as [[| | |] q|[|] q|t q|t|]; cbn in *; try congruence;
    try (intros Z; unfold path_from_string in Z; now apply CatalogProofs.split_on_nonempty in Z).
Qed.
Print Assumptions C96_found.

(** ** From the callable as Python describes it to the signature its stub gives *)
Theorem C96_functions_partial :
  forall V O (H : Eqb O) is_NONE is_Ellipsis (Any Self TypeSelf : V) (py : Evaluation.python V)
         sys_modules getattr described table introspect is_type as_value
         source is_package condition printable limit fuel modules m st
         O' (H' : Eqb O') (h : heap O') import_module depth' modules',
    parse_stubs_state source is_package condition printable (S limit) fuel modules = Ok st ->
    was_read source is_package condition fuel modules m -> m <> [] ->
    computed_table h import_module modules' depth' (db st) (S limit) table ->
    (forall o, is_type o = true <-> exists t, described o = TypeValue t) ->
    exists body says,
      SpecWhole.described source is_package condition fuel modules m body says
      /\ forall (o : O) p fs value_of c depth memory,
           functions_at says p fs ->
           (forall f, In f fs -> understood is_NONE py (S limit) (S depth) st memory value_of m (removelast p) f
              /\ Forall (other_decorator (signature_tables st) (S limit) m (removelast p)) (fd_decorators f)) ->
           p <> [] -> dispatched described c o -> unbound c ->
           lives_first h import_module modules' (db st) (S limit) sys_modules getattr o (qualified_path_from (described o)) (m, p) ->
           exists s,
             from_callable is_NONE is_Ellipsis Any Self TypeSelf (evaluate_node py (S limit) (S depth) st memory)
               (signature_tables st) (S limit) sys_modules getattr (fun o => qualified_path_from (described o)) introspect
               is_type as_value table c = Ok s
             /\ Forall2 (says_function is_Ellipsis Any value_of) fs (flatten_signature s).
Proof.
  intros V O H is_NONE is_Ellipsis Any Self TypeSelf py sys_modules getattr described table introspect is_type as_value
    source is_package condition printable limit fuel modules m st O' H' h import_module depth' modules' E R Nm T It.
  destruct (@P_Whole.C89_functions_partial V O H is_NONE is_Ellipsis Any Self TypeSelf py sys_modules getattr
    (fun o => qualified_path_from (described o)) table introspect is_type as_value source is_package condition printable
    limit fuel modules m st E R Nm) as (body & says & D & X).
  exists body, says. split; [exact D|]. clear D. intros o p fs value_of c depth memory A U Np Dc Uc L.
  pose proof (lives_found_first h import_module modules' depth' (db st) (S limit) table T st sys_modules getattr
    (fun o => qualified_path_from (described o)) o (m, p) eq_refl L) as F.
  assert (Nt : is_type o = false).
  { destruct (is_type o) eqn:Y; [|reflexivity]. apply It in Y as [t Y].
    destruct Dc as [? ? ? ? D|? ? ? D|? D|? ? ? D|? ? ? ? D|? ? ? D|? ? D|? ? ? ? D]; try congruence; inversion Uc. }
  destruct Uc as [o'|o'|o'|o']; inversion Dc; subst;
    [apply (X o p fs value_of FunctionCallable)|apply (X o p fs value_of DescriptorCallable)
    |apply (X o p fs value_of (fun o => BuiltinCallable o NoReceiver))
    |apply (X o p fs value_of (fun o => BuiltinCallable o ModuleReceiver))]; auto; cbn; auto.
Qed.
Print Assumptions C96_functions_partial.

(** Methods of instances, got from the class or from an instance *)
Theorem C96_methods_partial :
  forall V O (H : Eqb O) is_NONE is_Ellipsis (Any Self TypeSelf : V) (py : Evaluation.python V)
         sys_modules getattr described table introspect is_type as_value
         source is_package condition printable limit fuel modules m st
         O' (H' : Eqb O') (h : heap O') import_module depth' modules',
    parse_stubs_state source is_package condition printable (S limit) fuel modules = Ok st ->
    was_read source is_package condition fuel modules m -> m <> [] ->
    computed_table h import_module modules' depth' (db st) (S limit) table ->
    (forall o, is_type o = true <-> exists t, described o = TypeValue t) ->
    exists body says,
      SpecWhole.described source is_package condition fuel modules m body says
      /\ forall (u : O) p fs value_of depth memory,
           methods_at says p fs ->
           (forall f, In f fs -> understood is_NONE py (S limit) (S depth) st memory value_of m (removelast p) f /\ written (fd_args f) <> []
              /\ Forall (other_decorator (signature_tables st) (S limit) m (removelast p)) (fd_decorators f)) ->
           p <> [] -> (forall t, described u <> TypeValue t) ->
           lives_first h import_module modules' (db st) (S limit) sys_modules getattr u (qualified_path_from (described u)) (m, p) ->
           let result := from_callable is_NONE is_Ellipsis Any Self TypeSelf (evaluate_node py (S limit) (S depth) st memory)
               (signature_tables st) (S limit) sys_modules getattr (fun o => qualified_path_from (described o)) introspect
               is_type as_value table in
           (forall c, dispatched described c u -> unbound c -> exists s, result c = Ok s
              /\ Forall2 (says_method is_Ellipsis Any Self value_of) fs (flatten_signature s))
           /\ (forall o self kind, In kind (bound_kinds self u) -> exists s, result (kind o) = Ok s
                 /\ Forall2 (says_bound is_Ellipsis Any value_of) fs (flatten_signature s)).
Proof.
  intros V O H is_NONE is_Ellipsis Any Self TypeSelf py sys_modules getattr described table introspect is_type as_value
    source is_package condition printable limit fuel modules m st O' H' h import_module depth' modules' E R Nm T It.
  destruct (@P_Whole.C89_methods_partial V O H is_NONE is_Ellipsis Any Self TypeSelf py sys_modules getattr
    (fun o => qualified_path_from (described o)) table introspect is_type as_value source is_package condition printable
    limit fuel modules m st E R Nm) as (body & says & D & X).
  exists body, says. split; [exact D|]. clear D. intros u p fs value_of depth memory A U Np Nd L.
  pose proof (lives_found_first h import_module modules' depth' (db st) (S limit) table T st sys_modules getattr
    (fun o => qualified_path_from (described o)) u (m, p) eq_refl L) as F.
  assert (Nt : is_type u = false).
  { destruct (is_type u) eqn:Y; [|reflexivity]. apply It in Y as [t Y]. now apply Nd in Y. }
  destruct (X u p fs value_of depth memory A U Np F Nt) as [X1 X2]. split; [|exact X2].
  intros c Dc Uc. destruct Uc as [o'|o'|o'|o']; inversion Dc; subst;
    [apply (X1 FunctionCallable)|apply (X1 DescriptorCallable)|apply (X1 (fun o => BuiltinCallable o NoReceiver))
    |apply (X1 (fun o => BuiltinCallable o ModuleReceiver))]; cbn; auto.
Qed.
Print Assumptions C96_methods_partial.

(** Classes made by their own [__init__], or else [__new__] *)
Theorem C96_classes_partial :
  forall V O (H : Eqb O) is_NONE is_Ellipsis (Any Self TypeSelf : V) (py : Evaluation.python V)
         sys_modules getattr described table introspect is_type as_value
         source is_package condition printable limit fuel modules m st
         O' (H' : Eqb O') (h : heap O') import_module depth' modules',
    parse_stubs_state source is_package condition printable (S limit) fuel modules = Ok st ->
    was_read source is_package condition fuel modules m -> m <> [] ->
    computed_table h import_module modules' depth' (db st) (S limit) table ->
    (forall o, is_type o = true <-> exists t, described o = TypeValue t) ->
    exists body says,
      SpecWhole.described source is_package condition fuel modules m body says
      /\ forall (o : O) p fs value_of depth memory,
           (forall f, In f fs -> understood is_NONE py (S limit) (S depth) st memory value_of m p f /\ written (fd_args f) <> []) ->
           p <> [] -> dispatched described (TypeCallable (V := V) o) o ->
           lives_at h import_module modules' (db st) (S limit) sys_modules getattr o (qualified_path_from (described o)) (m, p) ->
           let result := from_callable is_NONE is_Ellipsis Any Self TypeSelf (evaluate_node py (S limit) (S depth) st memory)
               (signature_tables st) (S limit) sys_modules getattr (fun o => qualified_path_from (described o)) introspect
               is_type as_value table (TypeCallable o) in
           (initializers_at says p fs -> exists s, result = Ok s
              /\ Forall2 (says_initializer is_Ellipsis Any Self value_of) fs (flatten_signature s))
           /\ (constructors_at says p fs -> exists s, result = Ok s
                 /\ Forall2 (says_bound is_Ellipsis Any value_of) fs (flatten_signature s)).
Proof.
  intros V O H is_NONE is_Ellipsis Any Self TypeSelf py sys_modules getattr described table introspect is_type as_value
    source is_package condition printable limit fuel modules m st O' H' h import_module depth' modules' E R Nm T It.
  destruct (@described_content source is_package condition printable (S limit) fuel modules m st R E)
    as (body & says & Hd & T1 & T2 & _).
  exists body, says. split; [exact Hd|]. intros o p fs value_of depth memory U Np Dc L.
  pose proof (lives_found h import_module modules' depth' (db st) (S limit) table T st sys_modules getattr
    (fun o => qualified_path_from (described o)) o (m, p) eq_refl L) as F.
  assert (Yt : is_type o = true) by (apply It; inversion Dc; eauto).
  split; intros A; [eapply told_initializers|eapply told_constructors]; eauto. eapply stubs_records; eauto.
Qed.
Print Assumptions C96_classes_partial.

(** ** Methods of classes *)
(** Those of built-in classes are looked for like functions; they keep the parameter for
    the class (C27, C93). *)
Theorem C96_builtin_class_methods_partial :
  forall V O (H : Eqb O) is_NONE is_Ellipsis (Any Self TypeSelf : V) (py : Evaluation.python V)
         sys_modules getattr described table introspect is_type as_value
         source is_package condition printable limit fuel modules m st
         O' (H' : Eqb O') (h : heap O') import_module depth' modules',
    parse_stubs_state source is_package condition printable (S limit) fuel modules = Ok st ->
    was_read source is_package condition fuel modules m -> m <> [] ->
    computed_table h import_module modules' depth' (db st) (S limit) table ->
    (forall o, is_type o = true <-> exists t, described o = TypeValue t) ->
    exists body says,
      SpecWhole.described source is_package condition fuel modules m body says
      /\ forall (o : O) p fs value_of depth memory,
           members_at says p fs ->
           (forall f, In f fs -> understood is_NONE py (S limit) (S depth) st memory value_of m (removelast p) f /\ written (fd_args f) <> []
              /\ class_method (signature_tables st) (S limit) m (removelast p) f) ->
           p <> [] -> dispatched described (BuiltinCallable (V := V) o TypeReceiver) o ->
           lives_first h import_module modules' (db st) (S limit) sys_modules getattr o (qualified_path_from (described o)) (m, p) ->
           exists s,
             from_callable is_NONE is_Ellipsis Any Self TypeSelf (evaluate_node py (S limit) (S depth) st memory)
               (signature_tables st) (S limit) sys_modules getattr (fun o => qualified_path_from (described o)) introspect
               is_type as_value table (BuiltinCallable o TypeReceiver) = Ok s
             /\ Forall2 (says_method is_Ellipsis Any TypeSelf value_of) fs (flatten_signature s).
Proof.
  intros V O H is_NONE is_Ellipsis Any Self TypeSelf py sys_modules getattr described table introspect is_type as_value
    source is_package condition printable limit fuel modules m st O' H' h import_module depth' modules' E R Nm T It.
  destruct (@P_Whole.C89_class_methods_partial V O H is_NONE is_Ellipsis Any Self TypeSelf py sys_modules getattr
    (fun o => qualified_path_from (described o)) table introspect is_type as_value source is_package condition printable
    limit fuel modules m st E R Nm) as (body & says & D & X).
  exists body, says. split; [exact D|]. clear D. intros o p fs value_of depth memory A U Np Dc L.
  pose proof (lives_found_first h import_module modules' depth' (db st) (S limit) table T st sys_modules getattr
    (fun o => qualified_path_from (described o)) o (m, p) eq_refl L) as F.
  assert (Nt : is_type o = false).
  { destruct (is_type o) eqn:Y; [|reflexivity]. apply It in Y as [t Y]. inversion Dc; congruence. }
  apply (X o p fs value_of (fun o => BuiltinCallable o TypeReceiver)); auto. apply in_or_app. right. now left.
Qed.
Print Assumptions C96_builtin_class_methods_partial.

(** Those of classes written in Python are looked for nowhere: their signatures are
    introspected, whatever the stubs say. *)
Theorem C96_class_methods_refuted :
  forall V O (H : Eqb O) is_NONE is_Ellipsis (Any Self TypeSelf : V) evaluate stubs limit
         sys_modules getattr described table introspect is_type as_value
         O' (H' : Eqb O') (h : heap O') import_module depth' modules' (o : O),
    computed_table h import_module modules' depth' (database_of stubs) limit table ->
    dispatched described (MethodCallable (V := V) o TypeReceiver) o ->
    from_callable is_NONE is_Ellipsis Any Self TypeSelf evaluate stubs limit sys_modules getattr
      (fun o => qualified_path_from (described o)) introspect is_type as_value table (MethodCallable o TypeReceiver)
    = let* raw := introspect o in from_raw_signature is_NONE Any raw.
Proof.
  intros V O H is_NONE is_Ellipsis Any Self TypeSelf evaluate stubs limit sys_modules getattr described table introspect is_type
    as_value O' H' h import_module depth' modules' o T Dc.
  assert (D : described o = OtherValue) by (inversion Dc; congruence).
  cbn [from_callable]. unfold from_stub_callable, to_qualified_paths, resolve_qualified_paths. rewrite D. cbn [qualified_path_from].
  assert (N : listed table ([], []) = None).
  { apply (listed_none h import_module modules' depth' _ limit table T). intros c. now apply nameless. }
  unfold listed in N. cbn [fst snd] in N. unfold index, dict in *. rewrite N. reflexivity.
Qed.
Print Assumptions C96_class_methods_refuted.

(** ** An example: the module of C89, imported *)
Module World.
Import P_Evaluation.Samples P_Whole.Example.
Definition C := mk_type $"m" $"C".
(** The module, its function [f], its class [C], the [classmethod] [k] there, and [C.k] *)
Definition objects : list Catalog.value :=
  [OtherValue; PythonFunction (Some $"m") $"f"; TypeValue C; OtherValue; OtherValue; PythonFunction (Some $"m") $"C.g"].
Definition described_ (o : nat) : Catalog.value := nth o objects OtherValue.
Definition h : heap nat := mk_heap nat described_
  (fun o => match o with 0 => [($"f", 1); ($"C", 2); ($"other_name", 1)] | 2 => [($"k", 3); ($"g", 5)] | _ => [] end).
Definition attribute_ (o : nat) (n : pystr) : option nat := dget n (members h o ++ match o with 2 => [($"k", 4)] | _ => [] end).
Definition import_module (m : path) : option nat := if m == [$"m"] then Some 0 else None.
Definition table : index := [([$"m"], [([$"f"], [([$"m"], [$"f"])]); ([$"C"], [([$"m"], [$"C"])]); ([$"C"; $"g"], [([$"m"], [$"C"; $"g"])])])].
(** [inspect] knows no annotations. *)
Definition introspected : raw_signature value := mk_raw_signature [mk_raw $"x" 1 None None] None.
Definition signature_of (c : @callable value nat) : res (signature value) :=
  from_callable (fun _ => false) (fun v => match v with VConstant CEllipsis => true | _ => false end)
    (VOperation []) (VModule $"Self") (VModule $"TypeSelf") (evaluate_node py 50 20 st empty)
    (signature_tables st) 50 [($"m", 0)] attribute_ (fun o => qualified_path_from (described_ o)) (fun _ => Ok introspected)
    (fun o => match described_ o with TypeValue _ => true | _ => false end) (fun _ => VConstant CNone) table c.
End World.
Import P_Evaluation.Samples P_Whole.Example World.
Example C96_example_table : computed_table h import_module [[$"m"]] 10 (db st) 50 table.
Proof. eexists. split; [vm_compute; reflexivity|]. vm_compute. reflexivity. Qed.
Example C96_example_function :
  dispatched described_ (FunctionCallable (V := value) 1) 1
  /\ lives_first h import_module [[$"m"]] (db st) 50 [($"m", 0)] attribute_ 1 (qualified_path_from (described_ 1)) ([$"m"], [$"f"])
  /\ World.signature_of (FunctionCallable 1) = P_Whole.Example.signature_of (FunctionCallable ([$"m"], [$"f"]))
  /\ World.signature_of (FunctionCallable 5) = P_Whole.Example.signature_of (FunctionCallable ([$"m"], [$"C"; $"g"])).
Proof.
  split; [econstructor; reflexivity|]. split; [|split; vm_compute; reflexivity]. split.
  - exists ([$"m"], [$"f"]). split; [|vm_compute; reflexivity]. apply (C96_places _ _ _ _ _ _ _ _ _ _ _ _ _ _ _ C96_example_table).
    eapply ca_listed; [reflexivity|now left|]. right. exists 0. split; [reflexivity|].
    econstructor; [reflexivity|constructor].
  - intros c L. apply (C96_places _ _ _ _ _ _ _ _ _ _ _ _ _ _ _ C96_example_table) in L.
    assert (X : c = ([$"m"], [$"f"])).
    { destruct L as [cs c' X Y _|X _]; [|discriminate X]. injection X as <-. now destruct Y as [<-|[]]. }
    rewrite X. vm_compute. auto.
Qed.
(** [C.k] is described in the stub of [m] as [(cls, x: int) -> str]; got from the class it
    is [(x)], as introspected. *)
Example C96_example_class_method :
  World.signature_of (MethodCallable 4 TypeReceiver) = from_raw_signature (fun _ => false) (VOperation []) introspected
  /\ World.signature_of (MethodCallable 4 TypeReceiver)
     = Ok (Plain (mk_plain [RequiredParameter (VOperation []) POSITIONAL_OR_KEYWORD $"x"] (VOperation [])))
  /\ nodes_of_object st [$"m"] [$"C"; $"k"] = [SFunctionDef k].
Proof. vm_compute. auto. Qed.
