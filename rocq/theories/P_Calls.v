(** Property C93: which calls are accepted, all the way from the stub. *)
From Verif Require Import Base Models SpecCall Ast Scoping SpecScoping Stubs SpecStubs StubsProofs SpecializeProofs
  Signatures SpecSignatures Whole SpecWhole WholeProofs RecordsProofs P_Whole.
From Verif Require Evaluation SpecEvaluation P_Evaluation.

(** Functions: the calls one of the definitions accepts *)
Theorem C93_functions_partial :
  forall V O (H : Eqb O) is_NONE is_Ellipsis (Any Self TypeSelf : V) (py : Evaluation.python V)
         sys_modules getattr own table introspect is_type as_value
         source is_package condition printable limit fuel modules m st,
    parse_stubs_state source is_package condition printable (S limit) fuel modules = Ok st ->
    was_read source is_package condition fuel modules m -> m <> [] ->
    exists body says,
      described source is_package condition fuel modules m body says
      /\ forall (o : O) p fs value_of kind depth memory,
           functions_at says p fs ->
           (forall f, In f fs -> understood is_NONE py (S limit) (S depth) st memory value_of m (removelast p) f
              /\ Forall (other_decorator (signature_tables st) (S limit) m (removelast p)) (fd_decorators f)) ->
           p <> [] -> found_first (S limit) st sys_modules getattr table own o (m, p) -> is_type o = false ->
           In kind function_kinds ->
           exists s,
             from_callable is_NONE is_Ellipsis Any Self TypeSelf (evaluate_node py (S limit) (S depth) st memory)
               (signature_tables st) (S limit) sys_modules getattr own introspect is_type as_value table (kind o) = Ok s
             /\ forall args kwargs, (forall f, In f fs -> by_position f (dkeys kwargs)) ->
                  (all_set s args kwargs = true <-> exists f, In f fs /\ takes_call f (length args) (dkeys kwargs)).
Proof.
  intros V O H is_NONE is_Ellipsis Any Self TypeSelf py sys_modules getattr own table introspect is_type as_value
    source is_package condition printable limit fuel modules m st E R Nm.
  destruct (@C89_functions_partial V O H is_NONE is_Ellipsis Any Self TypeSelf py sys_modules getattr own table introspect is_type as_value
    source is_package condition printable limit fuel modules m st E R Nm) as (body & says & D & X).
  exists body, says. split; [exact D|]. clear D.
  intros o p fs value_of kind depth memory A U Np F T I.
  destruct (X o p fs value_of kind depth memory A U Np F T I) as (s & Es & Fs). exists s. split; [exact Es|].
  intros args kwargs B. apply (@overloads_calls V _ _ fs s args kwargs Fs).
  intros f q Hf Hq. eapply function_calls; [apply (U f Hf)|exact Hq|now apply B].
Qed.
Print Assumptions C93_functions_partial.

(** Methods: with an instance first; bound to one, the calls the other parameters accept *)
Theorem C93_methods_partial :
  forall V O (H : Eqb O) is_NONE is_Ellipsis (Any Self TypeSelf : V) (py : Evaluation.python V)
         sys_modules getattr own table introspect is_type as_value
         source is_package condition printable limit fuel modules m st,
    parse_stubs_state source is_package condition printable (S limit) fuel modules = Ok st ->
    was_read source is_package condition fuel modules m -> m <> [] ->
    exists body says,
      described source is_package condition fuel modules m body says
      /\ forall (u : O) p fs value_of depth memory,
           methods_at says p fs ->
           (forall f, In f fs -> understood is_NONE py (S limit) (S depth) st memory value_of m (removelast p) f /\ written (fd_args f) <> []
              /\ Forall (other_decorator (signature_tables st) (S limit) m (removelast p)) (fd_decorators f)) ->
           p <> [] -> found_first (S limit) st sys_modules getattr table own u (m, p) -> is_type u = false ->
           let result := from_callable is_NONE is_Ellipsis Any Self TypeSelf (evaluate_node py (S limit) (S depth) st memory)
               (signature_tables st) (S limit) sys_modules getattr own introspect is_type as_value table in
           (forall kind, In kind function_kinds -> exists s, result (kind u) = Ok s
              /\ forall args kwargs, (forall f, In f fs -> by_position f (dkeys kwargs)) ->
                  (all_set s args kwargs = true
                   <-> exists f, In f fs /\ exists self rest, args = self :: rest /\ takes_rest f (length rest) (dkeys kwargs)))
           /\ (forall o self kind, In kind (bound_kinds self u) -> exists s, result (kind o) = Ok s
                 /\ forall args kwargs, (forall f, In f fs -> by_position f (dkeys kwargs)) ->
                     (all_set s args kwargs = true <-> exists f, In f fs /\ takes_rest f (length args) (dkeys kwargs))).
Proof.
  intros V O H is_NONE is_Ellipsis Any Self TypeSelf py sys_modules getattr own table introspect is_type as_value
    source is_package condition printable limit fuel modules m st E R Nm.
  destruct (@C89_methods_partial V O H is_NONE is_Ellipsis Any Self TypeSelf py sys_modules getattr own table introspect is_type as_value
    source is_package condition printable limit fuel modules m st E R Nm) as (body & says & D & X).
  exists body, says. split; [exact D|]. clear D.
  intros u p fs value_of depth memory A U Np F T. destruct (X u p fs value_of depth memory A U Np F T) as [X1 X2]. clear X. split.
  - intros kind I. destruct (X1 kind I) as (s & Es & Fs). exists s. split; [exact Es|].
    intros args kwargs B. apply (@overloads_calls V _ _ fs s args kwargs Fs).
    intros f q Hf Hq. eapply method_calls; [apply (U f Hf)|exact Hq|now apply B].
  - intros o self kind I. destruct (X2 o self kind I) as (s & Es & Fs). exists s. split; [exact Es|].
    intros args kwargs B. apply (@overloads_calls V _ _ fs s args kwargs Fs).
    intros f q Hf Hq. eapply bound_calls; [apply (U f Hf)|exact Hq|now apply B].
Qed.
Print Assumptions C93_methods_partial.

(** Classes: the calls their initializers accept besides the instance *)
Theorem C93_classes_partial :
  forall V O (H : Eqb O) is_NONE is_Ellipsis (Any Self TypeSelf : V) (py : Evaluation.python V)
         sys_modules getattr own table introspect is_type as_value
         source is_package condition printable limit fuel modules m st,
    parse_stubs_state source is_package condition printable (S limit) fuel modules = Ok st ->
    was_read source is_package condition fuel modules m -> m <> [] ->
    exists body says,
      described source is_package condition fuel modules m body says
      /\ forall (o : O) p fs value_of depth memory,
           initializers_at says p fs ->
           (forall f, In f fs -> understood is_NONE py (S limit) (S depth) st memory value_of m p f /\ written (fd_args f) <> []) ->
           p <> [] -> found_at (S limit) st sys_modules getattr table own o (m, p) -> is_type o = true ->
           exists s,
             from_callable is_NONE is_Ellipsis Any Self TypeSelf (evaluate_node py (S limit) (S depth) st memory)
               (signature_tables st) (S limit) sys_modules getattr own introspect is_type as_value table (TypeCallable o) = Ok s
             /\ forall args kwargs, (forall f, In f fs -> by_position f (dkeys kwargs)) ->
                  (all_set s args kwargs = true <-> exists f, In f fs /\ takes_rest f (length args) (dkeys kwargs)).
Proof.
  intros V O H is_NONE is_Ellipsis Any Self TypeSelf py sys_modules getattr own table introspect is_type as_value
    source is_package condition printable limit fuel modules m st E R Nm.
  destruct (@C89_classes_partial V O H is_NONE is_Ellipsis Any Self TypeSelf py sys_modules getattr own table introspect is_type as_value
    source is_package condition printable limit fuel modules m st E R Nm) as (body & says & D & X).
  exists body, says. split; [exact D|]. clear D.
  intros o p fs value_of depth memory A U Np F T.
  destruct (X o p fs value_of depth memory A U Np F T) as (s & Es & Fs). exists s. split; [exact Es|].
  intros args kwargs B. apply (@overloads_calls V _ _ fs s args kwargs Fs).
  intros f q Hf Hq. eapply initializer_calls; [apply (U f Hf)|exact Hq|now apply B].
Qed.
Print Assumptions C93_classes_partial.

(** ... and without them, the calls their constructors accept besides the class *)
Theorem C93_constructors_partial :
  forall V O (H : Eqb O) is_NONE is_Ellipsis (Any Self TypeSelf : V) (py : Evaluation.python V)
         sys_modules getattr own table introspect is_type as_value
         source is_package condition printable limit fuel modules m st,
    parse_stubs_state source is_package condition printable (S limit) fuel modules = Ok st ->
    was_read source is_package condition fuel modules m -> m <> [] ->
    exists body says,
      described source is_package condition fuel modules m body says
      /\ forall (o : O) p fs value_of depth memory,
           constructors_at says p fs ->
           (forall f, In f fs -> understood is_NONE py (S limit) (S depth) st memory value_of m p f /\ written (fd_args f) <> []) ->
           p <> [] -> found_at (S limit) st sys_modules getattr table own o (m, p) -> is_type o = true ->
           exists s,
             from_callable is_NONE is_Ellipsis Any Self TypeSelf (evaluate_node py (S limit) (S depth) st memory)
               (signature_tables st) (S limit) sys_modules getattr own introspect is_type as_value table (TypeCallable o) = Ok s
             /\ forall args kwargs, (forall f, In f fs -> by_position f (dkeys kwargs)) ->
                  (all_set s args kwargs = true <-> exists f, In f fs /\ takes_rest f (length args) (dkeys kwargs)).
Proof.
  intros V O H is_NONE is_Ellipsis Any Self TypeSelf py sys_modules getattr own table introspect is_type as_value
    source is_package condition printable limit fuel modules m st E R Nm.
  destruct (@C89_constructors_partial V O H is_NONE is_Ellipsis Any Self TypeSelf py sys_modules getattr own table introspect is_type as_value
    source is_package condition printable limit fuel modules m st E R Nm) as (body & says & D & X).
  exists body, says. split; [exact D|]. clear D.
  intros o p fs value_of depth memory A U Np F T.
  destruct (X o p fs value_of depth memory A U Np F T) as (s & Es & Fs). exists s. split; [exact Es|].
  intros args kwargs B. apply (@overloads_calls V _ _ fs s args kwargs Fs).
  intros f q Hf Hq. eapply bound_calls; [apply (U f Hf)|exact Hq|now apply B].
Qed.
Print Assumptions C93_constructors_partial.

(** Methods of classes got from the class: the calls with one more argument than they
    take, for the class that is bound already *)
Theorem C93_class_methods_refuted :
  forall V O (H : Eqb O) is_NONE is_Ellipsis (Any Self TypeSelf : V) (py : Evaluation.python V)
         sys_modules getattr own table introspect is_type as_value
         source is_package condition printable limit fuel modules m st,
    parse_stubs_state source is_package condition printable (S limit) fuel modules = Ok st ->
    was_read source is_package condition fuel modules m -> m <> [] ->
    exists body says,
      described source is_package condition fuel modules m body says
      /\ forall (o : O) p fs value_of kind depth memory,
           members_at says p fs ->
           (forall f, In f fs -> understood is_NONE py (S limit) (S depth) st memory value_of m (removelast p) f /\ written (fd_args f) <> []
              /\ class_method (signature_tables st) (S limit) m (removelast p) f) ->
           p <> [] -> found_first (S limit) st sys_modules getattr table own o (m, p) -> is_type o = false ->
           In kind class_kinds ->
           exists s,
             from_callable is_NONE is_Ellipsis Any Self TypeSelf (evaluate_node py (S limit) (S depth) st memory)
               (signature_tables st) (S limit) sys_modules getattr own introspect is_type as_value table (kind o) = Ok s
             /\ forall args kwargs, (forall f, In f fs -> by_position f (dkeys kwargs)) ->
                  (all_set s args kwargs = true
                   <-> exists f, In f fs /\ exists extra rest, args = extra :: rest /\ takes_rest f (length rest) (dkeys kwargs)).
Proof.
  intros V O H is_NONE is_Ellipsis Any Self TypeSelf py sys_modules getattr own table introspect is_type as_value
    source is_package condition printable limit fuel modules m st E R Nm.
  destruct (@C89_class_methods_partial V O H is_NONE is_Ellipsis Any Self TypeSelf py sys_modules getattr own table introspect is_type as_value
    source is_package condition printable limit fuel modules m st E R Nm) as (body & says & D & X).
  exists body, says. split; [exact D|]. clear D.
  intros o p fs value_of kind depth memory A U Np F T I.
  destruct (X o p fs value_of kind depth memory A U Np F T (in_or_app _ _ _ (or_intror I))) as (s & Es & Fs). exists s. split; [exact Es|].
  intros args kwargs B. apply (@overloads_calls V _ _ fs s args kwargs Fs).
  intros f q Hf Hq. eapply method_calls; [apply (U f Hf)|exact Hq|now apply B].
Qed.
Print Assumptions C93_class_methods_refuted.

(** [@classmethod def k(cls, x: int) -> str] in the built-in class [C]: Python accepts [C.k(1)] and
    not [C.k(1, 2)]. *)
Import P_Evaluation.Samples P_Whole.Example.
Theorem C93_class_method_call_refuted :
  exists s, signature_of (BuiltinCallable ([$"m"], [$"C"; $"k"]) TypeReceiver) = Ok s
    /\ takes_rest k 1 [] /\ ~ takes_rest k 2 []
    /\ all_set s [VConstant (CInt 1)] [] = false /\ all_set s [VConstant (CInt 1); VConstant (CInt 2)] [] = true.
Proof.
  eexists. split; [vm_compute; reflexivity|]. split; [|split; [|split; vm_compute; reflexivity]].
  - eexists _, _. split; [reflexivity|]. split; [left; cbn; lia|]. split; [easy|].
    intros p [<-|[]] _. left. now left.
  - intros (w & ws & E & [L|(v & Hv & Kv)] & _); cbn in E; injection E as <- <-.
    + cbn in L. lia.
    + destruct Hv as [<-|[]]. discriminate Kv.
Qed.
Print Assumptions C93_class_method_call_refuted.
(** The same for the method [g] bound to an instance *)
Example C93_example :
  exists s, signature_of (MethodCallable ([$"m"], [$"C"; $"g"]) (InstanceReceiver (VConstant CNone) (Ok ([$"m"], [$"C"; $"g"])))) = Ok s
    /\ all_set s [VConstant (CInt 1)] [] = true /\ all_set s [VConstant (CInt 1); VConstant (CInt 2)] [] = false.
Proof. eexists. split; [vm_compute; reflexivity|]. split; vm_compute; reflexivity. Qed.
Example C93_example_overloads :
  exists s, signature_of (FunctionCallable ([$"m"], [$"f"])) = Ok s
    /\ all_set s [VConstant (CInt 1)] [($"y", VConstant (CInt 2))] = true /\ all_set s [] [] = false
    /\ by_position f1 [$"y"] /\ by_position f2 [$"y"] /\ ~ takes_call f1 1 [$"y"] /\ takes_call f2 1 [$"y"].
Proof.
  eexists. split; [vm_compute; reflexivity|]. split; [vm_compute; reflexivity|]. split; [vm_compute; reflexivity|].
  split; [|split; [|split]].
  - intros x [<-|[]] [E|[]]. discriminate E.
  - intros x [<-|[]] [E|[]]. discriminate E.
  - intros (_ & K & _). destruct (K $"y" (or_introl eq_refl)) as [(p & [<-|[]] & _ & E & _)|((p & [<-|[]] & E) & _)]; discriminate E.
  - split; [left; cbn; lia|]. split.
    + intros kw [<-|[]]. left. eexists. split; [right; left; reflexivity|]. split; [now right|]. split; [reflexivity|].
      cbn. intros [E|[]]. discriminate E.
    + intros p [<-|[<-|[]]] R; [|discriminate R]. left. now left.
Qed.
