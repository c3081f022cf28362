(** Property C89: signatures all the way from the stub. *)
From Verif Require Import Base Models SpecCall Ast Scoping SpecScoping Stubs SpecStubs StubsProofs SpecializeProofs
  Signatures SpecSignatures Whole SpecWhole WholeProofs RecordsProofs.
From Verif Require Evaluation SpecEvaluation.

(** ** Functions, methods and classes, of any module that was read *)
(** For all modules the parser is asked to read *)
Theorem C89_read :
  forall source is_package condition printable limit fuel modules st m,
    parse_stubs_state source is_package condition printable limit fuel modules = Ok st -> In m modules ->
    was_read source is_package condition fuel modules m.
Proof. exact @read_modules. Qed.
Print Assumptions C89_read.
Theorem C89_functions_partial :
  forall V O (H : Eqb O) is_NONE is_Ellipsis (Any Self TypeSelf : V) (py : Evaluation.python V)
         sys_modules getattr own table introspect is_type as_value
         source is_package condition printable limit fuel modules m st,
    parse_stubs_state source is_package condition printable (S limit) fuel modules = Ok st ->
    was_read source is_package condition fuel modules m -> m <> [] ->
    exists body says,
      described source is_package condition fuel modules m body says
      /\ forall (o : O) p fs value_of kind depth memory,
           (* what the stub says about [p] *)
           functions_at says p fs ->
           (forall f, In f fs -> understood is_NONE py (S limit) (S depth) st memory value_of m (removelast p) f
              /\ Forall (other_decorator (signature_tables st) (S limit) m (removelast p)) (fd_decorators f)) ->
           (* the callable is described there *)
           p <> [] -> found_first (S limit) st sys_modules getattr table own o (m, p) -> is_type o = false ->
           In kind function_kinds ->
           exists s,
             from_callable is_NONE is_Ellipsis Any Self TypeSelf (evaluate_node py (S limit) (S depth) st memory)
               (signature_tables st) (S limit) sys_modules getattr own introspect is_type as_value table (kind o) = Ok s
             /\ Forall2 (says_function is_Ellipsis Any value_of) fs (flatten_signature s).
Proof.
  intros V O H is_NONE is_Ellipsis Any Self TypeSelf py sys_modules getattr own table introspect is_type as_value
    source is_package condition printable limit fuel modules m st E R Nm.
  destruct (@described_content source is_package condition printable (S limit) fuel modules m st R E)
    as (body & says & Hd & T1 & T2 & _).
  exists body, says. split; [exact Hd|]. intros.
  eapply told_functions; eauto.
Qed.
Print Assumptions C89_functions_partial.

(** Methods take the instance first; bound to it, they take the rest. *)
Theorem C89_methods_partial :
  forall V O (H : Eqb O) is_NONE is_Ellipsis (Any Self TypeSelf : V) (py : Evaluation.python V)
         sys_modules getattr own table introspect is_type as_value
         source is_package condition printable limit fuel modules m st,
    parse_stubs_state source is_package condition printable (S limit) fuel modules = Ok st ->
    was_read source is_package condition fuel modules m -> m <> [] ->
    exists body says,
      described source is_package condition fuel modules m body says
      /\ forall (u : O) p fs value_of depth memory,
           methods_at says p fs ->
           (forall f, In f fs -> understood is_NONE py (S limit) (S depth) st memory value_of m (removelast p) f /\ written (fd_args f) <> []
              /\ Forall (other_decorator (signature_tables st) (S limit) m (removelast p)) (fd_decorators f)) ->
           p <> [] -> found_first (S limit) st sys_modules getattr table own u (m, p) -> is_type u = false ->
           let result := from_callable is_NONE is_Ellipsis Any Self TypeSelf (evaluate_node py (S limit) (S depth) st memory)
               (signature_tables st) (S limit) sys_modules getattr own introspect is_type as_value table in
           (forall kind, In kind function_kinds -> exists s, result (kind u) = Ok s
              /\ Forall2 (says_method is_Ellipsis Any Self value_of) fs (flatten_signature s))
           /\ (forall o self kind, In kind (bound_kinds self u) -> exists s, result (kind o) = Ok s
                 /\ Forall2 (says_bound is_Ellipsis Any value_of) fs (flatten_signature s)).
Proof.
  intros V O H is_NONE is_Ellipsis Any Self TypeSelf py sys_modules getattr own table introspect is_type as_value
    source is_package condition printable limit fuel modules m st E R Nm.
  destruct (@described_content source is_package condition printable (S limit) fuel modules m st R E)
    as (body & says & Hd & T1 & T2 & _).
  exists body, says. split; [exact Hd|]. intros.
  eapply told_methods; eauto.
Qed.
Print Assumptions C89_methods_partial.

(** Methods of classes take the class first, also when they are got from the class (see C93). *)
Theorem C89_class_methods_partial :
  forall V O (H : Eqb O) is_NONE is_Ellipsis (Any Self TypeSelf : V) (py : Evaluation.python V)
         sys_modules getattr own table introspect is_type as_value
         source is_package condition printable limit fuel modules m st,
    parse_stubs_state source is_package condition printable (S limit) fuel modules = Ok st ->
    was_read source is_package condition fuel modules m -> m <> [] ->
    exists body says,
      described source is_package condition fuel modules m body says
      /\ forall (o : O) p fs value_of kind depth memory,
           members_at says p fs ->
           (forall f, In f fs -> understood is_NONE py (S limit) (S depth) st memory value_of m (removelast p) f /\ written (fd_args f) <> []
              /\ class_method (signature_tables st) (S limit) m (removelast p) f) ->
           p <> [] -> found_first (S limit) st sys_modules getattr table own o (m, p) -> is_type o = false ->
           In kind (function_kinds ++ class_kinds) ->
           exists s,
             from_callable is_NONE is_Ellipsis Any Self TypeSelf (evaluate_node py (S limit) (S depth) st memory)
               (signature_tables st) (S limit) sys_modules getattr own introspect is_type as_value table (kind o) = Ok s
             /\ Forall2 (says_method is_Ellipsis Any TypeSelf value_of) fs (flatten_signature s).
Proof.
  intros V O H is_NONE is_Ellipsis Any Self TypeSelf py sys_modules getattr own table introspect is_type as_value
    source is_package condition printable limit fuel modules m st E R Nm.
  destruct (@described_content source is_package condition printable (S limit) fuel modules m st R E)
    as (body & says & Hd & T1 & T2 & _).
  exists body, says. split; [exact Hd|]. intros.
  eapply told_class_methods; eauto.
Qed.
Print Assumptions C89_class_methods_partial.

(** Classes are called like their initializers, if they define them, and give instances. *)
Theorem C89_classes_partial :
  forall V O (H : Eqb O) is_NONE is_Ellipsis (Any Self TypeSelf : V) (py : Evaluation.python V)
         sys_modules getattr own table introspect is_type as_value
         source is_package condition printable limit fuel modules m st,
    parse_stubs_state source is_package condition printable (S limit) fuel modules = Ok st ->
    was_read source is_package condition fuel modules m -> m <> [] ->
    exists body says,
      described source is_package condition fuel modules m body says
      /\ forall (o : O) p fs value_of depth memory,
           initializers_at says p fs ->
           (forall f, In f fs -> understood is_NONE py (S limit) (S depth) st memory value_of m p f /\ written (fd_args f) <> []) ->
           p <> [] -> found_at (S limit) st sys_modules getattr table own o (m, p) -> is_type o = true ->
           exists s,
             from_callable is_NONE is_Ellipsis Any Self TypeSelf (evaluate_node py (S limit) (S depth) st memory)
               (signature_tables st) (S limit) sys_modules getattr own introspect is_type as_value table (TypeCallable o) = Ok s
             /\ Forall2 (says_initializer is_Ellipsis Any Self value_of) fs (flatten_signature s).
Proof.
  intros V O H is_NONE is_Ellipsis Any Self TypeSelf py sys_modules getattr own table introspect is_type as_value
    source is_package condition printable limit fuel modules m st E R Nm.
  destruct (@described_content source is_package condition printable (S limit) fuel modules m st R E)
    as (body & says & Hd & T1 & T2 & _).
  exists body, says. split; [exact Hd|]. intros.
  eapply told_initializers; eauto.
Qed.
Print Assumptions C89_classes_partial.

(** Those that define [__new__] only are called like it. *)
Theorem C89_constructors_partial :
  forall V O (H : Eqb O) is_NONE is_Ellipsis (Any Self TypeSelf : V) (py : Evaluation.python V)
         sys_modules getattr own table introspect is_type as_value
         source is_package condition printable limit fuel modules m st,
    parse_stubs_state source is_package condition printable (S limit) fuel modules = Ok st ->
    was_read source is_package condition fuel modules m -> m <> [] ->
    exists body says,
      described source is_package condition fuel modules m body says
      /\ forall (o : O) p fs value_of depth memory,
           constructors_at says p fs ->
           (forall f, In f fs -> understood is_NONE py (S limit) (S depth) st memory value_of m p f /\ written (fd_args f) <> []) ->
           p <> [] -> found_at (S limit) st sys_modules getattr table own o (m, p) -> is_type o = true ->
           exists s,
             from_callable is_NONE is_Ellipsis Any Self TypeSelf (evaluate_node py (S limit) (S depth) st memory)
               (signature_tables st) (S limit) sys_modules getattr own introspect is_type as_value table (TypeCallable o) = Ok s
             /\ Forall2 (says_bound is_Ellipsis Any value_of) fs (flatten_signature s).
Proof.
  intros V O H is_NONE is_Ellipsis Any Self TypeSelf py sys_modules getattr own table introspect is_type as_value
    source is_package condition printable limit fuel modules m st E R Nm.
  destruct (@described_content source is_package condition printable (S limit) fuel modules m st R E)
    as (body & says & Hd & T1 & T2 & _).
  exists body, says. split; [exact Hd|]. intros.
  eapply told_constructors; eauto. eapply stubs_records; eauto.
Qed.
Print Assumptions C89_constructors_partial.

(** ** A module with nothing but functions: what each is called with *)
Lemma functions_say m package condition finds type_variable arguments defs : forall before says,
  all_say m package condition finds type_variable arguments before [] (map SFunctionDef defs) says ->
  says = map (fun f => Defines [fd_name f] FUNCTION (SFunctionDef f)) defs.
Proof.
  induction defs as [|f defs IH]; intros before says A; cbn [map] in *.
  - now inversion A.
  - inversion A as [|? ? ? ? fs fs' S A']; subst. inversion S; subst. cbn. f_equal. eapply IH. exact A'.
Qed.
Lemma functions_uncut m package condition finds type_variable arguments defs : forall before says,
  ~ all_cut m package condition finds type_variable arguments before [] (map SFunctionDef defs) says.
Proof.
  induction defs as [|f defs IH]; intros before says A; cbn [map] in A.
  - inversion A.
  - inversion A as [? ? ? ? ? C|? ? ? ? fs fs' S A']; subst; [inversion C|]. eapply IH. exact A'.
Qed.
Lemma functions_nodes n defs :
  nodes_in [n] (map (fun f => Defines [fd_name f] FUNCTION (SFunctionDef f)) defs) = map SFunctionDef (named_n n defs).
Proof.
  unfold nodes_in, named_n. induction defs as [|f defs IH]; [reflexivity|]. cbn [map flat_map filter]. rewrite IH.
  replace (([fd_name f] : path) == [n]) with (fd_name f == n).
  - destruct (fd_name f == n); reflexivity.
  - destruct (fd_name f == n) eqn:X.
    + apply eqb_to_eq in X. rewrite X. symmetry. apply eqb_refl.
    + symmetry. apply eqb_neq. intros Y. inversion Y as [Z]. rewrite Z, eqb_refl in X. discriminate.
Qed.
Lemma functions_kind p defs :
  kind_in p (map (fun f => Defines [fd_name f] FUNCTION (SFunctionDef f)) defs)
  = if existsb (fun f => ([fd_name f] : path) == p) defs then Some FUNCTION else None.
Proof.
  unfold kind_in. induction defs as [|f defs IH] using rev_ind; [reflexivity|].
  rewrite map_app, fold_left_app, IH, existsb_app. cbn [map fold_left kind_step existsb].
  destruct (([fd_name f] : path) == p); [now rewrite orb_true_r|]. now rewrite !orb_false_r.
Qed.

Theorem C89_module_of_functions_partial :
  forall V O (H : Eqb O) is_NONE is_Ellipsis (Any Self TypeSelf : V) (py : Evaluation.python V)
         sys_modules getattr own table introspect is_type as_value
         source is_package condition printable limit fuel modules m st defs,
    parse_stubs_state source is_package condition printable (S limit) fuel modules = Ok st ->
    was_read source is_package condition fuel modules m -> m <> [] ->
    source m = Some (map SFunctionDef defs) ->
    forall (o : O) n value_of kind depth memory,
      named_n n defs <> [] ->
      (forall f, In f defs -> fd_name f = n -> understood is_NONE py (S limit) (S depth) st memory value_of m [] f
         /\ Forall (other_decorator (signature_tables st) (S limit) m []) (fd_decorators f)) ->
      found_first (S limit) st sys_modules getattr table own o (m, [n]) -> is_type o = false -> In kind function_kinds ->
      exists s,
        from_callable is_NONE is_Ellipsis Any Self TypeSelf (evaluate_node py (S limit) (S depth) st memory)
          (signature_tables st) (S limit) sys_modules getattr own introspect is_type as_value table (kind o) = Ok s
        /\ Forall2 (says_function is_Ellipsis Any value_of) (named_n n defs) (flatten_signature s).
Proof.
  intros V O H is_NONE is_Ellipsis Any Self TypeSelf py sys_modules getattr own table introspect is_type as_value
    source is_package condition printable limit fuel modules m st defs E R Nm Hs o n value_of kind depth memory Nn U F T I.
  destruct (@C89_functions_partial V O H is_NONE is_Ellipsis Any Self TypeSelf py sys_modules getattr own table introspect
      is_type as_value source is_package condition printable limit fuel modules m st E R Nm)
    as (body & says & (Hb & parsed & _ & (fuel' & [Hm|Hm]) & _) & X); rewrite Hs in Hb; injection Hb as <-.
  2:{ now apply functions_uncut in Hm. }
  apply functions_say in Hm. subst says.
  assert (Ex : exists f, In f defs /\ fd_name f = n).
  { destruct (named_n n defs) as [|f l] eqn:Y; [tauto|]. assert (In f (named_n n defs)) by (rewrite Y; now left).
    apply filter_In in H0 as [H1 H2]. exists f. split; [exact H1|]. now apply eqb_to_eq in H2. }
  apply (X o [n] (named_n n defs) value_of kind depth memory); auto; try discriminate.
  - split; [split; [|split]|].
    + exists FUNCTION. split; [|discriminate]. rewrite functions_kind. destruct Ex as (f & Hf & Ef).
      replace (existsb _ defs) with true; [reflexivity|]. symmetry. apply existsb_exists. exists f. split; [exact Hf|].
      rewrite Ef. apply eqb_refl.
    + rewrite functions_nodes. clear. induction (named_n n defs); constructor; auto. now left.
    + exact Nn.
    + cbn [removelast]. rewrite functions_kind. destruct (existsb _ defs); discriminate.
  - intros f Hf. apply filter_In in Hf as [H1 H2]. apply eqb_to_eq in H2. now apply U.
Qed.
Print Assumptions C89_module_of_functions_partial.

(** ** An example, from the stub to the signatures *)
From Verif Require P_Evaluation.
Module Example.
Import P_Evaluation.Samples.
Definition arg_ (name : pystr) (annotation : pystr) : arg := mk_arg name (Some (Name annotation)).
Definition self_ : arg := mk_arg $"self" None.
(** [def f(x: int) -> str] and [def f(x: str, *, y: int = ...) -> int] *)
Definition f1 := mk_function_def $"f" (mk_arguments [] [arg_ $"x" $"int"] None [] [] None []) [] (Some (Name $"str")).
Definition f2 := mk_function_def $"f"
  (mk_arguments [] [arg_ $"x" $"str"] None [arg_ $"y" $"int"] [Some (Constant CEllipsis)] None []) [] (Some (Name $"int")).
(** [class C: def __init__(self, x: int)] and [def g(self, x: int) -> str] *)
Definition init := mk_function_def $"__init__" (mk_arguments [] [self_; arg_ $"x" $"int"] None [] [] None []) [] None.
Definition g := mk_function_def $"g" (mk_arguments [] [self_; arg_ $"x" $"int"] None [] [] None []) [] (Some (Name $"str")).
(** [@classmethod def k(cls, x: int) -> str], and [class D: def __new__(cls, x: int) -> int] *)
Definition k := mk_function_def $"k" (mk_arguments [] [mk_arg $"cls" None; arg_ $"x" $"int"] None [] [] None [])
  [Name $"classmethod"] (Some (Name $"str")).
Definition new := mk_function_def $"__new__" (mk_arguments [] [mk_arg $"cls" None; arg_ $"x" $"int"] None [] [] None []) []
  (Some (Name $"int")).
Definition modules := [(fst builtins, snd builtins ++ [SClassDef $"classmethod" [] []]);
  ([$"m"], [SFunctionDef f1; SFunctionDef f2; SClassDef $"C" [] [SFunctionDef init; SFunctionDef g; SFunctionDef k];
            SClassDef $"D" [] [SFunctionDef new]])].
Definition parsed : res state :=
  parse_stubs_state (source modules) (fun _ => false) (fun _ _ => Ok true) (fun _ => true) 50 20 [[$"m"]].
Definition st : state := match parsed with Ok st => st | Err _ => empty_state end.
(** Objects are known by their qualified paths. *)
Definition signature_of (c : @callable value qualified_path) : res (signature value) :=
  let* st := parsed in
  from_callable (fun _ => false) (fun v => match v with VConstant CEllipsis => true | _ => false end)
    (VOperation []) (VModule $"Self") (VModule $"TypeSelf") (evaluate_node py 50 20 st empty)
    (signature_tables st) 50 [] (fun _ _ => None) (fun q => q) (fun _ => Err ValueError)
    (fun q => mem q [([$"m"], [$"C"]); ([$"m"], [$"D"])]) VObject [] c.
Definition named_ (n : pystr) := VObject ([$"builtins"], [n]).
End Example.
Import P_Evaluation.Samples Example.
Example C89_example_function :
  signature_of (FunctionCallable ([$"m"], [$"f"]))
  = Ok (Overloaded
     [mk_plain [RequiredParameter (named_ $"int") POSITIONAL_ONLY $"x"] (named_ $"str");
      mk_plain [RequiredParameter (named_ $"str") POSITIONAL_ONLY $"x";
                OptionalParameter (named_ $"int") None KEYWORD_ONLY $"y"] (named_ $"int")]).
Proof. vm_compute. reflexivity. Qed.
Example C89_example_method :
  signature_of (FunctionCallable ([$"m"], [$"C"; $"g"]))
  = Ok (Plain (mk_plain [RequiredParameter (VModule $"Self") POSITIONAL_ONLY $"self";
                         RequiredParameter (named_ $"int") POSITIONAL_ONLY $"x"] (named_ $"str")))
  /\ forall self, signature_of (MethodCallable ([$"m"], [$"C"; $"g"]) (InstanceReceiver self (Ok ([$"m"], [$"C"; $"g"]))))
     = Ok (Plain (mk_plain [RequiredParameter (named_ $"int") POSITIONAL_ONLY $"x"] (named_ $"str"))).
Proof. split; [|intros self]; vm_compute; reflexivity. Qed.
Example C89_example_class :
  signature_of (TypeCallable ([$"m"], [$"C"]))
  = Ok (Plain (mk_plain [RequiredParameter (named_ $"int") POSITIONAL_ONLY $"x"] (VModule $"Self"))).
Proof. vm_compute. reflexivity. Qed.
Example C89_example_constructor :
  signature_of (TypeCallable ([$"m"], [$"D"]))
  = Ok (Plain (mk_plain [RequiredParameter (named_ $"int") POSITIONAL_ONLY $"x"] (named_ $"int"))).
Proof. vm_compute. reflexivity. Qed.
Example C89_example_class_method :
  signature_of (BuiltinCallable ([$"m"], [$"C"; $"k"]) TypeReceiver)
  = Ok (Plain (mk_plain [RequiredParameter (VModule $"TypeSelf") POSITIONAL_ONLY $"cls";
                         RequiredParameter (named_ $"int") POSITIONAL_ONLY $"x"] (named_ $"str"))).
Proof. vm_compute. reflexivity. Qed.
(** All hypotheses of [C89_functions_partial] hold for [f]. *)
Lemma resolve_tables limit st : Evaluation.resolve (evaluator_tables limit st) = resolve_from (db st) limit.
Proof. reflexivity. Qed.
Lemma known_name limit fuel st c n : resolve_from (db st) limit [$"m"] [] [n] = Ok ([$"builtins"], [n]) ->
  known py limit (S fuel) st c [$"m"] [] (Name n) (named_ n).
Proof.
  rewrite <- resolve_tables. intros E. exists [], 0, (dkeys (Evaluation.aliases c)). split; [auto with arith|]. split.
  - intros q w d v D N. destruct N. apply dget_Some_In in D. now apply (in_map fst) in D.
  - constructor. exists ([$"builtins"], [n]). split; [exact E|left; reflexivity].
Qed.
Lemma known_int : known py 50 20 st empty [$"m"] [] (Name $"int") (named_ $"int").
Proof. apply known_name. vm_compute. reflexivity. Qed.
Lemma known_str : known py 50 20 st empty [$"m"] [] (Name $"str") (named_ $"str").
Proof. apply known_name. vm_compute. reflexivity. Qed.
Lemma known_ellipsis : known py 50 20 st empty [$"m"] [] (Constant CEllipsis) (VConstant CEllipsis).
Proof.
  exists [], 0, []. split; [auto with arith|]. split; [intros ? ? ? ? D; discriminate|]. apply (SpecEvaluation.means_constant py _ CEllipsis).
Qed.
Example C89_example_hypotheses :
  parsed = Ok st
  /\ was_read (source modules) (fun _ => false) (fun _ _ => Ok true) 20 [[$"m"]] [$"m"]
  /\ read_in_turn (source modules) (fun _ => false) (fun _ _ => Ok true) 20 [[$"m"]] [$"m"]
  /\ (forall f, In f [f1; f2] ->
        understood (fun _ => false) py 50 20 st empty (fun e => match e with Name n => named_ n | _ => VConstant CEllipsis end) [$"m"] [] f)
  /\ found_at 50 st [] (fun _ _ => None) [] (fun q => q) ([$"m"], [$"f"]) ([$"m"], [$"f"])
  /\ found_first 50 st [] (fun _ _ => None) [([$"m"], [([$"f"], [([$"m"], [$"f"]); ([$"m"], [$"C"; $"g"])])])] (fun q => q)
       ([$"m"], [$"f"]) ([$"m"], [$"C"; $"g"]).
Proof.
  split; [vm_compute; reflexivity|]. split.
  { eexists. split; [vm_compute; reflexivity|]. cbn. auto. }
  split.
  { eexists [_], [], _, _. split; [reflexivity|]. split; [vm_compute; reflexivity|]. cbn. intuition discriminate. }
  split.
  - intros f [<-|[<-|[]]].
    + split; [split; [cbn; lia|]; split; [reflexivity|]; repeat constructor; easy|]. split; [reflexivity|]. split; intros e He.
      * destruct He as [He|(w & [<-|[]] & He)]; cbn in He; injection He as <-; [apply known_str | apply known_int].
      * destruct He as (w & [<-|[]] & He); discriminate.
    + split; [split; [cbn; lia|]; split; [reflexivity|]; constructor; [cbn; intuition discriminate|]; constructor; [easy|constructor]|].
      split; [reflexivity|]. split; intros e He.
      * destruct He as [He|(w & [<-|[<-|[]]] & He)]; cbn in He; injection He as <-; [apply known_int | apply known_str | apply known_int].
      * destruct He as (w & [<-|[<-|[]]] & He); cbn in He; [discriminate|]. injection He as <-. split; [apply known_ellipsis | reflexivity].
  - split; split.
    + exists ([$"m"], [$"f"]). apply ca_itself; [reflexivity|discriminate].
    + intros c C. inversion C; [discriminate|]. vm_compute. reflexivity.
    + exists ([$"m"], [$"C"; $"g"]). split; [|vm_compute; reflexivity].
      eapply ca_listed; [reflexivity|cbn; auto|]. left. reflexivity.
    + intros c C. assert (X : c = ([$"m"], [$"f"]) \/ c = ([$"m"], [$"C"; $"g"])).
      { destruct C as [cs c' L I _|L _]; [|discriminate L]. injection L as <-. destruct I as [<-|[<-|[]]]; auto. }
      destruct X as [-> | ->].
      * vm_compute. auto.
      * vm_compute. auto.
Qed.

(** [from typing import List], [A = List[int]], [def a(x: A) -> int]; [A] is in the stub only. *)
Module AliasExample.
Definition A_value := List_of (named_ $"int").
Definition a := mk_function_def $"a" (mk_arguments [] [arg_ $"x" $"A"] None [] [] None []) [] (Some (Name $"int")).
Definition alias := SAssign [Name $"A"] (list_of_ (Name $"int")).
Definition modules := [builtins; typing;
  ([$"m"], [SImportFrom (Some $"typing") [mk_alias $"List" None] 0; alias; SFunctionDef a])].
Definition parsed : res state :=
  parse_stubs_state (source modules) (fun _ => false) (fun _ _ => Ok true) (fun _ => true) 50 20 [[$"typing"]; [$"m"]].
Definition st : state := match parsed with Ok st => st | Err _ => empty_state end.
End AliasExample.
Example C89_example_alias :
  AliasExample.parsed = Ok AliasExample.st
  /\ understood (fun _ => false) py 50 20 AliasExample.st empty
       (fun e => match e with Name n => if n == $"A" then AliasExample.A_value else named_ n | _ => VConstant CEllipsis end) [$"m"] [] AliasExample.a
  /\ from_callable (fun _ => false) (fun v => match v with VConstant CEllipsis => true | _ => false end)
       (VOperation []) (VModule $"Self") (VModule $"TypeSelf") (evaluate_node py 50 20 AliasExample.st empty)
       (signature_tables AliasExample.st) 50 [] (fun _ _ => None) (fun q => q) (fun _ => Err ValueError)
       (fun _ => false) VObject [] (FunctionCallable ([$"m"], [$"a"]))
     = Ok (Plain (mk_plain [RequiredParameter AliasExample.A_value POSITIONAL_ONLY $"x"] (named_ $"int"))).
Proof.
  split; [vm_compute; reflexivity|]. split; [|vm_compute; reflexivity].
  split; [vm_compute; repeat split; repeat constructor; cbn; intuition discriminate|]. split; [reflexivity|]. split.
  - intros e [He|(w & [<-|[]] & He)]; cbn in He; injection He as <-.
    + apply known_name. vm_compute. reflexivity.
    + exists [], 1, []. split; [auto with arith|]. split; [intros ? ? ? ? D; discriminate|]. constructor.
      exists ([$"m"], [$"A"]). split; [vm_compute; reflexivity|]. right. right. right.
      split; [intros ? ?; discriminate|]. split; [discriminate|]. split; [reflexivity|]. right.
      exists [([$"m"], [$"A"])], (list_of_ (Name $"int")). split; [|split; [intros t _ []|]].
      * exists [$"A"], AliasExample.alias. do 2 eexists.
        split; [vm_compute; reflexivity|]. split; [vm_compute; reflexivity|]. split.
        { intros t [<-|[]]. repeat (split; [vm_compute; reflexivity|]). eexists. split; [vm_compute; reflexivity|discriminate]. }
        split; [apply (SpecAliases.assigned_plain [$"A"])|]. split; [now left|]. split; [repeat constructor; intros []|]. vm_compute; reflexivity.
      * eapply SpecEvaluation.means_item; [apply SpecEvaluation.means_name|apply SpecEvaluation.means_name|reflexivity];
          eexists; (split; [vm_compute; reflexivity|right; left; reflexivity]).
  - intros e (w & [<-|[]] & He). discriminate.
Qed.
