(** Property C95: every signature obtained is well formed. *)
From Verif Require Import Base Models SpecCall SpecObtained ModelsProofs ModelsMore CallTheorems BindLaws Ast Scoping Signatures ObtainedProofs.
From Verif Require P_Models.

(** Whatever the callable, the stubs and the answers of [inspect], [sys.modules] and the
    evaluation of annotations are *)
Theorem C95_well_formed :
  forall V O (H : Eqb O) is_NONE is_Ellipsis (Any Self TypeSelf : V) evaluate stubs limit
         (sys_modules : dict pystr O) getattr own introspect is_type as_value table c s,
    from_callable is_NONE is_Ellipsis Any Self TypeSelf evaluate stubs limit sys_modules getattr own introspect is_type
      as_value table c = Ok s ->
    well_formed is_NONE s.
Proof. intros. apply well_formed_built. eapply obtained_built; eassumption. Qed.
Print Assumptions C95_well_formed.

(** [from_signatures] and [bind] keep signatures well formed. *)
Theorem C95_combining :
  forall V (is_NONE : V -> bool) ss s,
    Forall (well_formed is_NONE) ss -> from_signatures ss = Ok s -> well_formed is_NONE s.
Proof.
  intros V is_NONE ss s F E. apply well_formed_built. eapply combined_built; [|exact E].
  eapply Forall_impl; [|exact F]. intros t. apply well_formed_built.
Qed.
Print Assumptions C95_combining.
Theorem C95_binding :
  forall V (is_NONE : V -> bool) s args kwargs t,
    well_formed is_NONE s -> call_bind is_NONE s args kwargs = Ok t -> well_formed is_NONE t.
Proof. intros V is_NONE s args kwargs t W E. apply well_formed_built. apply well_formed_built in W. eapply bound_built; eassumption. Qed.
Print Assumptions C95_binding.

(** Hence the laws of signatures hold of whatever is obtained: [all_set] and [expects]
    decide, for each overload, what Python accepts (C03, C04). *)
Theorem C95_calls :
  forall V O (H : Eqb O) is_NONE is_Ellipsis (Any Self TypeSelf : V) evaluate stubs limit
         (sys_modules : dict pystr O) getattr own introspect is_type as_value table c s args kwargs,
    from_callable is_NONE is_Ellipsis Any Self TypeSelf evaluate stubs limit sys_modules getattr own introspect is_type
      as_value table c = Ok s ->
    legal_kwargs kwargs -> ~ In $"self" (dkeys kwargs) ->
    (forall p, In p (match s with Plain p => [p] | Overloaded ps => ps end) ->
       takes_extra_keywords (sviews p) -> ~ clash (sviews p) (length args) (dkeys kwargs)) ->
    (exists complete, call_all_set s args kwargs = Ok complete
       /\ (complete = true <-> exists p, In p (match s with Plain p => [p] | Overloaded ps => ps end)
                                         /\ accepts (sviews p) (length args) (dkeys kwargs)))
    /\ (exists expected, call_expects s args kwargs = Ok expected
       /\ (expected = true <-> exists p, In p (match s with Plain p => [p] | Overloaded ps => ps end)
                                         /\ completable (sviews p) (length args) (dkeys kwargs))).
Proof.
  intros V O H is_NONE is_Ellipsis Any Self TypeSelf evaluate stubs limit sys_modules getattr own introspect is_type
    as_value table c s args kwargs E L N C.
  pose proof (obtained_built _ _ _ _ _ _ _ _ _ _ _ _ _ _ _ _ _ E) as B. apply built_flatten in B.
  rewrite Forall_forall in B.
  assert (M : dmem $"self" kwargs = false).
  { now apply dmem_not_In. }
  unfold call_all_set, call_expects, call_method. rewrite M. change (match s with Plain p => [p] | Overloaded ps => ps end)
    with (flatten_signature s) in *.
  split; eexists; (split; [reflexivity|]).
  - rewrite all_set_union, existsb_exists. split; intros (p & Hp & X); exists p; (split; [exact Hp|]).
    + eapply all_set_exact; eauto.
    + eapply all_set_exact; eauto.
  - rewrite expects_union, existsb_exists. split; intros (p & Hp & X); exists p; (split; [exact Hp|]).
    + eapply expects_completable; eauto.
    + eapply expects_completable; eauto.
Qed.
Print Assumptions C95_calls.

(** [functools.partial(f, 1)] for [def f(x, /, y=2)] that no stub describes *)
Definition introspected : raw_signature nat :=
  mk_raw_signature [mk_raw $"x" 0 None None; mk_raw $"y" 1 (Some 2) None] None.
Definition obtained : res (signature nat) :=
  from_callable (fun _ => false) (fun _ => false) 0 1 2 (fun _ _ _ => Err OtherException)
    (mk_tables (mk_database [] [] [] []) [] []) 5 [] (fun (_ : nat) _ => None) (fun _ => ([], [])) (fun _ => Ok introspected)
    (fun _ => false) (fun _ => 0) [] (PartialCallable (FunctionCallable 0) [1] []).
Example C95_example :
  obtained = Ok (Plain (mk_plain [OptionalParameter 0 (Some 2) POSITIONAL_OR_KEYWORD $"y"] 0))
  /\ well_formed (fun _ => false) (Plain (mk_plain [OptionalParameter 0 (Some 2) POSITIONAL_OR_KEYWORD $"y"] 0))
  /\ ~ well_formed (fun _ => false)
         (Plain (mk_plain [RequiredParameter 0 POSITIONAL_ONLY $"y"; RequiredParameter 0 KEYWORD_ONLY $"y"] 0))
  /\ ~ well_formed (fun _ => false) (Plain (mk_plain [OptionalParameter 0 (Some 1) VARIADIC_KEYWORD $"y"] 0))
  /\ ~ well_formed (V := nat) (fun _ => false) (Overloaded []).
Proof.
  assert (E : obtained = Ok (Plain (mk_plain [OptionalParameter 0 (Some 2) POSITIONAL_OR_KEYWORD $"y"] 0))) by reflexivity.
  split; [exact E|]. split; [exact (C95_well_formed _ _ _ _ _ _ _ _ _ _ _ _ _ _ _ _ _ _ _ _ E)|]. repeat split.
  - intros [F _]. inv F. destruct H1 as (_ & N & _). cbn in N. inv N. apply H1. now left.
  - intros [F _]. inv F. destruct H1 as (F & _). inv F. destruct H1 as [X _]. specialize (X ltac:(auto)). discriminate.
  - intros [_ L]. cbn in L. lia.
Qed.
