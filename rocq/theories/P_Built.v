(** Property C100: every signature that is given is well formed. *)
From Verif Require Import Base Models SpecCall ModelsProofs ModelsMore Ast Scoping Signatures SignaturesProofs BuiltProofs.
From Verif Require P_Models P_Signatures.

(** Parameters without which a call is refused are never variadic; variadic ones have no
    default; no default is the private sentinel of models.py. *)
Definition proper_parameter {V} (is_NONE : V -> bool) (p : parameter V) : Prop :=
  match p with
  | RequiredParameter _ k _ => k <> VARIADIC_POSITIONAL /\ k <> VARIADIC_KEYWORD
  | OptionalParameter _ d k _ =>
      (k = VARIADIC_POSITIONAL \/ k = VARIADIC_KEYWORD -> d = None) /\ forall v, d = Some v -> is_NONE v = false
  end.
Definition well_formed {V} (is_NONE : V -> bool) (s : signature V) : Prop :=
  match s with
  | Plain p => legal_parameters (sviews p) /\ Forall (proper_parameter is_NONE) (parameters p)
  | Overloaded ps =>
      2 <= length ps
      /\ Forall (fun p => legal_parameters (sviews p) /\ Forall (proper_parameter is_NONE) (parameters p)) ps
  end.

Lemma built_is_proper {V} (is_NONE : V -> bool) p : built_parameter is_NONE p -> proper_parameter is_NONE p.
Proof.
  intros [(a & [k|] & n & E)|(a & d & [k|] & n & E)]; try discriminate.
  - destruct k; try discriminate; injection E as <-; now split.
  - unfold new_optional in E. destruct d as [d|]; cbn [andb] in E.
    + destruct (is_NONE d) eqn:Nd; cbn [negb] in E.
      * rewrite Bool.andb_false_r in E. injection E as <-. cbn. split; [reflexivity|discriminate].
      * rewrite Bool.andb_true_r in E. destruct k; try discriminate; injection E as <-;
          (split; [intros [X|X]; discriminate X|intros v [= <-]; exact Nd]).
    + rewrite Bool.andb_false_r in E. injection E as <-. cbn. split; [reflexivity|discriminate].
Qed.
Lemma built_is_legal {V} (is_NONE : V -> bool) (s : plain_signature V) : built_plain is_NONE s ->
  legal_parameters (sviews s) /\ Forall (proper_parameter is_NONE) (parameters s).
Proof.
  intros (ps & r & B & E). destruct (P_Models.C01_constructed_signatures_are_legal V ps r) as [C1 C2].
  assert (L : legal_parameters (views ps)).
  { destruct (new_plain_spec ps r) as [[G X]|[_ X]]; [now apply good_list_legal|rewrite X in E; discriminate]. }
  rewrite (C1 L) in E. injection E as <-. split; [exact L|]. cbn. eapply Forall_impl; [|exact B]. intros p. apply built_is_proper.
Qed.

(** Whatever the callable, the stubs, the objects and [inspect.signature] are *)
Theorem C100_well_formed :
  forall V O (H : Eqb O) is_NONE is_Ellipsis (Any Self TypeSelf : V) evaluate stubs limit
         sys_modules getattr own introspect is_type as_value table (c : callable) s,
    @from_callable V is_NONE is_Ellipsis Any Self TypeSelf evaluate stubs limit O _ sys_modules getattr own introspect is_type as_value table c = Ok s ->
    well_formed is_NONE s.
Proof.
  intros V O H is_NONE is_Ellipsis Any Self TypeSelf evaluate stubs limit sys_modules getattr own introspect is_type as_value table c s E.
  apply callable_is_built in E. destruct s as [p|ps]; [now apply built_is_legal|].
  apply built_overloaded in E as [B L]. split; [exact L|]. eapply Forall_impl; [|exact B]. intros p. apply built_is_legal.
Qed.
Print Assumptions C100_well_formed.

(** So the laws of the signatures that users make hold for all that are given: they are
    objects that the public constructors make. *)
Theorem C100_built :
  forall V O (H : Eqb O) is_NONE is_Ellipsis (Any Self TypeSelf : V) evaluate stubs limit
         sys_modules getattr own introspect is_type as_value table (c : callable) s,
    @from_callable V is_NONE is_Ellipsis Any Self TypeSelf evaluate stubs limit O _ sys_modules getattr own introspect is_type as_value table c = Ok s ->
    built is_NONE s
    /\ expects s [] [] = true /\ bind is_NONE s [] [] = Ok s
    /\ forall args kwargs, (exists t, bind is_NONE s args kwargs = Ok t) \/ bind is_NONE s args kwargs = Err TypeError.
Proof.
  intros V O H is_NONE is_Ellipsis Any Self TypeSelf evaluate stubs limit sys_modules getattr own introspect is_type as_value table c s E.
  apply callable_is_built in E. split; [exact E|]. destruct (P_Models.C06_empty_call_is_identity V is_NONE s E) as [E1 E2].
  split; [exact E1|]. split; [exact E2|]. intros args kwargs.
  destruct (P_Models.C07_bind_is_total_up_to_TypeError V is_NONE s args kwargs E) as [(t & X & _)|X]; eauto.
Qed.
Print Assumptions C100_built.

(** A signature that is introspected, and one that is refused: two parameters of one name *)
Example C100_example :
  let from raw := @from_callable nat P_Signatures.Stub.none P_Signatures.Stub.dots 100 101 102 P_Signatures.Stub.evaluate P_Signatures.Stub.tables 10 nat _
                [] (fun _ _ => None) (fun _ => ([$"m"], [$"g"])) (fun _ => Ok raw) (fun _ => false) (fun o => o) [] (FunctionCallable 3) in
  from (mk_raw_signature [mk_raw $"a" 1 None None; mk_raw $"b" 2 None None] None)
  = Ok (Plain (mk_plain [RequiredParameter 100 POSITIONAL_OR_KEYWORD $"a"; OptionalParameter 100 None VARIADIC_POSITIONAL $"b"] 100))
  /\ from (mk_raw_signature [mk_raw $"a" 1 None None; mk_raw $"a" 1 None None] None) = Err ValueError.
Proof. split; reflexivity. Qed.
