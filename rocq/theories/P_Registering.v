(** Property C108: dispatch on types. *)
From Verif Require Import Base Registering SpecRegistering.

Section Dispatch.
Context {C H : Type} `{Eqb C}.
Variables (types : type_name -> C) (object_ : C) (written : type_name -> H -> Prop) (default : H) (registry : dict C H).
Hypothesis Hr : forall c f, dget c registry = Some f <-> (exists n, types n = c /\ written n f) \/ (c = object_ /\ f = default).
Lemma dispatch_chosen mro f : dispatch registry mro = Some f <-> chosen types object_ written default mro f.
Proof.
  revert f. induction mro as [|c mro IH]; intros f; cbn [dispatch].
  - split; [discriminate|]. intros (b & c & a & E & _). now destruct b.
  - destruct (dget c registry) as [g|] eqn:E.
    + split.
      * intros [= <-]. exists [], c, mro. repeat split; auto. now apply Hr.
      * intros (b & c' & a & Em & Nb & No & K). destruct b as [|x b].
        { injection Em as <- <-. apply Hr in K. congruence. }
        injection Em as <- Em. apply Hr in E as [(n & <- & W)|[-> _]]; exfalso; [apply (Nb n g W)|apply No]; now left.
    + rewrite IH. split; intros (b & c' & a & Em & Nb & No & K).
      * exists (c :: b), c', a. subst mro. split; [reflexivity|]. repeat split; auto.
        -- intros n g W [X|X]; [|exact (Nb n g W X)]. assert (Y : dget c registry = Some g) by (apply Hr; left; eauto). congruence.
        -- intros [X|X]; [|exact (No X)]. assert (Y : dget c registry = Some default) by (apply Hr; right; auto). congruence.
      * destruct b as [|x b].
        { injection Em as <- <-. apply Hr in K. congruence. }
        injection Em as <- Em. exists b, c', a. split; [exact Em|]. repeat split; auto.
        -- intros n g W X. apply (Nb n g W). now right.
        -- intros X. apply No. now right.
Qed.
End Dispatch.

Ltac step := match goal with
  | |- (if ?a == ?b then _ else _) = _ -> _ => destruct (eqb_reflect a b) as [->|?]
  | |- (if ?a == ?b then _ else _) <> None => destruct (eqb_reflect a b) as [?|?]
  end.
Section Registries.
Context {C : Type} `{Eqb C}.
Variables (types : type_name -> C) (object_ : C) (pypy : bool).
Lemma written_registry {H'} (written : type_name -> H' -> Prop) (default : H') registry :
  told_apart types object_ written ->
  (forall c f, dget c registry = Some f -> (exists n, types n = c /\ written n f) \/ (c = object_ /\ f = default)) ->
  (forall n f, written n f -> dget (types n) registry <> None) -> dget object_ registry <> None ->
  forall c f, dget c registry = Some f <-> (exists n, types n = c /\ written n f) \/ (c = object_ /\ f = default).
Proof.
  intros [A B] F W O c f. split; [apply F|]. intros [(n & <- & Wn)|[-> ->]].
  - destruct (dget (types n) registry) as [g|] eqn:E; [|exfalso; exact (W n f Wn E)]. f_equal.
    destruct (F _ _ E) as [(n' & En & Wn')|[X _]]; [exact (A _ _ _ _ Wn' Wn En)|exfalso; exact (B n f Wn X)].
  - destruct (dget object_ registry) as [g|] eqn:E; [|contradiction]. f_equal.
    destruct (F _ _ E) as [(n' & En & Wn')|[_ X]]; [exfalso; exact (B _ _ Wn' En)|exact X].
Qed.
Lemma builders_written : told_apart types object_ (builder_for pypy) ->
  forall c f, dget c (builders types object_ pypy) = Some f <-> (exists n, types n = c /\ builder_for pypy n f) \/ (c = object_ /\ f = RaiseTypeError).
Proof.
  intros T. apply written_registry; [exact T| | |].
  - intros c f. unfold builders, decorate_if, register. destruct pypy; cbn [negb]; rewrite ?dget_dset, dget_cons;
      repeat (step; [intros [= <-]; (now right) || (left; eexists; split; [reflexivity|cbn; auto])|]); discriminate.
  - intros n f W. unfold builders, decorate_if, register.
    destruct pypy; cbn [negb]; rewrite ?dget_dset, dget_cons; destruct n; cbn in W; try (destruct W; discriminate); try contradiction;
      repeat (step; [discriminate|]); congruence.
  - unfold builders, decorate_if, register. destruct pypy; cbn [negb]; rewrite ?dget_dset, dget_cons; repeat (step; [discriminate|]); congruence.
Qed.
Lemma namers_written : told_apart types object_ (namer_for pypy) ->
  forall c f, dget c (namers types object_ pypy) = Some f <-> (exists n, types n = c /\ namer_for pypy n f) \/ (c = object_ /\ f = NoName).
Proof.
  intros T. apply written_registry; [exact T| | |].
  - intros c f. unfold namers, decorate_if, register. destruct pypy; cbn [negb]; rewrite ?dget_dset, dget_cons;
      repeat (step; [intros [= <-]; (now right) || (left; eexists; split; [reflexivity|cbn; auto]; fail) || contradiction|]); discriminate.
  - intros n f W. unfold namers, decorate_if, register.
    destruct pypy; cbn [negb]; rewrite ?dget_dset, dget_cons; destruct n; cbn in W; try (destruct W; discriminate); try contradiction;
      repeat (step; [discriminate|]); congruence.
  - unfold namers, decorate_if, register. destruct pypy; cbn [negb]; rewrite ?dget_dset, dget_cons; repeat (step; [discriminate|]); congruence.
Qed.
End Registries.

(** Every callable is handed to the implementation written for its class, or for the nearest
    class it derives from; callables of other classes make [TypeError]. On both
    implementations of Python, whatever classes the names mean that are not registered there. *)
Theorem C108_signatures :
  forall C (H : Eqb C) (types : type_name -> C) object_ pypy,
    told_apart types object_ (builder_for pypy) ->
    forall mro b, dispatch (builders types object_ pypy) mro = Some b <-> chosen types object_ (builder_for pypy) RaiseTypeError mro b.
Proof. intros C H types object_ pypy T. apply dispatch_chosen. now apply builders_written. Qed.
Print Assumptions C108_signatures.
Theorem C108_names :
  forall C (H : Eqb C) (types : type_name -> C) object_ pypy,
    told_apart types object_ (namer_for pypy) ->
    forall mro f, dispatch (namers types object_ pypy) mro = Some f <-> chosen types object_ (namer_for pypy) NoName mro f.
Proof. intros C H types object_ pypy T. apply dispatch_chosen. now apply namers_written. Qed.
Print Assumptions C108_names.
(** There is always one, as all classes derive from [object]. *)
Theorem C108_total :
  forall C (H : Eqb C) (types : type_name -> C) object_ pypy,
    told_apart types object_ (builder_for pypy) -> told_apart types object_ (namer_for pypy) ->
    forall mro, In object_ mro ->
      dispatch (builders types object_ pypy) mro <> None /\ dispatch (namers types object_ pypy) mro <> None.
Proof.
  intros C H types object_ pypy T T' mro I.
  assert (X : forall F (r : dict C F), dget object_ r <> None -> dispatch r mro <> None).
  { intros F r N. induction mro as [|c mro IH]; [destruct I|]. cbn [dispatch]. destruct (dget c r) eqn:E; [discriminate|].
    destruct I as [->|I]; [congruence|auto]. }
  split; apply X.
  - pose proof (proj2 (builders_written types object_ pypy T object_ RaiseTypeError) (or_intror (conj eq_refl eq_refl))) as ->. discriminate.
  - pose proof (proj2 (namers_written types object_ pypy T' object_ NoName) (or_intror (conj eq_refl eq_refl))) as ->. discriminate.
Qed.
Print Assumptions C108_total.

(** CPython: [types.BuiltinFunctionType is types.BuiltinMethodType] *)
Module Classes.
Definition cpython (n : type_name) : N :=
  match n with
  | BuiltinFunctionType | BuiltinMethodType => 1 | FunctionType => 2 | MethodType => 3 | MethodWrapperType => 4
  | MethodDescriptorType => 5 | WrapperDescriptorType => 6 | MemberDescriptorType => 7 | type_ => 8 | partial_ => 9
  end.
(** Descriptors and wrappers as functions and methods: one way in which PyPy might identify
    classes, assumed for the examples only *)
Definition pypy (n : type_name) : N :=
  match n with
  | BuiltinFunctionType => 1 | FunctionType | MethodDescriptorType | WrapperDescriptorType => 2
  | MethodType | BuiltinMethodType | MethodWrapperType => 3 | MemberDescriptorType => 7 | type_ => 8 | partial_ => 9
  end.
Definition object_ : N := 0.
End Classes.
Example C108_example :
  told_apart Classes.cpython Classes.object_ (builder_for false) /\ told_apart Classes.cpython Classes.object_ (namer_for false)
  /\ told_apart Classes.pypy Classes.object_ (builder_for true) /\ told_apart Classes.pypy Classes.object_ (namer_for true).
Proof.
  split; [|split; [|split]]; (split; [intros a b f g|intros a f]); destruct a; try destruct b; cbn; intros; intuition (try congruence; try discriminate).
Qed.
(** A class whose metaclass is [ABCMeta] (20), [str.join], an object with [__call__] (21) *)
Example C108_example_choice :
  dispatch (builders Classes.cpython Classes.object_ false) [20; 8; 0]%N = Some BuildType
  /\ dispatch (builders Classes.cpython Classes.object_ false) [5; 0]%N = Some BuildDescriptor
  /\ dispatch (builders Classes.pypy Classes.object_ true) [2; 0]%N = Some BuildFunction
  /\ dispatch (builders Classes.cpython Classes.object_ false) [21; 0]%N = Some RaiseTypeError
  /\ dispatch (namers Classes.pypy Classes.object_ true) [7; 0]%N = Some NameMember.
Proof. repeat split. Qed.
(** The first implementation that is registered for member descriptors on PyPy is never used. *)
Theorem C108_replaced :
  forall C (H : Eqb C) (types : type_name -> C) object_,
    told_apart types object_ (namer_for true) ->
    forall mro, dispatch (namers types object_ true) mro <> Some NameDescriptor.
Proof.
  intros C H types object_ T mro E. apply C108_names in E; [|exact T].
  destruct E as (b & c & a & _ & _ & _ & [(n & _ & W)|[_ X]]); [|discriminate].
  destruct n; cbn in W; try discriminate; try contradiction; destruct W; discriminate.
Qed.
Print Assumptions C108_replaced.
