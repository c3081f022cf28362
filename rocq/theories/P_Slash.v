(** Property C102: what becomes of parameters before [/]. *)
From Verif Require Import Base Models SpecCall Ast Scoping SpecScoping Conversion SpecGenerics Stubs SpecStubs Signatures SpecSignatures
  SignaturesProofs FunctionProofs LocationProofs Whole SpecWhole WholeProofs BuildersProofs RecordsProofs.
From Verif Require TablesProofs CachedProofs P_Cached P_Described P_Inherited P_Evaluation P_Whole.

(** ** They are not looked at *)
Definition statement_after_slash (s : statement) : statement :=
  match s with FunctionDef f => FunctionDef (after_slash f) | _ => s end.
Definition values_after_slash (t : dict path (list statement)) : dict path (list statement) :=
  map (fun x => (fst x, map statement_after_slash (snd x))) t.
Definition tables_after_slash (stubs : stubs_tables) : stubs_tables :=
  mk_tables (database_of stubs) (nodes_kinds stubs) (map (fun x => (fst x, values_after_slash (snd x))) (raw_ast_nodes stubs)).
(** Every callable has the signature, or makes the exception be raised, that it would if
    no definition had parameters before [/] (but all the defaults it has). *)
Theorem C102_not_looked_at :
  forall V O (H : Eqb O) is_NONE is_Ellipsis (Any Self TypeSelf : V) evaluate stubs limit
         sys_modules getattr own introspect is_type as_value table (c : @callable V O),
    from_callable is_NONE is_Ellipsis Any Self TypeSelf evaluate stubs limit
      sys_modules getattr own introspect is_type as_value table c
    = from_callable is_NONE is_Ellipsis Any Self TypeSelf evaluate (tables_after_slash stubs) limit
        sys_modules getattr own introspect is_type as_value table c.
Proof.
  intros. apply CachedProofs.same_callable; [reflexivity| | |].
  - repeat split; repeat (apply TablesProofs.same_lookups_refl; intros ?); try reflexivity. apply P_Cached.same_scope_refl.
  - repeat (apply TablesProofs.same_lookups_refl; intros ?). reflexivity.
  - intros k. cbn [tables_after_slash raw_ast_nodes].
    pose proof (CachedProofs.same_lookups_map values_after_slash (raw_ast_nodes stubs) k) as X.
    destruct (dget k (map _ _)) as [t'|], (dget k (raw_ast_nodes stubs)) as [t|]; try exact X. subst t'. intros k'.
    pose proof (CachedProofs.same_lookups_map (map statement_after_slash) t k') as X. unfold values_after_slash.
    destruct (dget k' (map _ _)) as [l'|], (dget k' t) as [l|]; try exact X. subst l'. clear.
    induction l as [|s l IH]; constructor; [|exact IH]. destruct s; try (now left). right. exists fd, (after_slash fd). repeat split.
Qed.
Print Assumptions C102_not_looked_at.

(** ** So signatures are what the rest of the definition says *)
Lemma all_after_slash fs : Forall2 like (map after_slash fs) fs.
Proof. induction fs; constructor; [now right|assumption]. Qed.
(** Functions *)
Theorem C102_functions_partial :
  forall V O (H : Eqb O) is_NONE is_Ellipsis (Any Self TypeSelf : V) (py : Evaluation.python V)
         sys_modules getattr own table introspect is_type as_value
         source is_package condition printable limit fuel modules m st,
    parse_stubs_state source is_package condition printable (S limit) fuel modules = Ok st ->
    was_read source is_package condition fuel modules m -> m <> [] ->
    exists body says,
      described source is_package condition fuel modules m body says
      /\ forall (o : O) p fs value_of kind depth memory,
           (* what the stub says about [p] *)
           functions_at says p fs ->
           (forall f, In f fs -> understood is_NONE py (S limit) (S depth) st memory value_of m (removelast p) (after_slash f)
              /\ Forall (other_decorator (signature_tables st) (S limit) m (removelast p)) (fd_decorators f)) ->
           (* the callable is described there *)
           p <> [] -> found_first (S limit) st sys_modules getattr table own o (m, p) -> is_type o = false ->
           In kind function_kinds ->
           exists s,
             from_callable is_NONE is_Ellipsis Any Self TypeSelf (evaluate_node py (S limit) (S depth) st memory)
               (signature_tables st) (S limit) sys_modules getattr own introspect is_type as_value table (kind o) = Ok s
             /\ Forall2 (says_function is_Ellipsis Any value_of) (map after_slash fs) (flatten_signature s).
Proof.
  intros V O H is_NONE is_Ellipsis Any Self TypeSelf py sys_modules getattr own table introspect is_type as_value
    source is_package condition printable limit fuel modules m st E R Nm.
  destruct (@described_content source is_package condition printable (S limit) fuel modules m st R E)
    as (body & says & Hd & T1 & T2 & _).
  exists body, says. split; [exact Hd|]. intros.
  eapply told_functions_like with (gs := fs); eauto using all_after_slash.
  intros g Ig. apply in_map_iff in Ig as (f & <- & If). match goal with U : forall f, In f fs -> _ |- _ => exact (U f If) end.
Qed.
Print Assumptions C102_functions_partial.

(** Methods: the first parameter after [/] stands for the instance. *)
Theorem C102_methods_partial :
  forall V O (H : Eqb O) is_NONE is_Ellipsis (Any Self TypeSelf : V) (py : Evaluation.python V)
         sys_modules getattr own table introspect is_type as_value
         source is_package condition printable limit fuel modules m st,
    parse_stubs_state source is_package condition printable (S limit) fuel modules = Ok st ->
    was_read source is_package condition fuel modules m -> m <> [] ->
    exists body says,
      described source is_package condition fuel modules m body says
      /\ forall (u : O) p fs value_of depth memory,
           methods_at says p fs ->
           (forall f, In f fs -> understood is_NONE py (S limit) (S depth) st memory value_of m (removelast p) (after_slash f) /\ written (fd_args (after_slash f)) <> []
              /\ Forall (other_decorator (signature_tables st) (S limit) m (removelast p)) (fd_decorators f)) ->
           p <> [] -> found_first (S limit) st sys_modules getattr table own u (m, p) -> is_type u = false ->
           let result := from_callable is_NONE is_Ellipsis Any Self TypeSelf (evaluate_node py (S limit) (S depth) st memory)
               (signature_tables st) (S limit) sys_modules getattr own introspect is_type as_value table in
           (forall kind, In kind function_kinds -> exists s, result (kind u) = Ok s
              /\ Forall2 (says_method is_Ellipsis Any Self value_of) (map after_slash fs) (flatten_signature s))
           /\ (forall o self kind, In kind (bound_kinds self u) -> exists s, result (kind o) = Ok s
                 /\ Forall2 (says_bound is_Ellipsis Any value_of) (map after_slash fs) (flatten_signature s)).
Proof.
  intros V O H is_NONE is_Ellipsis Any Self TypeSelf py sys_modules getattr own table introspect is_type as_value
    source is_package condition printable limit fuel modules m st E R Nm.
  destruct (@described_content source is_package condition printable (S limit) fuel modules m st R E)
    as (body & says & Hd & T1 & T2 & _).
  exists body, says. split; [exact Hd|]. intros.
  eapply told_methods_like with (gs := fs); eauto using all_after_slash.
  intros g Ig. apply in_map_iff in Ig as (f & <- & If). match goal with U : forall f, In f fs -> _ |- _ => exact (U f If) end.
Qed.
Print Assumptions C102_methods_partial.

(** Methods of classes *)
Theorem C102_class_methods_partial :
  forall V O (H : Eqb O) is_NONE is_Ellipsis (Any Self TypeSelf : V) (py : Evaluation.python V)
         sys_modules getattr own table introspect is_type as_value
         source is_package condition printable limit fuel modules m st,
    parse_stubs_state source is_package condition printable (S limit) fuel modules = Ok st ->
    was_read source is_package condition fuel modules m -> m <> [] ->
    exists body says,
      described source is_package condition fuel modules m body says
      /\ forall (o : O) p fs value_of kind depth memory,
           members_at says p fs ->
           (forall f, In f fs -> understood is_NONE py (S limit) (S depth) st memory value_of m (removelast p) (after_slash f) /\ written (fd_args (after_slash f)) <> []
              /\ class_method (signature_tables st) (S limit) m (removelast p) f) ->
           p <> [] -> found_first (S limit) st sys_modules getattr table own o (m, p) -> is_type o = false ->
           In kind (function_kinds ++ class_kinds) ->
           exists s,
             from_callable is_NONE is_Ellipsis Any Self TypeSelf (evaluate_node py (S limit) (S depth) st memory)
               (signature_tables st) (S limit) sys_modules getattr own introspect is_type as_value table (kind o) = Ok s
             /\ Forall2 (says_method is_Ellipsis Any TypeSelf value_of) (map after_slash fs) (flatten_signature s).
Proof.
  intros V O H is_NONE is_Ellipsis Any Self TypeSelf py sys_modules getattr own table introspect is_type as_value
    source is_package condition printable limit fuel modules m st E R Nm.
  destruct (@described_content source is_package condition printable (S limit) fuel modules m st R E)
    as (body & says & Hd & T1 & T2 & _).
  exists body, says. split; [exact Hd|]. intros.
  eapply told_class_methods_like with (gs := fs); eauto using all_after_slash.
  intros g Ig. apply in_map_iff in Ig as (f & <- & If). match goal with U : forall f, In f fs -> _ |- _ => exact (U f If) end.
Qed.
Print Assumptions C102_class_methods_partial.

(** Classes made by [__init__] *)
Theorem C102_classes_partial :
  forall V O (H : Eqb O) is_NONE is_Ellipsis (Any Self TypeSelf : V) (py : Evaluation.python V)
         sys_modules getattr own table introspect is_type as_value
         source is_package condition printable limit fuel modules m st,
    parse_stubs_state source is_package condition printable (S limit) fuel modules = Ok st ->
    was_read source is_package condition fuel modules m -> m <> [] ->
    exists body says,
      described source is_package condition fuel modules m body says
      /\ forall (o : O) p fs value_of depth memory,
           initializers_at says p fs ->
           (forall f, In f fs -> understood is_NONE py (S limit) (S depth) st memory value_of m p (after_slash f) /\ written (fd_args (after_slash f)) <> []) ->
           p <> [] -> found_at (S limit) st sys_modules getattr table own o (m, p) -> is_type o = true ->
           exists s,
             from_callable is_NONE is_Ellipsis Any Self TypeSelf (evaluate_node py (S limit) (S depth) st memory)
               (signature_tables st) (S limit) sys_modules getattr own introspect is_type as_value table (TypeCallable o) = Ok s
             /\ Forall2 (says_initializer is_Ellipsis Any Self value_of) (map after_slash fs) (flatten_signature s).
Proof.
  intros V O H is_NONE is_Ellipsis Any Self TypeSelf py sys_modules getattr own table introspect is_type as_value
    source is_package condition printable limit fuel modules m st E R Nm.
  destruct (@described_content source is_package condition printable (S limit) fuel modules m st R E)
    as (body & says & Hd & T1 & T2 & _).
  exists body, says. split; [exact Hd|]. intros.
  eapply told_initializers_like with (gs := fs); eauto using all_after_slash.
  intros g Ig. apply in_map_iff in Ig as (f & <- & If). match goal with U : forall f, In f fs -> _ |- _ => exact (U f If) end.
Qed.
Print Assumptions C102_classes_partial.

(** Classes made by [__new__] *)
Theorem C102_constructors_partial :
  forall V O (H : Eqb O) is_NONE is_Ellipsis (Any Self TypeSelf : V) (py : Evaluation.python V)
         sys_modules getattr own table introspect is_type as_value
         source is_package condition printable limit fuel modules m st,
    parse_stubs_state source is_package condition printable (S limit) fuel modules = Ok st ->
    was_read source is_package condition fuel modules m -> m <> [] ->
    exists body says,
      described source is_package condition fuel modules m body says
      /\ forall (o : O) p fs value_of depth memory,
           constructors_at says p fs ->
           (forall f, In f fs -> understood is_NONE py (S limit) (S depth) st memory value_of m p (after_slash f) /\ written (fd_args (after_slash f)) <> []) ->
           p <> [] -> found_at (S limit) st sys_modules getattr table own o (m, p) -> is_type o = true ->
           exists s,
             from_callable is_NONE is_Ellipsis Any Self TypeSelf (evaluate_node py (S limit) (S depth) st memory)
               (signature_tables st) (S limit) sys_modules getattr own introspect is_type as_value table (TypeCallable o) = Ok s
             /\ Forall2 (says_bound is_Ellipsis Any value_of) (map after_slash fs) (flatten_signature s).
Proof.
  intros V O H is_NONE is_Ellipsis Any Self TypeSelf py sys_modules getattr own table introspect is_type as_value
    source is_package condition printable limit fuel modules m st E R Nm.
  destruct (@described_content source is_package condition printable (S limit) fuel modules m st R E)
    as (body & says & Hd & T1 & T2 & _).
  exists body, says. split; [exact Hd|]. intros.
  eapply told_constructors_like with (gs := fs); eauto using all_after_slash, stubs_records.
  intros g Ig. apply in_map_iff in Ig as (f & <- & If). match goal with U : forall f, In f fs -> _ |- _ => exact (U f If) end.
Qed.
Print Assumptions C102_constructors_partial.

(** ** Defaults of these parameters *)
Definition default_before_slash (f : function_def) : Prop :=
  exists w e, In w (written (fd_args f)) /\ w_kind w = POSITIONAL_ONLY /\ w_default w = Some e.
Section Raises.
Lemma more_defaults f : default_before_slash f -> length (args (fd_args f)) < length (defaults (fd_args f)).
Proof.
  intros (w & e & Hw & K & D). unfold written in Hw. repeat rewrite in_app_iff in Hw. destruct Hw as [Hw|[Hw|[Hw|[Hw|Hw]]]].
  - apply in_map_iff in Hw as ([i x] & <- & Hi). cbn in D. unfold default_at in D.
    assert (i < length (posonlyargs (fd_args f))).
    { clear - Hi. assert (X : forall n (l : list arg), In (i, x) (number n l) -> i < n + length l).
      { intros n l. revert n. induction l as [|y l IH]; intros n []; cbn.
        - injection H as -> ->. lia.
        - apply IH in H. lia. }
      apply (X 0) in Hi. lia. }
    destruct (i + _ <? _) eqn:L; [discriminate|]. apply Nat.ltb_ge in L. lia.
  - apply in_map_iff in Hw as ([i x] & <- & _). discriminate K.
  - unfold one in Hw. destruct (vararg (fd_args f)); [|easy]. destruct Hw as [<-|[]]. discriminate K.
  - apply in_map_iff in Hw as ([i x] & <- & _). discriminate K.
  - unfold one in Hw. destruct (kwarg (fd_args f)); [|easy]. destruct Hw as [<-|[]]. discriminate K.
Qed.
Context {V : Type}.
Variables (is_NONE is_Ellipsis : V -> bool) (Any Self TypeSelf : V).
Variable evaluate : expr -> path -> path -> res V.
Variables (stubs : stubs_tables) (limit : nat).
Lemma zip_last {A B} (xs : list A) (ys : list B) : length xs < length ys -> exists l y, zip_longest xs ys = l ++ [(None, Some y)].
Proof.
  revert ys. induction xs as [|x xs IH]; intros [|y ys] L; cbn in L; try lia.
  - clear L. cbn [zip_longest]. set (go := fix go (ys : list B) : list (option A * option B) := match ys with [] => [] | y :: r => (None, Some y) :: go r end).
    revert y. induction ys as [|y' ys IH]; intros y; [now exists [], y|]. destruct (IH y') as (l & z & E).
    exists ((None, Some y) :: l), z. cbn [app]. rewrite <- E. reflexivity.
  - destruct (IH ys) as (l & z & E); [lia|]. exists ((Some x, Some y) :: l), z. cbn [zip_longest app]. now rewrite E.
Qed.
Lemma raises f is_type m parent : default_before_slash f ->
  from_function_def is_NONE is_Ellipsis Any Self TypeSelf evaluate stubs limit f is_type m parent = Throws AttributeError.
Proof.
  intros D. apply more_defaults in D. unfold from_function_def, parameters_from, all_parameters, to_positional_parameters.
  destruct (@zip_last _ _ (rev (args (fd_args f))) (rev (defaults (fd_args f)))) as (l & y & ->); [now rewrite !rev_length|].
  rewrite rev_app_distr. reflexivity.
Qed.
Lemma omap_raises A B (f : A -> outcome B) l a e : In a l -> f a = Throws e -> forall r, omap f l <> Return r.
Proof.
  intros I E r. revert r. induction l as [|x l IH]; [destruct I|]. intros r. cbn [omap]. destruct I as [<-|I]; [rewrite E; discriminate|].
  destruct (f x); cbn [obind]; try discriminate. specialize (IH I). destruct (omap f l) as [l'| |]; cbn [obind]; try discriminate. now destruct (IH l').
Qed.
End Raises.
(** A callable one of whose definitions has a default before [/] has no signature, even if
    it could be introspected: an exception is raised, AttributeError if the definition is
    the first. *)
Theorem C102_default_before_slash :
  forall V O (H : Eqb O) is_NONE is_Ellipsis (Any Self TypeSelf : V) evaluate
         sys_modules getattr own table introspect is_type as_value
         source is_package condition printable limit fuel modules m st,
    parse_stubs_state source is_package condition printable (S limit) fuel modules = Ok st ->
    was_read source is_package condition fuel modules m -> m <> [] ->
    exists body says,
      described source is_package condition fuel modules m body says
      /\ forall (u : O) p fs f, members_at says p fs -> p <> [] -> found_first (S limit) st sys_modules getattr table own u (m, p) ->
         In f fs -> default_before_slash f ->
         forall c,
           (exists kind, In kind P_Described.unbound_kinds /\ c = kind u) \/ (exists o self kind, In kind (bound_kinds self u) /\ c = kind o) ->
           let result := from_callable is_NONE is_Ellipsis Any Self TypeSelf evaluate (signature_tables st) (S limit)
             sys_modules getattr own introspect is_type as_value table c in
           (forall s, result <> Ok s) /\ (hd_error fs = Some f -> result = Err AttributeError).
Proof.
  intros V O H is_NONE is_Ellipsis Any Self TypeSelf evaluate sys_modules getattr own table introspect is_type as_value
    source is_package condition printable limit fuel modules m st E R Nm.
  destruct (@described_content source is_package condition printable (S limit) fuel modules m st R E)
    as (body & says & Hd & T1 & T2 & _).
  exists body, says. split; [exact Hd|]. intros u p fs f A Np F If Df c C result. pose proof A as ((k & K & NC) & D & Ne).
  destruct (nodes_in p says) as [|n ns] eqn:N; [inversion D; subst; tauto|].
  destruct (@P_Described.located V is_NONE is_Ellipsis Any Self TypeSelf evaluate limit st O _ sys_modules getattr own table is_type as_value
    m says (conj T1 T2) Nm u p k n ns Np F K NC N) as [r X].
  set (stub := from_stub_callable is_NONE is_Ellipsis Any Self TypeSelf evaluate (signature_tables st) (S limit)
                 sys_modules getattr own is_type as_value table u) in *.
  set (build := fun s => from_statement_node is_NONE is_Ellipsis Any Self TypeSelf evaluate (signature_tables st) (S limit) (is_type u) (as_value u) (S limit)
                           (statement_of s) m (removelast p)) in *.
  assert (Bf : forall s, defines s f -> build s = Throws AttributeError).
  { intros s [-> | ->]; unfold build; cbn [statement_of from_statement_node]; now apply raises. }
  assert (Y : exists e, stub = Throws e /\ (hd_error fs = Some f -> e = AttributeError)).
  { assert (S1 : forall s, stub <> Return s).
    { intros s Es. rewrite X in Es. destruct (Forall2_In_r _ D If) as (s0 & Is & Ds).
      assert (Z : forall r, omap build (n :: ns) <> Return r) by (apply omap_raises with s0 AttributeError; [exact Is|now apply Bf]).
      assert (W : omap build (n :: ns) <> SignatureNotFound).
      { apply P_Described.omap_finds. intros s' I'. destruct (P_Described.related _ _ _ _ _ _ D I') as [f' Hf']. now apply P_Described.statement_finds with f'. }
      destruct (omap build (n :: ns)) as [l| |]; try discriminate; [now apply (Z l)|now apply W]. }
    assert (S2 : stub <> SignatureNotFound).
    { apply (@P_Described.from_stub_finds V is_NONE is_Ellipsis Any Self TypeSelf evaluate limit st O _ sys_modules getattr own table is_type as_value
        m says (conj T1 T2) Nm u p fs A Np F). }
    destruct stub as [s| |e] eqn:Es; [now destruct (S1 s)|now destruct S2|]. exists e. split; [reflexivity|]. intros Hf.
    destruct fs as [|f0 fs]; [discriminate|]. injection Hf as ->. inversion D as [|? ? ? ? D0 _]; subst.
    cbn [omap] in X. rewrite (Bf n D0) in X. cbn [obind] in X. congruence. }
  destruct Y as (e & Es & He).
  assert (Z : result = Err e).
  { unfold result. destruct C as [(kind & I & ->)|(o & self & kind & I & ->)].
    - repeat (destruct I as [<-|I]; [cbn [from_callable]; fold stub; rewrite Es; reflexivity|]). destruct I.
    - repeat (destruct I as [<-|I]; [cbn [from_callable]; unfold from_bound; cbn [of_res obind]; fold stub; rewrite Es; reflexivity|]). destruct I. }
  split; [intros s; rewrite Z; discriminate|]. intros Hf. rewrite Z. f_equal. now apply He.
Qed.
Print Assumptions C102_default_before_slash.

(** Definitions:
[[
def f(x: int, /, y: str) -> str: ...
def h(x: int = ..., /) -> str: ...
class C:
  def g(self, x: int, /, y: str) -> str: ...
  @classmethod
  def k(cls, x: int, /, y: str) -> str: ...
]] *)
Module Samples.
Import P_Evaluation.Samples P_Whole.Example.
Definition f := mk_function_def $"f"
  (mk_arguments [arg_ $"x" $"int"] [arg_ $"y" $"str"] None [] [] None []) [] (Some (Name $"str")).
Definition h := mk_function_def $"h"
  (mk_arguments [arg_ $"x" $"int"] [] None [] [] None [Constant CEllipsis]) [] (Some (Name $"str")).
Definition g := mk_function_def $"g"
  (mk_arguments [self_; arg_ $"x" $"int"] [arg_ $"y" $"str"] None [] [] None []) [] (Some (Name $"str")).
Definition k := mk_function_def $"k"
  (mk_arguments [mk_arg $"cls" None; arg_ $"x" $"int"] [arg_ $"y" $"str"] None [] [] None []) [Name $"classmethod"]
  (Some (Name $"str")).
Definition init := mk_function_def $"__init__"
  (mk_arguments [self_; arg_ $"x" $"int"] [arg_ $"y" $"str"; arg_ $"z" $"int"] None [] [] None []) [] None.
Definition modules := [(fst builtins, snd builtins ++ [SClassDef $"classmethod" [] []]);
  ([$"m"], [SFunctionDef f; SFunctionDef h; SClassDef $"C" [] [SFunctionDef g; SFunctionDef k; SFunctionDef init]])].
Definition parsed : res state :=
  parse_stubs_state (source modules) (fun _ => false) (fun _ _ => Ok true) (fun _ => true) 50 20 [[$"m"]].
Definition signature_of (c : @callable value qualified_path) : res (signature value) :=
  let* st := parsed in
  from_callable (fun _ => false) (fun v => match v with VConstant CEllipsis => true | _ => false end)
    (VOperation []) (VModule $"Self") (VModule $"TypeSelf") (evaluate_node py 50 20 st empty)
    (signature_tables st) 50 [] (fun _ _ => None) (fun q => q) (fun _ => Err ValueError)
    (fun q => mem q [([$"m"], [$"C"])]) VObject [] c.
End Samples.
Import P_Evaluation.Samples P_Whole.Example Samples.
(** The signature of [f] takes [y] alone. *)
Example C102_example_function :
  Samples.signature_of (FunctionCallable ([$"m"], [$"f"]))
  = Ok (Plain (mk_plain [RequiredParameter (named_ $"str") POSITIONAL_ONLY $"y"] (named_ $"str"))).
Proof. vm_compute. reflexivity. Qed.
(** With [h] an exception is raised, also if it could have been introspected. *)
Example C102_example_default :
  Samples.signature_of (FunctionCallable ([$"m"], [$"h"])) = Err AttributeError /\ default_before_slash Samples.h.
Proof. split; [vm_compute; reflexivity|]. unfold default_before_slash. cbn. do 2 eexists. split; [left; reflexivity|]. now split. Qed.
(** The signature of the method [g] takes [y] alone, in place of [self] also for its
    annotation, and that of its instances' [g] nothing. *)
Example C102_example_method :
  Samples.signature_of (FunctionCallable ([$"m"], [$"C"; $"g"]))
  = Ok (Plain (mk_plain [RequiredParameter (VModule $"Self") POSITIONAL_ONLY $"y"] (named_ $"str")))
  /\ forall self, Samples.signature_of (MethodCallable ([$"m"], [$"C"; $"g"]) (InstanceReceiver self (Ok ([$"m"], [$"C"; $"g"]))))
     = Ok (Plain (mk_plain [] (named_ $"str"))).
Proof. split; [|intros self]; vm_compute; reflexivity. Qed.
Example C102_example_class_method :
  Samples.signature_of (BuiltinCallable ([$"m"], [$"C"; $"k"]) TypeReceiver)
  = Ok (Plain (mk_plain [RequiredParameter (VModule $"TypeSelf") POSITIONAL_ONLY $"y"] (named_ $"str"))).
Proof. vm_compute. reflexivity. Qed.
(** In place of [self] the class loses [y]. *)
Example C102_example_class :
  Samples.signature_of (TypeCallable ([$"m"], [$"C"]))
  = Ok (Plain (mk_plain [RequiredParameter (named_ $"int") POSITIONAL_ONLY $"z"] (VModule $"Self"))).
Proof. vm_compute. reflexivity. Qed.
