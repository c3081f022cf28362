(** Property C101: [functools.partial] objects of what stubs describe. *)
From Verif Require Import Base Models SpecCall Ast Scoping SpecScoping Stubs SpecStubs StubsProofs SpecializeProofs
  Signatures SpecSignatures SignaturesProofs Whole SpecWhole WholeProofs RecordsProofs BuiltProofs P_Whole.
From Verif Require Evaluation SpecEvaluation P_Evaluation P_Models BindLaws.

(** [result] is the signature of a partial object that passes [args] and [kwargs] to something
    defined by [fs], [takes] being the calls each definition accepts: it is there if
    some further arguments make up a call that is accepted; then it accepts just these
    further arguments. Otherwise [TypeError] is raised. *)
Definition applies {V} (fs : list function_def) (takes : function_def -> nat -> list pystr -> Prop)
    (args : list V) (kwargs : dict pystr V) (result : res (signature V)) : Prop :=
  let completed (more : list V) (keywords : dict pystr V) :=
    exists f, In f fs /\ takes f (length args + length more) (dkeys (merge kwargs keywords)) in
  ((exists t, result = Ok t) \/ result = Err TypeError)
  /\ (forall more keywords, (forall f, In f fs -> by_position f (dkeys keywords)) -> completed more keywords -> exists t, result = Ok t)
  /\ forall t, result = Ok t -> forall more keywords, (forall f, In f fs -> by_position f (dkeys keywords)) ->
       (all_set t more keywords = true <-> completed more keywords).

Section Applied.
Context {V : Type}.
Variables (is_NONE is_Ellipsis : V -> bool) (Any Self : V).
Lemma applied (P : function_def -> plain_signature V -> Prop) takes fs s args kwargs : built is_NONE s -> Forall2 P fs (flatten_signature s) ->
  (forall a k, (forall f, In f fs -> by_position f (dkeys k)) -> (all_set s a k = true <-> exists f, In f fs /\ takes f (length a) (dkeys k))) ->
  (forall f p v n, In f fs -> P f p -> SpecCall.filled (sviews p) n v -> exists x, In x (Ast.args (fd_args f)) /\ arg_name x = v_name v) ->
  ~ In $"self" (dkeys kwargs) -> (forall f, In f fs -> by_position f (dkeys kwargs)) ->
  applies fs takes args kwargs (call_bind is_NONE s args kwargs).
Proof.
  intros B F C N Ns Bk. unfold call_bind, call_method. replace (dmem $"self" kwargs) with false by (symmetry; now apply dmem_not_In).
  assert (NF : forall p n k, In p (flatten_signature s) -> (forall f, In f fs -> by_position f k) -> ~ names_filled (sviews p) n k).
  { intros p n k Ip Hk (v & Hv & Iv).
    assert (X : exists f, In f fs /\ P f p).
    { clear - F Ip. induction F as [|f q fs qs Hf _ IH]; [destruct Ip|]. destruct Ip as [->|Ip]; [exists f; split; [now left|exact Hf]|].
      destruct (IH Ip) as (g & Ig & Hg). exists g. split; [now right|exact Hg]. }
    destruct X as (f & If & Hf). destruct (N f p v n If Hf Hv) as (x & Ix & E). apply (Hk f If x Ix). now rewrite E. }
  assert (BM : forall k, (forall f, In f fs -> by_position f (dkeys k)) -> forall f, In f fs -> by_position f (dkeys (merge kwargs k))).
  { intros k Hk f If x Ix I. apply (@BindLaws.dkeys_merge V is_NONE) in I. destruct I as [I|I]; [exact (Bk f If x Ix I)|exact (Hk f If x Ix I)]. }
  assert (L : forall more keywords, (exists f, In f fs /\ takes f (length args + length more) (dkeys (merge kwargs keywords)))
    <-> exists f, In f fs /\ takes f (length (args ++ more)) (dkeys (merge kwargs keywords))) by (intros; now rewrite app_length).
  split; [|split].
  - destruct (P_Models.C07_bind_is_total_up_to_TypeError V is_NONE s args kwargs B) as [(t & X & _)|X]; eauto.
  - intros more keywords Hk X. rewrite L in X. rewrite <- (C (args ++ more) (merge kwargs keywords) (BM _ Hk)) in X.
    apply (@ModelsMore.overloaded_all_set_expects V is_NONE s _ _ B) in X.
    apply (P_Models.C09_expects_guarantees_bind_partial V is_NONE s args kwargs B); [intros p Ip _; now apply NF|].
    rewrite ModelsMore.expects_union in X |- *. apply existsb_exists in X as (p & Ip & X). apply existsb_exists. exists p. split; [exact Ip|].
    apply (P_Models.C14_expects_is_prefix_closed V is_NONE p args more kwargs keywords); [|exact X].
    apply ModelsMore.built_flatten in B. rewrite Forall_forall in B. now apply B.
  - intros t E more keywords Hk. rewrite L, <- (C (args ++ more) (merge kwargs keywords) (BM _ Hk)).
    destruct (P_Models.C16_partial_application_of_overloads V is_NONE s t args more kwargs keywords B E) as [_ ->]; [|reflexivity].
    intros p Ip _ (v & Hv & _ & Iv). apply (NF p (length args + length more) (dkeys kwargs ++ dkeys keywords) Ip); [|now exists v].
    intros f If x Ix I. apply in_app_or in I as [I|I]; [exact (Bk f If x Ix I)|exact (Hk f If x Ix I)].
Qed.
Lemma written_positional f w : posonlyargs (fd_args f) = [] -> In w (written (fd_args f)) -> positional (stored_view w) ->
  exists x, In x (Ast.args (fd_args f)) /\ arg_name x = arg_name (w_arg w).
Proof.
  intros Np Hw K. unfold written in Hw. repeat rewrite in_app_iff in Hw. rewrite Np in Hw. destruct Hw as [Hw|[Hw|[Hw|[Hw|Hw]]]].
  - destruct Hw.
  - apply in_map_iff in Hw as ([i x] & <- & Hi). exists x. split; [|reflexivity].
    rewrite <- (map_id (Ast.args (fd_args f))), <- (map_number (fun x => x) (length (@nil arg))).
    apply in_map_iff. now exists (i, x).
  - unfold one in Hw. destruct (vararg (fd_args f)); [|easy]. destruct Hw as [<-|[]]. destruct K; discriminate.
  - apply in_map_iff in Hw as ([x d] & <- & _). destruct K; discriminate.
  - unfold one in Hw. destruct (kwarg (fd_args f)); [|easy]. destruct Hw as [<-|[]]. destruct K; discriminate.
Qed.
Lemma filled_written value_of f ws ps r n v : posonlyargs (fd_args f) = [] -> (forall w, In w ws -> In w (written (fd_args f))) ->
  Forall2 (fun w p => follows is_Ellipsis Any value_of (stored_kind (w_kind w)) w p) ws ps ->
  SpecCall.filled (sviews (mk_plain ps r)) n v -> exists x, In x (Ast.args (fd_args f)) /\ arg_name x = v_name v.
Proof.
  intros Np Iw F I. unfold SpecCall.filled in I. apply CallProofs.In_firstn in I. unfold positionals in I. apply filter_In in I as [I K].
  change (sviews (mk_plain ps r)) with (views ps) in I. rewrite (follow_views F) in I. apply in_map_iff in I as (w & <- & I).
  apply (written_positional f w Np (Iw w I)). unfold positionalb in K. unfold positional. destruct (v_kind (stored_view w)); auto; discriminate.
Qed.
End Applied.

(** Functions *)
Theorem C101_functions_partial :
  forall V O (H : Eqb O) is_NONE is_Ellipsis (Any Self TypeSelf : V) (py : Evaluation.python V)
         sys_modules getattr own table introspect is_type as_value
         source is_package condition printable limit fuel modules m st,
    parse_stubs_state source is_package condition printable (S limit) fuel modules = Ok st ->
    was_read source is_package condition fuel modules m -> m <> [] ->
    exists body says,
      described source is_package condition fuel modules m body says
      /\ forall (o : O) p fs value_of kind depth memory args kwargs,
           functions_at says p fs ->
           (forall f, In f fs -> understood is_NONE py (S limit) (S depth) st memory value_of m (removelast p) f
              /\ Forall (other_decorator (signature_tables st) (S limit) m (removelast p)) (fd_decorators f)) ->
           p <> [] -> found_first (S limit) st sys_modules getattr table own o (m, p) -> is_type o = false ->
           In kind function_kinds ->
           (* what is passed already: no positional parameter by keyword, no keyword [self] *)
           (forall f, In f fs -> by_position f (dkeys kwargs)) -> ~ In $"self" (dkeys kwargs) ->
           applies fs takes_call args kwargs
             (from_callable is_NONE is_Ellipsis Any Self TypeSelf (evaluate_node py (S limit) (S depth) st memory)
               (signature_tables st) (S limit) sys_modules getattr own introspect is_type as_value table (PartialCallable (kind o) args kwargs)).
Proof.
  intros V O H is_NONE is_Ellipsis Any Self TypeSelf py sys_modules getattr own table introspect is_type as_value
    source is_package condition printable limit fuel modules m st E R Nm.
  destruct (@C89_functions_partial V O H is_NONE is_Ellipsis Any Self TypeSelf py sys_modules getattr own table introspect is_type as_value
    source is_package condition printable limit fuel modules m st E R Nm) as (body & says & D & X).
  exists body, says. split; [exact D|]. clear D.
  intros o p fs value_of kind depth memory args kwargs A U Np F T I Bk Ns.
  destruct (X o p fs value_of kind depth memory A U Np F T I) as (s & Es & Fs). cbn [from_callable]. rewrite Es. cbn [bind_res].
  apply (@applied V is_NONE _ takes_call fs s args kwargs (callable_is_built Es) Fs); [| |exact Ns|exact Bk].
  - intros a k B. apply (@overloads_calls V _ _ fs s a k Fs). intros f q Hf Hq. eapply function_calls; [apply (U f Hf)|exact Hq|now apply B].
  - intros f [ps r] v n Hf [Hq _] Hv. destruct (U f Hf) as [(_ & N0 & _) _].
    exact (@filled_written V is_Ellipsis Any value_of f (written (fd_args f)) ps r n v N0 (fun w I => I) Hq Hv).
Qed.
Print Assumptions C101_functions_partial.

(** Methods, got from an instance; what is passed comes after it. *)
Theorem C101_methods_partial :
  forall V O (H : Eqb O) is_NONE is_Ellipsis (Any Self TypeSelf : V) (py : Evaluation.python V)
         sys_modules getattr own table introspect is_type as_value
         source is_package condition printable limit fuel modules m st,
    parse_stubs_state source is_package condition printable (S limit) fuel modules = Ok st ->
    was_read source is_package condition fuel modules m -> m <> [] ->
    exists body says,
      described source is_package condition fuel modules m body says
      /\ forall (u : O) p fs value_of depth memory args kwargs o self kind,
           methods_at says p fs ->
           (forall f, In f fs -> understood is_NONE py (S limit) (S depth) st memory value_of m (removelast p) f /\ written (fd_args f) <> []
              /\ Forall (other_decorator (signature_tables st) (S limit) m (removelast p)) (fd_decorators f)) ->
           p <> [] -> found_first (S limit) st sys_modules getattr table own u (m, p) -> is_type u = false ->
           In kind (bound_kinds self u) ->
           (forall f, In f fs -> by_position f (dkeys kwargs)) -> ~ In $"self" (dkeys kwargs) ->
           applies fs takes_rest args kwargs
             (from_callable is_NONE is_Ellipsis Any Self TypeSelf (evaluate_node py (S limit) (S depth) st memory)
               (signature_tables st) (S limit) sys_modules getattr own introspect is_type as_value table (PartialCallable (kind o) args kwargs)).
Proof.
  intros V O H is_NONE is_Ellipsis Any Self TypeSelf py sys_modules getattr own table introspect is_type as_value
    source is_package condition printable limit fuel modules m st E R Nm.
  destruct (@C89_methods_partial V O H is_NONE is_Ellipsis Any Self TypeSelf py sys_modules getattr own table introspect is_type as_value
    source is_package condition printable limit fuel modules m st E R Nm) as (body & says & D & X).
  exists body, says. split; [exact D|]. clear D.
  intros u p fs value_of depth memory args kwargs o self kind A U Np F T I Bk Ns.
  destruct (X u p fs value_of depth memory A U Np F T) as [_ X2]. destruct (X2 o self kind I) as (s & Es & Fs). cbn [from_callable]. rewrite Es. cbn [bind_res].
  apply (@applied V is_NONE _ takes_rest fs s args kwargs (callable_is_built Es) Fs); [| |exact Ns|exact Bk].
  - intros a k B. apply (@overloads_calls V _ _ fs s a k Fs). intros f q Hf Hq. eapply bound_calls; [apply (U f Hf)|exact Hq|now apply B].
  - intros f [ps r] v n Hf (w & ws & Ew & Hq & _) Hv. destruct (U f Hf) as [(_ & N0 & _) _].
    apply (@filled_written V is_Ellipsis Any value_of f ws ps r n v N0); [|exact Hq|exact Hv]. intros x Ix. rewrite Ew. now right.
Qed.
Print Assumptions C101_methods_partial.

(** Classes *)
Theorem C101_classes_partial :
  forall V O (H : Eqb O) is_NONE is_Ellipsis (Any Self TypeSelf : V) (py : Evaluation.python V)
         sys_modules getattr own table introspect is_type as_value
         source is_package condition printable limit fuel modules m st,
    parse_stubs_state source is_package condition printable (S limit) fuel modules = Ok st ->
    was_read source is_package condition fuel modules m -> m <> [] ->
    exists body says,
      described source is_package condition fuel modules m body says
      /\ forall (o : O) p fs value_of depth memory args kwargs,
           initializers_at says p fs \/ constructors_at says p fs ->
           (forall f, In f fs -> understood is_NONE py (S limit) (S depth) st memory value_of m p f /\ written (fd_args f) <> []) ->
           p <> [] -> found_at (S limit) st sys_modules getattr table own o (m, p) -> is_type o = true ->
           (forall f, In f fs -> by_position f (dkeys kwargs)) -> ~ In $"self" (dkeys kwargs) ->
           applies fs takes_rest args kwargs
             (from_callable is_NONE is_Ellipsis Any Self TypeSelf (evaluate_node py (S limit) (S depth) st memory)
               (signature_tables st) (S limit) sys_modules getattr own introspect is_type as_value table (PartialCallable (TypeCallable o) args kwargs)).
Proof.
  intros V O H is_NONE is_Ellipsis Any Self TypeSelf py sys_modules getattr own table introspect is_type as_value
    source is_package condition printable limit fuel modules m st E R Nm.
  destruct (@described_content source is_package condition printable (S limit) fuel modules m st R E)
    as (body & says & Hd & T1 & T2 & _).
  exists body, says. split; [exact Hd|]. intros o p fs value_of depth memory args kwargs A U Np F T Bk Ns.
  destruct A as [A|A].
  - destruct (told_initializers is_Ellipsis Any Self TypeSelf introspect is_type as_value (conj T1 T2) Nm A U Np F T) as (s & Es & Fs).
    pose proof (callable_is_built Es) as Bs. cbn [from_callable] in Es |- *. rewrite Es. cbn [bind_res].
    apply (@applied V is_NONE _ takes_rest fs s args kwargs Bs Fs); [| |exact Ns|exact Bk].
    + intros a k B. apply (@overloads_calls V _ _ fs s a k Fs). intros f q Hf Hq. eapply initializer_calls; [apply (U f Hf)|exact Hq|now apply B].
    + intros f [ps r] v n Hf (w & ws & Ew & Hq & _) Hv. destruct (U f Hf) as [(_ & N0 & _) _].
      apply (@filled_written V is_Ellipsis Any value_of f ws ps r n v N0); [|exact Hq|exact Hv]. intros x Ix. rewrite Ew. now right.
  - edestruct (@told_constructors V is_NONE is_Ellipsis Any Self TypeSelf py limit depth st memory O H sys_modules getattr own table introspect is_type as_value m says (conj T1 T2) Nm) as (s & Es & Fs); eauto.
    { eapply stubs_records; eauto. }
    pose proof (callable_is_built Es) as Bs. cbn [from_callable] in Es |- *. rewrite Es. cbn [bind_res].
    apply (@applied V is_NONE _ takes_rest fs s args kwargs Bs Fs); [| |exact Ns|exact Bk].
    + intros a k B. apply (@overloads_calls V _ _ fs s a k Fs). intros f q Hf Hq. eapply bound_calls; [apply (U f Hf)|exact Hq|now apply B].
    + intros f [ps r] v n Hf (w & ws & Ew & Hq & _) Hv. destruct (U f Hf) as [(_ & N0 & _) _].
      apply (@filled_written V is_Ellipsis Any value_of f ws ps r n v N0); [|exact Hq|exact Hv]. intros x Ix. rewrite Ew. now right.
Qed.
Print Assumptions C101_classes_partial.

(** [partial(f, 1)], [partial(f, 1, y=2)] (the second overload only), [partial(f, 1, 2)], [partial(C().g, 1)], [partial(C)]. *)
Import P_Evaluation.Samples P_Whole.Example.
Definition number z := VConstant (CInt z).
Example C101_example_functions :
  signature_of (PartialCallable (FunctionCallable ([$"m"], [$"f"])) [number 1] [])
  = Ok (Overloaded [mk_plain [] (named_ $"str"); mk_plain [OptionalParameter (named_ $"int") None KEYWORD_ONLY $"y"] (named_ $"int")])
  /\ (exists t, signature_of (PartialCallable (FunctionCallable ([$"m"], [$"f"])) [number 1] [($"y", number 2)]) = Ok t
        /\ all_set t [] [] = true /\ all_set t [number 3] [] = false)
  /\ signature_of (PartialCallable (FunctionCallable ([$"m"], [$"f"])) [number 1; number 2] []) = Err TypeError.
Proof. split; [vm_compute; reflexivity|]. split; [|vm_compute; reflexivity]. eexists. split; [vm_compute; reflexivity|]. split; vm_compute; reflexivity. Qed.
Example C101_example_methods :
  signature_of (PartialCallable (MethodCallable ([$"m"], [$"C"; $"g"]) (InstanceReceiver (number 0) (Ok ([$"m"], [$"C"; $"g"])))) [number 1] [])
  = Ok (Plain (mk_plain [] (named_ $"str")))
  /\ signature_of (PartialCallable (TypeCallable ([$"m"], [$"C"])) [] [])
  = Ok (Plain (mk_plain [RequiredParameter (named_ $"int") POSITIONAL_ONLY $"x"] (VModule $"Self"))).
Proof. split; vm_compute; reflexivity. Qed.
(** What is asked of the arguments, and what [f] accepts *)
Example C101_example_hypotheses :
  (forall f, In f [f1; f2] -> by_position f [$"y"]) /\ ~ In $"self" [$"y"]
  /\ takes_call f2 (1 + 0) [$"y"] /\ ~ takes_call f1 (1 + 0) [$"y"].
Proof.
  split; [intros f [<-|[<-|[]]] x [<-|[]] [E|[]]; discriminate E|]. split; [intros [E|[]]; discriminate E|]. split.
  - split; [left; cbn; lia|]. split.
    + intros kw [<-|[]]. left. eexists. split; [right; left; reflexivity|]. split; [now right|]. split; [reflexivity|].
      cbn. intros [E|[]]. discriminate E.
    + intros p [<-|[<-|[]]] R; [|discriminate R]. left. now left.
  - intros (_ & K & _). destruct (K $"y" (or_introl eq_refl)) as [(p & [<-|[]] & _ & E & _)|((p & [<-|[]] & E) & _)]; discriminate E.
Qed.
