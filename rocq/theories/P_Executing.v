(** Property C104: what executing statements of stubs gives (arboreal/execution.py). *)
From Verif Require Import Base Ast Conversion Catalog Scoping Signatures Stubs SpecStubs LazyText Evaluation SpecEvaluation EvaluationProofs.
From Verif Require Import Executing SpecExecuting ExecutingProofs.
From Verif Require StubsProofs P_Stubs P_Evaluation.

(** ** Conditions *)
(** The value of a condition is the one it has where names stand for what they were given,
    and otherwise for builtins. Nothing but [__builtins__] is left behind. *)
Theorem C104_conditions :
  forall V (py : python V) machine e ns,
    NoDup (dkeys ns) -> ~ In $"__builtins__" (dkeys ns) -> ~ In $"@tmp" (dkeys ns) ->
    (forall v, has_value py machine (seen machine ns) e v ->
       evaluate_condition py machine e ns = (ns ++ [($"__builtins__", builtins_namespace machine)], Ok v))
    /\ ((forall v, ~ has_value py machine (seen machine ns) e v) -> exists x, evaluate_condition py machine e ns = (ns, Err x)).
Proof.
  intros V py machine e ns D N T. split; [now apply condition_value|].
  intros H. destruct (condition_error py machine e ns N H) as (x & E & _). eauto.
Qed.
Print Assumptions C104_conditions.

Lemma condition_names_spec V (py : python V) bindings : forall ns0 ns,
  condition_names py bindings ns0 = Ok ns -> NoDup (map fst bindings) -> NoDup (dkeys ns0) ->
  (forall n, In n (map fst bindings) -> ~ In n (dkeys ns0)) ->
  NoDup (dkeys ns) /\ (forall n, In n (dkeys ns) <-> In n (dkeys ns0) \/ In n (map fst bindings))
  /\ (forall n v, dget n ns0 = Some v -> dget n ns = Some v)
  /\ (forall n q, In (n, q) bindings -> exists v, import_object py q = Imported v /\ dget n ns = Some v).
Proof.
  induction bindings as [|[n q] r IH]; intros ns0 ns E B D F; cbn [condition_names] in E.
  - injection E as <-. cbn [map In]. repeat split; try tauto; easy.
  - unfold import_name in E. destruct (import_object py q) as [| |v] eqn:I; try discriminate. cbn [bind_res] in E.
    cbn [map fst] in B, F. inversion_clear B as [|? ? B1 B2].
    assert (F0 : ~ In n (dkeys ns0)) by (apply F; now left).
    destruct (IH _ _ E B2) as (D' & K & P & Q).
    + apply dset_NoDup. exact D.
    + intros x Ix Ix'. rewrite dset_new in Ix' by exact F0. unfold dkeys in Ix'. rewrite map_app in Ix'. apply in_app_or in Ix' as [Ix'|[Ix'|[]]].
      * apply (F x); [now right|exact Ix'].
      * cbn [fst] in Ix'. congruence.
    + split; [exact D'|]. split; [|split].
      * intros x. rewrite K, dset_new by exact F0. unfold dkeys. rewrite map_app, in_app_iff. cbn [map fst In]. tauto.
      * intros x w X. apply P. rewrite dget_dset. destruct (eqb_reflect x n) as [->|]; [|exact X]. rewrite (proj2 (dget_none_iff n ns0) F0) in X. discriminate.
      * intros x qx [X|X]; [|now apply Q]. injection X as <- <-. exists v. split; [exact I|]. apply P. now rewrite dget_dset, eqb_refl.
Qed.

(** The branch of [if] that is read is given by the truth of the test where each name in it
    stands for the object that is imported from where the name is resolved to. *)
Theorem C104_branch_partial :
  forall V (py : python V) machine is_package parse resolve m parent test body orelse st st' u,
    (forall n, test <> Name n) -> ~ occurs $"@tmp" test -> ~ occurs $"__builtins__" test ->
    let read := visit is_package (condition py machine) parse resolve m parent in
    read (SIf test body orelse) st = Done st' u ->
    exists bindings st1 v c,
      (forall n, In n (map fst bindings) <-> occurs n test)
      /\ looked_up resolve m parent st bindings st1
      /\ (forall named, (forall n q, In (n, q) bindings -> exists w, import_object py q = Imported w /\ named n = Some w) ->
            has_value py machine named test v)
      /\ truth machine v = Ok c
      /\ each read (if c then body else orelse) st1 = Done st' u.
Proof.
  intros V py machine ip parse re m parent test body orelse st st' u NN NT NB read H.
  destruct (P_Stubs.C68_names_partial ip (condition py machine) parse re m parent test body orelse st st' u NN H)
    as (bindings & st1 & c & B & O & L & C & E).
  unfold condition in C. destruct (condition_names py bindings []) as [ns|] eqn:Ns; [|discriminate]. cbn [bind_res] in C.
  destruct (condition_names_spec V py bindings [] ns Ns B) as (D & K & _ & P); [constructor|easy|].
  assert (K' : forall n, In n (dkeys ns) <-> occurs n test) by (intros n; rewrite K, O; cbn; tauto).
  destruct (value_in py machine (ns ++ [(builtins_name, builtins_namespace machine)]) test) as [v|x] eqn:Ev.
  - apply executed_value in Ev; [|intros X; now apply K' in X].
    rewrite (condition_value py machine test ns D) with (v := v) in C; [|intros X; now apply K' in X|intros X; now apply K' in X|exact Ev].
    cbn [snd bind_res] in C. exists bindings, st1, v, c. split; [exact O|]. split; [exact L|]. split; [|split; [exact C|exact E]].
    intros named Hn. revert Ev. apply has_value_local. intros n Hin. apply StubsProofs.occurs_names in Hin. apply O in Hin.
    apply in_map_iff in Hin as ([n' q] & <- & Hin). cbn [fst]. destruct (P _ _ Hin) as (w & I & G), (Hn _ _ Hin) as (w' & I' & G').
    rewrite G'. unfold seen. rewrite dget_app, G. congruence.
  - exfalso. destruct (condition_error py machine test ns) as (x' & E' & _).
    + intros X. now apply K' in X.
    + intros v Hv. apply executed_value in Hv; [|intros X; now apply K' in X]. rewrite Ev in Hv. discriminate.
    + rewrite E' in C. discriminate.
Qed.
Print Assumptions C104_branch_partial.

(** A single name that is no builtin cannot be a test, such as [if TYPE_CHECKING: ...], although
    it is imported. *)
Theorem C104_bare_name_refuted :
  forall V (py : python V) machine is_package parse resolve m parent name body orelse st,
    name <> $"__builtins__" -> builtin machine (builtins_namespace machine) name = None ->
    visit is_package (condition py machine) parse resolve m parent (SIf (Name name) body orelse) st = Fails NameError.
Proof.
  intros V py machine ip parse re m parent name body orelse st N B. rewrite P_Stubs.C68_bare_name_refuted.
  unfold condition. cbn [condition_names bind_res].
  assert (E : evaluate_condition py machine (Name name) [] = ([], Err NameError)).
  { unfold evaluate_condition, execute_statement, exec. cbn [dmem dget dset run_statement value_in]. unfold look_up.
    apply eqb_neq in N. change (name == builtins_name = false) in N. rewrite !dget_cons, N, eqb_refl, B. reflexivity. }
  now rewrite E.
Qed.
Print Assumptions C104_bare_name_refuted.

(** ** Functions *)
(** A definition is executed to the function of its evaluated defaults, with texts for
    annotations, wrapped by its decorators; if there is no such thing, it fails. *)
Theorem C104_functions :
  forall V (py : python V) machine ns q s v,
    NoDup (dkeys ns) -> ~ In $"__builtins__" (dkeys ns) ->
    (execute_function py machine ns q s = Ok v
     <-> exists f, (s = SFunctionDef f /\ function_gives py machine (seen machine ns) false f v)
                   \/ (s = SAsyncFunctionDef f /\ function_gives py machine (seen machine ns) true f v)).
Proof.
  intros V py machine ns q s v D N. unfold execute_function. destruct s; try (split; [discriminate|intros (f' & [[X _]|[X _]]); discriminate X]).
  all: rewrite (function_executed py machine ns _ _ v D N); split; [eauto|].
  - intros (f' & [[X G]|[X _]]); [|discriminate X]. now injection X as <-.
  - intros (f' & [[X _]|[X G]]); [discriminate X|]. now injection X as <-.
Qed.
Print Assumptions C104_functions.

Lemma function_gives_local V (py : python V) machine named named' asynchronous f v :
  (forall e n, In e (fd_decorators f) \/ In e (defaults (fd_args f)) \/ In (Some e) (kw_defaults (fd_args f)) ->
     In n (names_in e) -> named n = named' n) ->
  function_gives py machine named asynchronous f v -> function_gives py machine named' asynchronous f v.
Proof.
  intros N (f' & ds & vs & ks & ans & L & Hd & Hv & Hk & Ha & Hw). exists f', ds, vs, ks, ans. split; [exact L|].
  split; [eapply have_values_local; [|exact Hd]; intros e n I; apply N; tauto|].
  split; [eapply have_values_local; [|exact Hv]; intros e n I; apply N; tauto|].
  split; [|now split]. assert (N' : forall e n, In (Some e) (kw_defaults (fd_args f)) -> In n (names_in e) -> named n = named' n) by (intros; eapply N; eauto).
  clear - Hk N'. revert Hk N'. generalize (kw_defaults (fd_args f)) as l. generalize (kwonlyargs (fd_args f)). revert ks.
  intros ks as_ l. revert ks l. induction as_ as [|a as_ IH]; intros ks [|o l] K N; cbn [combine] in *; try (inversion K; constructor).
  - subst. eapply IH; [eassumption|]. intros e n I. apply N. now right.
  - subst. eapply has_value_local; [|eassumption]. intros n. apply N. now left.
  - subst. eapply IH; [eassumption|]. intros e' n I. apply N. now right.
Qed.

(** Functions of stub-only classes (C72, C87): the names in decorators and defaults are imported, and
    those resolved to builtins have the names they have there. *)
Theorem C104_runs_partial :
  forall V (py : python V) machine (stubs : tables) m parent (own : list pystr) f (asynchronous : bool) named v,
    let s := if asynchronous then SAsyncFunctionDef f else SFunctionDef f in
    ~ In $"__builtins__" own ->
    (forall n, looked_up_at_once n s ->
       ~ In n ($"__module__" :: $"__name__" :: $"__builtins__" :: own)
       /\ exists q w, Evaluation.resolve stubs m parent [n] = Ok q /\ import_object py q = Imported w /\ named n = Some w
                      /\ (fst q = [$"builtins"] -> builtin machine (builtins_namespace machine) n = Some w)) ->
    function_gives py machine named asynchronous f v ->
    runs (with_execution py machine) stubs m parent own (fd_name f) s v.
Proof.
  intros V py machine stubs m parent own f asy named v s OB H G. exists f.
  split; [unfold s; destruct asy; auto|]. split; [reflexivity|]. split; [|split; [exact OB|]].
  - intros n Hn. destruct (H n Hn) as (O & q & w & Q & I & _). split; [|exact O]. exists w, q. now split.
  - intros ns (D & NB & P). change (execute_function py machine ns (m, parent ++ [fd_name f]) s = Ok v).
    apply C104_functions; [exact D|exact NB|]. exists f.
    assert (G' : function_gives py machine (seen machine ns) asy f v).
    { revert G. apply function_gives_local. intros e n I Hn. apply StubsProofs.occurs_names in Hn.
      assert (At : looked_up_at_once n s).
      { exists f, e. split; [unfold s; destruct asy; auto|]. split; [exact Hn|]. tauto. }
      destruct (H n At) as (O & q & w & Q & Im & En & Bu), (P n At) as (q' & w' & Q' & Im' & C). rewrite En. unfold seen. rewrite dget_app.
      change (import_object (with_execution py machine) q' = Imported w') with (import_object py q' = Imported w') in Im'.
      assert (q' = q) as -> by congruence. assert (w' = w) as -> by congruence.
      destruct C as [[Bq E]|[Bq E]].
      - rewrite E, dget_cons. destruct (eqb_reflect n $"__builtins__") as [->|]; [destruct O; cbn; tauto|]. cbn [dget]. symmetry. now apply Bu.
      - now rewrite E. }
    unfold s. destruct asy; [right|left]; now split.
Qed.
Print Assumptions C104_runs_partial.

(** A builtin under another name ([from builtins import int as _int]) is left out of the names at
    hand and not found by Python: a class with a method that has such a default cannot be
    evaluated. *)
Theorem C104_renamed_builtin_refuted :
  forall V (py : python V) machine (stubs : tables) fuel (m o : path) module_nodes module_kinds definitions name n f object w c,
    o <> [] -> dget (m, o) (classes c) = None -> (forall w, import_object py (m, o) <> Imported w) ->
    dget m (stub_nodes stubs) = Some module_nodes ->
    dget m (stub_kinds stubs) = Some module_kinds -> dget o module_kinds = Some CLASS ->
    dget m (stub_definitions stubs) = Some definitions -> scope_at definitions o = Ok (Scope [(name, Scope [])]) ->
    dget (o ++ [name]) module_nodes = Some [SFunctionDef f] -> fd_name f = name -> name <> $"__builtins__" ->
    fd_decorators f = [] -> kw_defaults (fd_args f) = [] -> defaults (fd_args f) = [Name n] ->
    (exists f', lazy_function f = Ok f') ->
    ~ In n [$"__module__"; $"__name__"; $"__builtins__"; name] ->
    Evaluation.resolve stubs m o [n] = Ok ([$"builtins"], object) -> import_object py ([$"builtins"], object) = Imported w ->
    builtin machine (builtins_namespace machine) n = None ->
    evaluate_qualified_path (with_execution py machine) stubs (S (S fuel)) (m, o) c = (c, Err NameError).
Proof.
  intros V py machine stubs fuel m o mn mk ds name n f ob w c NE NC NI N K Kc D Sc Ns Hf NB Fd Fk Fv (f' & L) Nn Q I B.
  assert (At : forall x, looked_up_at_once x (SFunctionDef f) -> x = n).
  { intros x (g & e & [S|S] & O & In); [|discriminate S]. injection S as <-. rewrite Fd, Fk, Fv in In. destruct In as [[]|[[<-|[]]|[]]].
    apply StubsProofs.occurs_names in O. destruct O as [O|[]]. congruence. }
  destruct (@P_Evaluation.C87_method_partial V (with_execution py machine) stubs fuel m o mn mk ds name (SFunctionDef f) f c
              NE NC NI N K Kc D Sc Ns (or_introl eq_refl) Hf) as (ns & (Dn & Bn & P) & E).
  - intros x Hx. apply At in Hx as ->. split; [|exact Nn]. exists w, ([$"builtins"], ob). now split.
  - exact NB.
  - apply E. change (execute_function py machine ns (m, o ++ [name]) (SFunctionDef f) = Err NameError).
    unfold execute_function. rewrite L. cbn [bind_res]. unfold execute_statement, exec. rewrite not_builtins by exact Bn. cbn [run_statement].
    destruct (lazy_annotations py machine f f' L) as (_ & Ed & Edf & _). rewrite Ed, Edf, Fd, Fv. cbn [map_m bind_res value_in].
    rewrite look_up_seen by exact Bn. unfold seen. rewrite dget_app.
    assert (Hn : looked_up_at_once n (SFunctionDef f)).
    { exists f, (Name n). split; [now left|]. split; [constructor|]. right. left. rewrite Fv. now left. }
    destruct (P n Hn) as (q & w' & Q' & _ & C). rewrite Q in Q'. injection Q' as <-. destruct C as [[_ C]|[C _]]; [|now destruct C].
    rewrite C, dget_cons. destruct (eqb_reflect n $"__builtins__") as [->|]; [destruct Nn; cbn; tauto|]. cbn [dget]. now rewrite B.
Qed.
Print Assumptions C104_renamed_builtin_refuted.

(** ** Examples *)
Module Samples.
Import P_Evaluation.Samples.
(** [int], [str] and [object] are builtins; all other expressions give [None]. *)
Definition machine : interpreter value := {|
  builtins_namespace := VModule $"builtins";
  builtin := fun _ n => if mem n [$"int"; $"str"; $"object"] then Some (VObject ([$"builtins"], [n])) else None;
  other := fun es seen => Ok (VTuple (map (fun p => match snd p with Some v => v | None => VDict [] end) seen));
  make_function := fun asynchronous f vs ks ans =>
    VFunction ([], [fd_name f]) (VConstant (if asynchronous then CTrue else CFalse) :: vs ++ map snd ks ++ map snd ans);
  truth := fun v => match v with VTuple [] => Ok false | _ => Ok true end |}.
(** [@List @int async def f(x: str, y: int = List, *, z=int, **k) -> Undefined] *)
Definition f := mk_function_def $"f"
  (mk_arguments [] [mk_arg $"x" (Some (Name $"str")); mk_arg $"y" (Some (Name $"int"))] None [mk_arg $"z" None] [Some (Name $"int")]
     (Some (mk_arg $"k" None)) [Name $"List"]) [Name $"List"; Name $"int"] (Some (Name $"Undefined")).
Definition List_ := VObject ([$"typing"], [$"List"]).
Definition int_ := VObject ([$"builtins"], [$"int"]).
Definition text t := VConstant (CStr t).
Definition f_value :=
  VOperation [List_; VOperation [int_; VFunction ([], [$"f"]) [VConstant CTrue; List_; int_; text $"str"; text $"int"; text $"Undefined"]]].
Definition renaming : tables :=
  match parse_stubs_state
          (source [builtins; ([$"m"], [SImportFrom (Some $"builtins") [mk_alias $"int" (Some $"_int")] 0;
                                       SClassDef $"C" [] [P_Evaluation.def_ $"f" [Name $"_int"] []]])])
          (fun _ => false) (fun _ _ => Ok true) (fun _ => true) 50 20 [[$"m"]] with
  | Ok st => tables_of st
  | Err _ => mk_tables (fun _ _ _ => Err OtherException) [] [] [] []
  end.
End Samples.
Import P_Evaluation.Samples Samples.
Example C104_function_example :
  execute_function py machine [($"List", List_)] ([$"m"], [$"f"]) (SAsyncFunctionDef f) = Ok f_value
  /\ execute_function py machine [($"List", List_)] ([$"m"], [$"f"]) (SFunctionDef f) <> Ok f_value
  /\ execute_function py machine [] ([$"m"], [$"f"]) (SAsyncFunctionDef f) = Err NameError.
Proof. split; [vm_compute; reflexivity|]. split; [vm_compute; discriminate|vm_compute; reflexivity]. Qed.
Example C104_condition_example :
  evaluate_condition py machine (OtherExpr [Name $"a"; Name $"int"]) [($"a", List_)]
  = ([($"a", List_); ($"__builtins__", VModule $"builtins")], Ok (VTuple [List_; int_]))
  /\ evaluate_condition py machine (Name $"b") [($"a", List_)] = ([($"a", List_)], Err NameError).
Proof. split; vm_compute; reflexivity. Qed.
(** [if <comparison with a>: ...] reads the first branch, [if <empty tuple>: ...] the second. *)
Example C104_branch_example :
  let read test := visit (fun _ => false) (condition py machine) (fun _ st => Done st (Scope []))
                     (fun _ _ o st => Done st ([$"typing"], o)) [$"m"] [] (SIf test [SAssign [Name $"x"] (Constant CNone)] []) empty_state in
  (exists st, read (OtherExpr [Name $"a"]) = Done st tt /\ nodes st <> [])
  /\ read (OtherExpr []) = Done empty_state tt
  /\ read (Name $"TYPE_CHECKING") = Fails NameError.
Proof. cbv zeta. split; [eexists; split; [vm_compute; reflexivity|vm_compute; discriminate]|]. split; vm_compute; reflexivity. Qed.
(** [from builtins import int as _int; class C: def f(self, x=_int): ...] *)
Example C104_renamed_example :
  snd (evaluate_qualified_path (with_execution py machine) renaming 20 ([$"m"], [$"C"]) empty) = Err NameError
  /\ Evaluation.resolve renaming [$"m"] [$"C"] [$"_int"] = Ok ([$"builtins"], [$"int"]).
Proof. split; vm_compute; reflexivity. Qed.
(** [class C: (@List def f(self): ...)] is as [C104_runs_partial] asks. *)
Example C104_runs_example :
  runs (with_execution py machine) P_Evaluation.decorated_method [$"m"] [$"C"] [$"f"] $"f" (P_Evaluation.def_ $"f" [] [Name $"List"])
    (VOperation [List_; VFunction ([], [$"f"]) [VConstant CFalse]]).
Proof.
  apply (C104_runs_partial value py machine P_Evaluation.decorated_method [$"m"] [$"C"] [$"f"]
           (mk_function_def $"f" (mk_arguments [] [] None [] [] None []) [Name $"List"] None) false
           (fun n => if n == $"List" then Some List_ else None)).
  - intros [X|[]]. discriminate X.
  - intros n (g & e & [S|S] & O & I); [|discriminate S]. injection S as <-. destruct I as [[<-|[]]|[[]|[]]].
    apply StubsProofs.occurs_names in O. destruct O as [<-|[]]. split; [cbn; intros [X|[X|[X|[X|[]]]]]; discriminate X|].
    exists ([$"typing"], [$"List"]), List_. split; [vm_compute; reflexivity|]. split; [vm_compute; reflexivity|]. split; [reflexivity|discriminate].
  - do 5 eexists. split; [reflexivity|]. split; [repeat econstructor|]. split; [constructor|]. split; [constructor|]. split; [repeat constructor|].
    econstructor; [constructor|reflexivity].
Qed.
