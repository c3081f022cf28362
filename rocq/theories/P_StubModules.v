(** Property C109: modules that exist in stubs only. *)
From Verif Require Import Base Ast Conversion Catalog Scoping Signatures Stubs Evaluation SpecEvaluation EvaluationProofs SpecAliases AliasProofs
  P_Evaluation P_Aliases.
Import P_Evaluation.Samples.

Section Fields.
Context {V : Type}.
Variable py : python V.
Variable stubs : tables.
Variables (made_classes : dict qualified_path V) (made_modules : dict path V) (globals_ : dict pystr V) (new : list qualified_path) (made : list qualified_path * dict qualified_path (list (pystr * V))).
Variables (fuel depth : nat) (open : list qualified_path) (m : path).
Notation sound attributes_ := (sound py stubs made_classes made_modules globals_ attributes_ new made open).
Definition put (d : dict path (dict pystr V)) (x : pystr * V) : dict path (dict pystr V) :=
  dset m (dset (fst x) (snd x) (dget_or m [] d)) d.
Lemma fields_sound names vs : Forall2 (fun n v => stands_for py stubs made_classes made_modules new depth open (m, [n]) v) names vs ->
  depth < fuel -> forall attributes_ c, sound attributes_ c ->
  exists c', evaluate_module_fields (evaluate_qualified_path py stubs fuel) m names c = (c', Ok tt)
    /\ sound (fold_left put (combine names vs) attributes_) c'.
Proof.
  intros F L. induction F as [|n v names vs S F IH]; intros ats c G; [exists c; auto|]. cbn [evaluate_module_fields combine fold_left].
  destruct (path_sound py stubs made_classes made_modules globals_ ats new made depth [] [] [] open fuel _ _ c S ltac:(intros ? ? []) ltac:(intros ? []) G L) as (c1 & E & G1). rewrite E. cbn [ebind].
  apply IH. destruct G1 as (A & (B & C) & D). split; [exact A|]. split; [split; [exact B|]|exact D].
  cbn [bind_name with_names with_attribute attributes]. unfold put. cbn [fst snd]. now rewrite C.
Qed.
Lemma put_all l : forall d, NoDup (map fst (dget_or m [] d) ++ map fst l) ->
  dget_or m [] (fold_left put l d) = dget_or m [] d ++ l /\ forall m', m' <> m -> dget m' (fold_left put l d) = dget m' d.
Proof.
  induction l as [|[n v] l IH]; intros d N; [cbn; rewrite app_nil_r; auto|]. cbn [fold_left].
  assert (X : dget_or m [] (put d (n, v)) = dget_or m [] d ++ [(n, v)]).
  { unfold put. cbn [fst snd]. unfold dget_or at 1. rewrite dget_dset. destruct (eqb_reflect m m); [|contradiction].
    apply dset_absent. intros I. cbn [map fst] in N. apply NoDup_remove_2 in N. apply N, in_app_iff. now left. }
  destruct (IH (put d (n, v))) as [Y Z].
  - rewrite X, map_app, <- app_assoc. exact N.
  - split; [rewrite Y, X, <- app_assoc; reflexivity|]. intros m' M. rewrite (Z m' M). unfold put. rewrite dget_dset.
    destruct (eqb_reflect m' m); [contradiction|reflexivity].
Qed.
End Fields.

(** A module that exists in stubs only is made once, and each name that its stub defines
    becomes an attribute, with the value that the name stands for (C106), in their order. *)
Theorem C109_attributes_partial :
  forall V (py : python V) (stubs : tables) new fuel depth open m sc vs c,
    import_object py (m, []) = NotImportable -> dget m (modules c) = None -> dget m (attributes c) = None ->
    dget m (stub_definitions stubs) = Some sc -> NoDup (dkeys (entries sc)) ->
    let module := new_module py (path_to_string m) in
    Forall2 (fun n v => stands_for py stubs (classes c) (dset m module (modules c)) new depth open (m, [n]) v) (dkeys (entries sc)) vs ->
    depth < fuel -> remembers_right py stubs (classes c) (dset m module (modules c)) new open (aliases c) ->
    exists c', evaluate_qualified_path py stubs (S fuel) (m, []) c = (c', Ok module)
      /\ dget_or m [] (attributes c') = combine (dkeys (entries sc)) vs
      /\ (forall m', m' <> m -> dget m' (attributes c') = dget m' (attributes c))
      /\ modules c' = dset m module (modules c)
      /\ grown py stubs (classes c) (dset m module (modules c)) new (classes c') (globals c) (globals c')
      /\ remembers_right py stubs (classes c) (dset m module (modules c)) new open (aliases c')
      /\ forall fuel', evaluate_qualified_path py stubs (S fuel') (m, []) c' = (c', Ok module).
Proof.
  intros V py stubs new fuel depth open m sc vs c I M A D N module F L R.
  destruct (fields_sound py stubs (classes c) (dset m module (modules c)) (globals c) new (new_classes c, annotations c) fuel depth open m _ _ F L
    (attributes c) (with_module m module c)) as (c' & E & G).
  { now apply sound_start. }
  exists c'. pose proof (sound_end _ _ _ _ _ _ _ _ _ _ G) as R'. destruct G as (G1 & (G2 & G3) & _).
  assert (K : map fst (combine (dkeys (entries sc)) vs) = dkeys (entries sc)).
  { clear - F. induction F as [|x y l l' _ _ IH]; [reflexivity|]. cbn [combine map fst]. now rewrite IH. }
  assert (Z : dget_or m [] (attributes c) = []).
  { unfold dget_or. replace (dget m (attributes c)) with (@None (dict pystr V)) by (symmetry; exact A). reflexivity. }
  destruct (put_all (V:=V) m (combine (dkeys (entries sc)) vs) (attributes c)) as [P1 P2].
  { rewrite Z. cbn [map app]. now rewrite K. }
  split; [|split; [|split; [|split; [exact G2|split; [exact G1|split; [exact R'|]]]]]].
  - cbn [evaluate_qualified_path fst snd]. rewrite I. cbn [is_nil]. unfold evaluate_module. rewrite M. unfold fetch. rewrite D.
    fold module. rewrite E. reflexivity.
  - rewrite G3, P1, Z. reflexivity.
  - intros m' X. rewrite G3. now apply P2.
  - intros fuel'. cbn [evaluate_qualified_path fst snd]. rewrite I. cbn [is_nil]. unfold evaluate_module. rewrite G2, dget_dset, eqb_refl. reflexivity.
Qed.
Print Assumptions C109_attributes_partial.

(** When something in it cannot be evaluated, the exception is raised once. As long as
    something refers to the module after that (the traceback of the exception does;
    [modules_cache] itself is weak, which is not modelled), it is found, as far as it was
    made. *)
Theorem C109_incomplete :
  forall V (py : python V) (stubs : tables) fuel m c c' e,
    import_object py (m, []) = NotImportable -> dget m (modules c) = None ->
    evaluate_qualified_path py stubs (S fuel) (m, []) c = (c', Err e) ->
    exists module, forall fuel', evaluate_qualified_path py stubs (S fuel') (m, []) c' = (c', Ok module).
Proof.
  intros V py stubs fuel m c c' e I M. cbn [evaluate_qualified_path fst snd]. rewrite I. cbn [is_nil]. unfold evaluate_module at 1. rewrite M.
  set (c1 := with_module m (new_module py (path_to_string m)) c). intros E.
  assert (X : made m c').
  { assert (G : le c1 c').
    { destruct (fetch m (stub_definitions stubs)) as [s|x]; [|injection E as <- _; apply le_refl].
      assert (G : grows (evaluate_module_fields (evaluate_qualified_path py stubs fuel) m (dkeys (entries s)))).
      { apply (grows_same stubs). intros n. apply same_module_fields. intros q. apply same_grows, grows_path. }
      specialize (G c1). destruct (evaluate_module_fields _ m (dkeys (entries s)) c1) as [c2 [[]|x]]; cbn [ebind] in E; [discriminate|].
      injection E as <- _. exact G. }
    apply G. apply made_with_module. now left. }
  unfold made in X. destruct (dget m (modules c')) as [w|] eqn:D; [|contradiction]. exists w. intros fuel'. unfold evaluate_module. now rewrite D.
Qed.
Print Assumptions C109_incomplete.

(** [A = List[int]; B = List[A]] in a stub whose module cannot be imported *)
Definition two_aliases := stubs [SAssign [Name $"A"] (list_of_ (Name $"int")); SAssign [Name $"B"] (list_of_ (Name $"A"))].
(** [A = List[int]; B = List[Undefined]; C = List[int]] *)
Definition broken_module :=
  stubs [SAssign [Name $"A"] (list_of_ (Name $"int")); SAssign [Name $"B"] (list_of_ (Name $"Undefined")); SAssign [Name $"C"] (list_of_ (Name $"int"))].
Definition m_ : qualified_path := ([$"m"], []).
Definition int_ := VObject ([$"builtins"], [$"int"]).
Example C109_two_aliases :
  let vs := [List_of int_; List_of (List_of int_)] in
  Forall2 (fun n v => stands_for py two_aliases [] [([$"m"], VModule $"m")] [] 3 [] (in_m n) v) [$"A"; $"B"] vs
  /\ exists c', evaluate_qualified_path py two_aliases 5 m_ empty = (c', Ok (VModule $"m"))
       /\ dget_or [$"m"] [] (attributes c') = [($"A", List_of int_); ($"B", List_of (List_of int_))].
Proof.
  assert (A : forall depth open, ~ In (in_m $"A") open -> stands_for py two_aliases [] [([$"m"], VModule $"m")] [] (S (S depth)) open (in_m $"A") (List_of int_)).
  { intros depth open N. right; right; right. split; [intros ? ?; discriminate|]. split; [discriminate|]. split; [reflexivity|]. right.
    exists [in_m $"A"], (list_of_ (Name $"int")). split; [|split; [cbn; intuition (subst; auto)|]].
    - assigned [$"A"] (list_of_ (Name $"int")).
    - eapply means_item; [apply means_name|apply means_name|reflexivity]; eexists; (split; [vm_compute; reflexivity|right]); left; reflexivity. }
  cbn zeta. match goal with |- ?P /\ _ => assert (H : P) end.
  - constructor; [apply A; cbn; tauto|]. constructor; [|constructor]. stand [$"B"] (list_of_ (Name $"A")).
    + assigned [$"B"] (list_of_ (Name $"A")).
    + eapply means_item; [apply means_name|apply means_name|reflexivity]; eexists; (split; [vm_compute; reflexivity|right]); [left; reflexivity|apply A; cbn; intuition discriminate].
  - split; [exact H|].
    destruct (C109_attributes_partial _ py two_aliases [] 4 3 [] [$"m"] (Scope [($"A", Scope []); ($"B", Scope [])])
      [List_of int_; List_of (List_of int_)] empty) as (c' & E & K & _); try reflexivity.
    + repeat constructor; cbn; intuition discriminate.
    + exact H.
    + auto.
    + intros q w d v D. discriminate D.
    + exists c'. split; [exact E|exact K].
Qed.
(** The exception is raised once; what comes after the name that failed is missing. *)
Example C109_broken : exists c',
  evaluate_qualified_path py broken_module 5 m_ empty = (c', Err OtherException)
  /\ evaluate_qualified_path py broken_module 5 m_ c' = (c', Ok (VModule $"m"))
  /\ dget_or [$"m"] [] (attributes c') = [($"A", List_of int_)].
Proof. eexists. split; [|split]; vm_compute; reflexivity. Qed.

(** Not every name of the stub becomes an attribute: one that is another name for
    something is not among the definitions of the stub. It can be evaluated by itself. *)
Theorem C109_other_names_refuted : exists (t : tables) c',
  t = stubs [SAssign [Name $"A"] (Name $"int"); SAssign [Name $"B"] (list_of_ (Name $"int"))]
  /\ evaluate_qualified_path py t 5 m_ empty = (c', Ok (VModule $"m"))
  /\ resolve t [$"m"] [] [$"A"] = Ok ([$"builtins"], [$"int"])
  /\ dget_or [$"m"] [] (attributes c') = [($"B", List_of int_)].
Proof. do 2 eexists. split; [reflexivity|]. split; [|split]; vm_compute; reflexivity. Qed.
Print Assumptions C109_other_names_refuted.
