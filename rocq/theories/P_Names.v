(** Properties C81, C82: what names in stubs stand for. *)
From Coq Require Import Relations Wellfounded.
From Verif Require Import Base Ast Scoping SpecScoping ScopingProofs Stubs SpecStubs StubsProofs SpecNames NamesProofs.

(** ** C81 *)
(** The answer of a lookup is given by the order of [found], with the tables of the
    state after it; the modules begun before it are as they were. *)
Theorem C81_lookup_order :
  forall source is_package condition fuel limit m parent o st,
    well_told st -> In builtins_path (visited st) ->
    let parse := parse_stub_scope source is_package condition fuel in
    match resolve_in parse limit m parent o st with
    | Done st' q => unchanged st st' /\ found (gives_up parse st) st' m parent o (Some q)
    | Missing st' => unchanged st st' /\ found (gives_up parse st) st' m parent o None
    | Fails _ => True
    end.
Proof. intros so ip co fu li m parent o st W B. exact (@looks_up so ip co fu li m parent o st W B). Qed.
Print Assumptions C81_lookup_order.
(** These are the states in which names are looked up (see C74-C76). *)
Theorem C81_states :
  forall source is_package condition fuel modules final u st,
    parse_modules source is_package condition fuel modules = Done final u ->
    earlier st final -> visited st <> [] ->
    well_told st /\ In builtins_path (visited st).
Proof. exact run_states. Qed.
Print Assumptions C81_states.
(** If the modules are already read, there is only one answer ... *)
Theorem C81_one_answer :
  forall st m parent o r r',
    found (fun _ => False) st m parent o r -> found (fun _ => False) st m parent o r' -> r = r'.
Proof. intros st m parent o r r' H. exact (found_once H (r' := r')). Qed.
Print Assumptions C81_one_answer.
(** ... and it is given, if the recursion limit permits. *)
Theorem C81_answer_given :
  forall source is_package condition fuel st m parent o r,
    found (fun _ => False) st m parent o r -> all_read st m -> known (db st) builtins_path ->
    exists k, forall limit, k <= limit ->
      resolve_in (parse_stub_scope source is_package condition fuel) limit m parent o st
      = match r with Some q => Done st q | None => Missing st end.
Proof. intros so ip co fu st m parent o r F A K. exact (@found_resolved so ip co fu st m parent o r K F A). Qed.
Print Assumptions C81_answer_given.

(** ** C82 *)
Theorem C82_without_cycles_partial :
  forall source is_package condition fuel st m parent n rest,
    no_cycle st m -> all_read st m -> known (db st) builtins_path ->
    exists r k, forall limit, k <= limit ->
      resolve_in (parse_stub_scope source is_package condition fuel) limit m parent (n :: rest) st
      = match r with Some q => Done st q | None => Missing st end.
Proof.
  intros so ip co fu st m parent n rest C A K. destruct (answer_exists C A parent n rest) as [r F].
  exists r. now apply found_resolved.
Qed.
Print Assumptions C82_without_cycles_partial.

(** With cycles, exactly those lookups end in which no module is asked again and
    again ([comes_to_an_end]); the others give [RecursionError] whatever the limit. *)
Theorem C82_exactly :
  forall source is_package condition fuel st m parent n rest,
    all_read st m -> known (db st) builtins_path ->
    (exists limit, resolve_in (parse_stub_scope source is_package condition fuel) limit m parent (n :: rest) st
       <> Fails RecursionError)
    <-> comes_to_an_end st m parent (n :: rest).
Proof. intros so ip co fu st m parent n rest A K. exact (@ends_iff so ip co fu st m parent n rest A K). Qed.
Print Assumptions C82_exactly.

Theorem C82_cycles :
  forall source is_package condition fuel st m parent n rest s,
    all_read st m -> known (db st) builtins_path ->
    clos_refl_trans _ (asks st (n :: rest)) (s, []) (m, parent) ->
    clos_trans _ (asks st (n :: rest)) (s, []) (s, []) ->
    forall limit, resolve_in (parse_stub_scope source is_package condition fuel) limit m parent (n :: rest) st
      = Fails RecursionError.
Proof. intros so ip co fu st m parent n rest s A K S C limit. exact (@cycle_fails so ip co fu st m parent n rest s A K S C limit). Qed.
Print Assumptions C82_cycles.

(** Two modules with star imports of each other: [from b import *; class C(object)]
    and [from a import *]. *)
Module Cycle.
Definition source (m : path) : option (list stmt) :=
  dget m [([$"builtins"], [SClassDef $"object" [] []]);
          ([$"a"], [SImportFrom (Some $"b") [mk_alias $"*" None] 0; SClassDef $"C" [Name $"object"] []]);
          ([$"b"], [SImportFrom (Some $"a") [mk_alias $"*" None] 0])].
Definition no_package : path -> bool := fun _ => false.
Definition any_condition : list (pystr * qualified_path) -> expr -> res bool := fun _ _ => Ok true.
Notation parse := (parse_stub_scope source no_package any_condition).

Definition star_pair (st : state) : Prop :=
  In [$"a"] (visited st) /\ In [$"b"] (visited st)
  /\ star_imports (db st) [$"a"] = [[$"b"]] /\ star_imports (db st) [$"b"] = [[$"a"]]
  /\ dget [$"a"] (definitions (db st)) = Some (Scope [($"C", Scope [])])
  /\ dget [$"b"] (definitions (db st)) = Some (Scope []).
Definition a_scope : scope := Scope [($"C", Scope [])].
Lemma in_a fuel limit st :
  In [$"a"] (visited st) -> star_imports (db st) [$"a"] = [[$"b"]] -> dget [$"a"] (definitions (db st)) = Some a_scope ->
  resolve_in (parse fuel) limit [$"b"] [] [$"object"] st = Fails RecursionError ->
  resolve_in (parse fuel) (S limit) [$"a"] [] [$"object"] st = Fails RecursionError.
Proof.
  intros Va Sa Da E. cbn [resolve_in]. rewrite (@parse_read source no_package any_condition fuel st [$"a"] a_scope Va Da). cbn [sbind app].
  change (scope_contains_path a_scope [$"object"]) with false. change (dmem $"object" (entries a_scope)) with false. cbv iota.
  rewrite star_imports_or. rewrite Sa. cbn [try_submodules]. now rewrite E.
Qed.
Lemma endless fuel limit st : star_pair st ->
  resolve_in (parse fuel) limit [$"a"] [] [$"object"] st = Fails RecursionError
  /\ resolve_in (parse fuel) limit [$"b"] [] [$"object"] st = Fails RecursionError.
Proof.
  intros (Va & Vb & Sa & Sb & Da & Db). induction limit as [|limit [IHa IHb]]; [now split|].
  split; [now apply in_a|].
  cbn [resolve_in]. rewrite (@parse_read source no_package any_condition fuel st [$"b"] (Scope []) Vb Db). cbn [sbind app].
  change (scope_contains_path (Scope []) [$"object"]) with false. change (dmem $"object" (entries (Scope []))) with false. cbv iota.
  rewrite star_imports_or. rewrite Sb. cbn [try_submodules]. now rewrite IHa.
Qed.
(** The states after builtins, before the base of [C] is looked up, and after [b] *)
Definition after_builtins : state :=
  Eval vm_compute in match parse 3 builtins_path empty_state with Done st _ => st | _ => empty_state end.
Definition before_lookup : state :=
  Eval vm_compute in
    match each (visit no_package any_condition (parse 0) (fun _ _ _ st => Fails OtherException) [$"a"] [])
            [SImportFrom (Some $"b") [mk_alias $"*" None] 0; SClassDef $"C" [] []] (opened [$"a"] after_builtins) with
    | Done st _ => st
    | _ => empty_state
    end.
Definition after_b : state :=
  Eval vm_compute in match parse 3 [$"b"] before_lookup with Done st _ => st | _ => empty_state end.
Lemma lookup fuel limit : resolve_in (parse (S fuel)) limit [$"a"] [] [$"object"] before_lookup = Fails RecursionError.
Proof.
  destruct limit as [|limit]; [reflexivity|]. apply in_a; [vm_compute; tauto|reflexivity|reflexivity|].
  destruct limit as [|limit]; [reflexivity|]. cbn [resolve_in].
  assert (E : parse (S fuel) [$"b"] before_lookup = Done after_b (Scope [])) by reflexivity. rewrite E. cbn [sbind app].
  change (scope_contains_path (Scope []) [$"object"]) with false. change (dmem $"object" (entries (Scope []))) with false. cbv iota.
  change (dget_or [$"b"] [] (submodules (db after_b))) with [[$"a"]]. cbn [try_submodules].
  assert (P : star_pair after_b) by (repeat split; vm_compute; tauto). destruct (endless (S fuel) limit after_b P) as [-> _]. reflexivity.
Qed.
End Cycle.
(** After [b] has been read: [a] is asked, then [b], then [a]; [C] is found at once. *)
Example C82_exactly_case :
  all_read Cycle.after_b [$"a"] /\ known (db Cycle.after_b) builtins_path
  /\ clos_trans _ (asks Cycle.after_b [$"object"]) ([$"a"], []) ([$"a"], [])
  /\ ~ comes_to_an_end Cycle.after_b [$"a"] [] [$"object"]
  /\ comes_to_an_end Cycle.after_b [$"b"] [] [$"C"].
Proof.
  assert (C : clos_trans _ (asks Cycle.after_b [$"object"]) ([$"a"], []) ([$"a"], [])).
  { apply t_trans with ([$"b"], []); apply t_step;
      (eapply asks_star with (before := []); [reflexivity| |reflexivity|now intros b []]);
      split; intros D; eapply defined_contains in D; try reflexivity; vm_compute in D; discriminate D. }
  split; [|split; [vm_compute; tauto|split; [exact C|split]]].
  - assert (G : forall m s, starred Cycle.after_b m s -> m = [$"a"] \/ m = [$"b"] -> s = [$"a"] \/ s = [$"b"]).
    { induction 1 as [m|m m' s H _ IH]; intros M; [exact M|]. apply IH.
      destruct M as [->| ->]; vm_compute in H; destruct H as [<-|[]]; auto. }
    intros s Hs. destruct (G _ _ Hs) as [->| ->]; [now left| |]; (split; [vm_compute; tauto|split; vm_compute; tauto]).
  - intros F. exact (acc_no_cycle F C).
  - apply found_ends with (r := Some ([$"a"], [$"C"])).
    eapply fo_star with (before := []) (s := [$"a"]); [vm_compute; tauto| |reflexivity|now intros b []|].
    + split; intros D; eapply defined_contains in D; try reflexivity; vm_compute in D; discriminate D.
    + apply (@fo_enclosing (fun _ => False) Cycle.after_b [$"a"] [] $"C" []); [vm_compute; tauto|].
      eexists. split; [reflexivity|]. econstructor; [reflexivity|constructor].
Qed.
(** The base of [C] is never found, whatever the recursion limit. *)
Theorem C82_star_cycles_refuted :
  forall fuel, parse_modules Cycle.source Cycle.no_package Cycle.any_condition fuel [[$"a"]] = Fails RecursionError.
Proof.
  intros [|[|fuel]]; [reflexivity|vm_compute; reflexivity|]. unfold parse_modules. cbn [each].
  assert (E1 : parse_stub_scope Cycle.source Cycle.no_package Cycle.any_condition (S (S fuel)) builtins_path empty_state
    = Done Cycle.after_builtins (Scope [($"object", Scope [])])) by reflexivity.
  rewrite E1. cbn [sbind].
  assert (E2 : parse_stub_scope Cycle.source Cycle.no_package Cycle.any_condition (S (S fuel)) [$"a"] Cycle.after_builtins = Fails RecursionError);
    [|now rewrite E2].
  pose proof (Cycle.lookup fuel (S fuel)) as L. remember (S fuel) as f. clear Heqf.
  cbn [parse_stub_scope]. lazy -[resolve_in parse_stub_scope].
  lazy -[resolve_in parse_stub_scope] in L. rewrite L. reflexivity.
Qed.
Print Assumptions C82_star_cycles_refuted.

(** [from b import *; from b import X as Y; class A: class B] and [class X]: the
    answers of all kinds *)
Module Sample.
Definition source (m : path) : option (list stmt) :=
  dget m [([$"builtins"], [SClassDef $"object" [] []]);
          ([$"a"], [SImportFrom (Some $"b") [mk_alias $"*" None] 0; SImportFrom (Some $"b") [mk_alias $"X" (Some $"Y")] 0;
                    SClassDef $"A" [] [SClassDef $"B" [] []]]);
          ([$"b"], [SClassDef $"X" [] []])].
Definition read : step unit := parse_modules source Cycle.no_package Cycle.any_condition 5 [[$"a"]; [$"b"]].
Definition state : state := Eval vm_compute in match read with Done st _ => st | _ => empty_state end.
Definition lookup (parent o : path) : step qualified_path :=
  resolve_in (parse_stub_scope source Cycle.no_package Cycle.any_condition 5) 5 [$"a"] parent o state.
End Sample.
Example C81_example :
  Sample.read = Done Sample.state tt
  /\ Sample.lookup [$"A"] [$"B"; $"f"] = Done Sample.state ([$"a"], [$"A"; $"B"; $"f"])
  /\ Sample.lookup [$"A"] [$"A"; $"B"] = Done Sample.state ([$"a"], [$"A"; $"B"])
  /\ Sample.lookup [] [$"X"; $"f"] = Done Sample.state ([$"b"], [$"X"; $"f"])
  /\ Sample.lookup [] [$"Y"; $"f"] = Done Sample.state ([$"b"], [$"X"; $"f"])
  /\ Sample.lookup [] [$"object"] = Done Sample.state (builtins_path, [$"object"])
  /\ Sample.lookup [] [$"Z"] = Missing Sample.state.
Proof. repeat split. Qed.
Example C82_example :
  no_cycle Sample.state [$"a"] /\ all_read Sample.state [$"a"] /\ known (db Sample.state) builtins_path.
Proof.
  assert (Sb : star_imports (db Sample.state) [$"b"] = []) by reflexivity.
  assert (Sa : star_imports (db Sample.state) [$"a"] = [[$"b"]]) by reflexivity.
  split; [|split; [|vm_compute; tauto]].
  - constructor. intros s Hs. rewrite Sa in Hs. destruct Hs as [<-|[]]. constructor. intros s Hs. rewrite Sb in Hs. contradiction.
  - intros s H. assert (K : s = [$"a"] \/ s = [$"b"]).
    { inversion H as [|m m' s' Hi H']; subst; [now left|]. right. rewrite Sa in Hi. destruct Hi as [<-|[]].
      inversion H' as [|m m' s' Hi' _]; subst; [reflexivity|]. rewrite Sb in Hi'. contradiction. }
    destruct K as [-> | ->]; vm_compute; tauto.
Qed.
