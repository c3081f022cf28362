(** Property C84: the parser of stubs (stubs.py) and the resolver (scoping.py) agree on names. *)
From Verif Require Import Base Ast Scoping SpecScoping ScopingProofs Stubs SpecStubs SpecNames NamesProofs AgreementProofs P_Names.

(** ** C84 *)
(** Star imports without cycles, between modules that have been read; names imported
    from where they are defined if members of them are named. The parser has an
    answer; what it leads to is what the resolver finds, and if the parser finds nothing
    neither does the resolver. Missing: the cases below; cyclic star imports (C82). *)
Theorem C84_dotted_names_partial :
  forall source is_package condition fuel st m parent n rest,
    no_cycle st m -> all_read st m -> known (db st) builtins_path ->
    defined (db st) m parent -> imports_direct st m (n :: rest) ->
    exists r,
      (exists k, forall limit, k <= limit ->
        resolve_in (parse_stub_scope source is_package condition fuel) limit m parent (n :: rest) st
        = match r with Some q => Done st q | None => Missing st end)
      /\ match r with
         | Some q => forall q', leads_to (db st) q q' -> resolves (db st) m parent (n :: rest) [] (Resolved q')
         | None => resolves (db st) m parent (n :: rest) [] ObjectNotFound
         end.
Proof.
  intros so ip co fu st m parent n rest C A K D I. destruct (answer_exists C A parent n rest) as [r F]. exists r.
  split; [now apply found_resolved|].
  pose proof (@agreement st K m parent (n :: rest) r F [] A C D I (fun x H => match H with end)) as G.
  destruct r as [q|]; [|exact G]. intros q' L. apply G. now left.
Qed.
Print Assumptions C84_dotted_names_partial.
(** Single names: also those that are modules *)
Theorem C84_single_names_partial :
  forall source is_package condition fuel st m parent n,
    no_cycle st m -> all_read st m -> known (db st) builtins_path -> defined (db st) m parent ->
    exists r,
      (exists k, forall limit, k <= limit ->
        resolve_in (parse_stub_scope source is_package condition fuel) limit m parent [n] st
        = match r with Some q => Done st q | None => Missing st end)
      /\ match r with
         | Some q => forall q', refers_to (db st) q q' -> resolves (db st) m parent [n] [] (Resolved q')
         | None => resolves (db st) m parent [n] [] ObjectNotFound
         end.
Proof.
  intros so ip co fu st m parent n C A K D. destruct (answer_exists C A parent n []) as [r F]. exists r.
  split; [now apply found_resolved|].
  assert (I : imports_direct st m [n]).
  { intros s q rest _ (p & Hp & Ho & _). destruct p as [|x p]; [congruence|]. destruct p; [|discriminate Ho]. injection Ho as _ <-. now left. }
  pose proof (@agreement st K m parent [n] r F [] A C D I (fun x H => match H with end)) as G.
  destruct r as [q|]; [|exact G]. intros q' L. apply G. now right.
Qed.
Print Assumptions C84_single_names_partial.

(** ** Names on which they do not agree *)
Module Samples.
Definition no_package : path -> bool := fun _ => false.
Definition any_condition : list (pystr * qualified_path) -> expr -> res bool := fun _ _ => Ok true.
Definition builtins_stub : path * list stmt := ([$"builtins"], [SClassDef $"object" [] []]).
Definition read (stubs : list (path * list stmt)) (modules : list path) : state :=
  match parse_modules (fun m => dget m stubs) no_package any_condition 9 modules with Done st _ => st | _ => empty_state end.
Definition from (m : pystr) (name : pystr) : stmt := SImportFrom (Some m) [mk_alias name None] 0.

(** [from p import sub; X = sub.y], where [y] is defined in the module [p.sub] *)
Definition submodule : list (path * list stmt) :=
  [builtins_stub;
   ([$"p"], []); ([$"p"; $"sub"], [SClassDef $"y" [] []]);
   ([$"m"], [from $"p" $"sub"; SAssign [Name $"X"] (Attribute (Name $"sub") $"y")])].
Definition submodule_state : state := Eval vm_compute in read submodule [[$"p"]; [$"p"; $"sub"]; [$"m"]].

(** [import p; Y = p.sub] *)
Definition attribute : list (path * list stmt) :=
  [builtins_stub;
   ([$"p"], []); ([$"p"; $"sub"], [SClassDef $"y" [] []]);
   ([$"m"], [SImport [mk_alias $"p" None]; SAssign [Name $"Y"] (Attribute (Name $"p") $"sub")])].
Definition attribute_state : state := Eval vm_compute in read attribute [[$"p"]; [$"p"; $"sub"]; [$"m"]].

(** [from k import x; Z = x.y] and in [k] [from a import x; import x.y], [class y] within
    [class x] of [a], and a module [x.y] *)
Definition longer : list (path * list stmt) :=
  [builtins_stub;
   ([$"a"], [SClassDef $"x" [] [SClassDef $"y" [] []]]); ([$"x"], []); ([$"x"; $"y"], []);
   ([$"k"], [SImport [mk_alias $"x.y" None]; from $"a" $"x"]);
   ([$"m"], [from $"k" $"x"; SAssign [Name $"Z"] (Attribute (Name $"x") $"y")])].
Definition longer_state : state := Eval vm_compute in read longer [[$"a"]; [$"x"]; [$"x"; $"y"]; [$"k"]; [$"m"]].
End Samples.
Import Samples.
Ltac resolver n := apply resolves_iff; split; [discriminate | exists n; reflexivity].

(** Members of submodules: the resolver finds [sub.y], but the alias for it, which was
    recorded as the parser understood it, cannot be resolved. *)
Theorem C84_members_of_submodules_refuted :
  exists modules,
    parse_modules (fun m => dget m submodule) no_package any_condition 9 modules = Done submodule_state tt
    /\ resolves (db submodule_state) [$"m"] [] [$"sub"; $"y"] [] (Resolved ([$"p"; $"sub"], [$"y"]))
    /\ reference (db submodule_state) [$"m"] [$"X"] = Some ([$"p"], [$"sub"; $"y"])
    /\ resolves (db submodule_state) [$"m"] [] [$"X"] [] (Raises AssertionError).
Proof. exists [[$"p"]; [$"p"; $"sub"]; [$"m"]]. split; [vm_compute; reflexivity|]. split; [resolver 9|]. split; [reflexivity|resolver 9]. Qed.
Print Assumptions C84_members_of_submodules_refuted.
(** Submodules named as attributes: the alias is resolved, the name it was made from is not. *)
Theorem C84_submodules_as_attributes_refuted :
  exists modules,
    parse_modules (fun m => dget m attribute) no_package any_condition 9 modules = Done attribute_state tt
    /\ resolves (db attribute_state) [$"m"] [] [$"Y"] [] (Resolved ([$"p"; $"sub"], []))
    /\ resolves (db attribute_state) [$"m"] [] [$"p"; $"sub"] [] ObjectNotFound.
Proof. exists [[$"p"]; [$"p"; $"sub"]; [$"m"]]. split; [vm_compute; reflexivity|]. split; resolver 9. Qed.
Print Assumptions C84_submodules_as_attributes_refuted.
(** Members of imported names: the parser goes on in the module it is imported from,
    where a longer import may apply. *)
Theorem C84_longer_imports_refuted :
  exists modules,
    parse_modules (fun m => dget m longer) no_package any_condition 9 modules = Done longer_state tt
    /\ resolves (db longer_state) [$"m"] [] [$"x"; $"y"] [] (Resolved ([$"a"], [$"x"; $"y"]))
    /\ resolves (db longer_state) [$"m"] [] [$"Z"] [] (Resolved ([$"x"; $"y"], [])).
Proof. exists [[$"a"]; [$"x"]; [$"x"; $"y"]; [$"k"]; [$"m"]]. split; [vm_compute; reflexivity|]. split; resolver 9. Qed.
Print Assumptions C84_longer_imports_refuted.

(** The theorems apply to the state of [P_Names.Sample] (the hypotheses on star imports are
    [C82_example]). *)
Example C84_example :
  defined (db Sample.state) [$"a"] [$"A"]
  /\ imports_direct Sample.state [$"a"] [$"Y"; $"f"]
  /\ leads_to (db Sample.state) ([$"b"], [$"X"]) ([$"b"], [$"X"])
  /\ Sample.lookup [$"A"] [$"Y"] = Done Sample.state ([$"b"], [$"X"])
  /\ resolves (db Sample.state) [$"a"] [$"A"] [$"Y"] [] (Resolved ([$"b"], [$"X"]))
  /\ resolves (db Sample.state) [$"a"] [$"A"] [$"Z"] [] ObjectNotFound.
Proof.
  assert (D : defined (db Sample.state) [$"a"] [$"A"]) by (eapply defined_contains; reflexivity).
  assert (DX : defined (db Sample.state) [$"b"] [$"X"]) by (eapply defined_contains; reflexivity).
  split; [exact D|]. split.
  - intros s q rest Hs (p & Hp & Ho & Hr & _). destruct C82_example as (_ & A & _). right.
    assert (K : s = [$"a"] \/ s = [$"b"]).
    { inversion Hs as [|m m' s' Hi H']; subst; [now left|]. right. destruct Hi as [<-|[]].
      inversion H' as [|m m' s' Hi' _]; subst; [reflexivity|destruct Hi']. }
    destruct p as [|x p]; [congruence|]. injection Ho as <- _.
    destruct K as [-> | ->]; destruct p as [|y p]; cbn in Hr; try discriminate Hr. now injection Hr as <-.
  - split; [intros v; now apply resolves_defined|]. split; [reflexivity|]. split; resolver 9.
Qed.
