(** Properties C45, C46 (whole databases), C48, C49, C66-C69, C74-C76: the stub
    parser and the specialisation of generic bases. *)
From Verif Require Import Base Ast Conversion Catalog Arboreal Generics SpecGenerics Scoping SpecScoping
  Signatures SpecSignatures SignaturesProofs Stubs SpecStubs StubsProofs SpecializeProofs SpecializedNamesProofs MembersProofs ScopingProofs.

(** ** Sample stubs *)
Module Samples.
Definition source (modules : list (path * list stmt)) : path -> option (list stmt) := fun m => dget m modules.
Definition no_package : path -> bool := fun _ => false.
Definition any_condition : list (pystr * qualified_path) -> expr -> res bool := fun _ _ => Ok true.
Definition printable : N -> bool := fun _ => true.
(** [def name(x: annotation)] *)
Definition def_ (name : pystr) (annotation : expr) : function_def :=
  mk_function_def name (mk_arguments [] [mk_arg $"x" (Some annotation)] None [] [] None []) [] None.
Definition def name annotation := SFunctionDef (def_ name annotation).
Definition sub (c a : pystr) := Subscript (Name c) (Name a).
Definition from_ (module name : pystr) := SImportFrom (Some module) [mk_alias name None] 0.
Definition builtins := ([$"builtins"], [SClassDef $"int" [] []; SClassDef $"str" [] []; SClassDef $"object" [] []]).
Definition typing := ([$"typing"], [SAnnAssign (Name $"Generic") (Name $"object") None; SClassDef $"TypeVar" [] []]).
(** [from typing import Generic, TypeVar; T = TypeVar(...)] *)
Definition header := [from_ $"typing" $"Generic"; from_ $"typing" $"TypeVar";
                      SAssign [Name $"T"] (Call (Name $"TypeVar") [Constant CNone] [])].

(** [class A(Generic[T])], [class B(A[T], Generic[T])], [class C(B[int])],
    [class D(B[str])] *)
Definition generics := [builtins; typing; ([$"m"], header ++ [
   SClassDef $"A" [sub $"Generic" $"T"] [def $"f" (Name $"T")];
   SClassDef $"B" [sub $"A" $"T"; sub $"Generic" $"T"] [def $"g" (Name $"T")];
   SClassDef $"C" [sub $"B" $"int"] [];
   SClassDef $"D" [sub $"B" $"str"] []])].
(** [class A(Generic[T])], [class B(A[T])], [class C(B[T])], [class D(C[int])] *)
Definition tower := [builtins; typing; ([$"m"], header ++ [
   SClassDef $"A" [sub $"Generic" $"T"] [def $"f" (Name $"T")];
   SClassDef $"B" [sub $"A" $"T"] [def $"g" (Name $"T")];
   SClassDef $"C" [sub $"B" $"T"] [def $"h" (Name $"T")];
   SClassDef $"D" [sub $"C" $"int"] []])].
(** Two modules with different classes [A] *)
Definition namesakes := [builtins; typing;
   ([$"m"], header ++ [SClassDef $"A" [sub $"Generic" $"T"] [def $"f" (Name $"T")];
                       SClassDef $"B" [sub $"A" $"int"] []]);
   ([$"k"], header ++ [SClassDef $"A" [sub $"Generic" $"T"] [def $"g" (Name $"T")];
                       SClassDef $"F" [sub $"A" $"int"] []])].
(** Two modules using different classes [X] *)
Definition dependencies := [builtins; typing; ([$"p"], [SClassDef $"X" [] []]); ([$"q"], [SClassDef $"X" [] []]);
   ([$"m"], header ++ [from_ $"p" $"X"; SClassDef $"A" [sub $"Generic" $"T"] [def $"f" (Name $"X")];
                       SClassDef $"B" [sub $"A" $"int"] []]);
   ([$"k"], header ++ [from_ $"q" $"X"; SClassDef $"E" [sub $"Generic" $"T"] [def $"f" (Name $"X")];
                       SClassDef $"F" [sub $"E" $"int"] []])].
(** [class A(Generic[T]): def f(x: X)] with [X] of [p], and [class F(A[X])] with [X] of [q] *)
Definition arguments_ := [builtins; typing; ([$"p"], [SClassDef $"X" [] []]); ([$"q"], [SClassDef $"X" [] []]);
   ([$"m"], header ++ [from_ $"p" $"X"; SClassDef $"A" [sub $"Generic" $"T"] [def $"f" (Name $"X")]]);
   ([$"k"], [from_ $"q" $"X"; from_ $"m" $"A"; SClassDef $"F" [sub $"A" $"X"] []])].
(** [from builtins import int as I] *)
Definition renamed := [builtins; typing;
   ([$"m"], header ++ [SImportFrom (Some $"builtins") [mk_alias $"int" (Some $"I")] 0;
                       SClassDef $"A" [sub $"Generic" $"T"] [def $"f" (Name $"I")];
                       SClassDef $"B" [sub $"A" $"str"] []])].
(** [class A(Generic[T]): def f(x: int)] in [m] and, with an [int] of its own, in [k] *)
Definition shadowed := [builtins; typing;
   ([$"k"], header ++ [SClassDef $"int" [] []; SClassDef $"E" [sub $"Generic" $"T"] [def $"f" (Name $"int")];
                       SClassDef $"F" [sub $"E" $"str"] []]);
   ([$"m"], header ++ [SClassDef $"A" [sub $"Generic" $"T"] [def $"f" (Name $"int")];
                       SClassDef $"B" [sub $"A" $"str"] []])].
(** [a]: [from b import *; x = y]; [b]: [class C(Undefined[int])] and [def f] *)
Definition truncated := [builtins;
   ([$"a"], [SImportFrom (Some $"b") [mk_alias $"*" None] 0; SAssign [Name $"x"] (Name $"y")]);
   ([$"b"], [SClassDef $"C" [sub $"Undefined" $"int"] []; def $"f" (Name $"int")])].
(** [from p import x]; [class A: x = int] *)
Definition aliases := [builtins; ([$"p"], [SClassDef $"x" [] []]);
   ([$"m"], [from_ $"p" $"x"; SClassDef $"A" [] [SAssign [Name $"x"] (Name $"int")]])].
(** [class A: ...] with overloaded [f] *)
Definition overloaded := [builtins;
   ([$"m"], [SClassDef $"A" [] [def $"f" (Name $"int"); SAnnAssign (Name $"v") (Name $"str") None; def $"f" (Name $"str")]])].
(** [import a.b; import a.c as d; from p import x as y, z; from p import *;
    from .q import w] and [from p import x as z] *)
Definition imports_ := [builtins; ([$"p"], [SClassDef $"x" [] []]);
   ([$"m"; $"k"], [SImport [mk_alias $"a.b" None]; SImport [mk_alias $"a.c" (Some $"d")];
                   SImportFrom (Some $"p") [mk_alias $"x" (Some $"y"); mk_alias $"z" None] 0;
                   SImportFrom (Some $"p") [mk_alias $"*" None] 0;
                   SImportFrom (Some $"q") [mk_alias $"w" None] 1;
                   SImportFrom (Some $"p") [mk_alias $"x" (Some $"z")] 0])].
(** [class P], [class R(P, NamedTuple, A[int], Generic[T])] with a class [Q(P)] in it *)
Definition bases_ := [builtins; ([$"typing"], [SAnnAssign (Name $"Generic") (Name $"object") None; SClassDef $"TypeVar" [] [];
                                              SClassDef $"NamedTuple" [] []]);
   ([$"m"], header ++ [from_ $"typing" $"NamedTuple"; SClassDef $"A" [sub $"Generic" $"T"] []; SClassDef $"P" [] [];
      SClassDef $"R" [Name $"P"; Name $"NamedTuple"; sub $"A" $"int"; sub $"Generic" $"T"]
        [SAnnAssign (Name $"u") (Name $"int") None; SClassDef $"Q" [Name $"P"] []]])].
Definition parsed modules paths := parse_stubs_state (source modules) no_package any_condition printable 50 20 paths.
End Samples.
Import Samples.

(** ** C45, the tables *)
(** Specialising a generic class: every field of the class gets the generic's
    definitions with the parameters replaced, and the same kind; nothing recorded
    for any real module changes. *)
Theorem C45_specialised_class :
  forall limit generic child_module specialization parameters arguments st st',
    fst generic <> specializations_path ->
    register_generic_specialization limit generic child_module specialization parameters arguments st = Ok st' ->
    (forall m, m <> specializations_path -> same_module m st st') /\
    exists fields,
      (exists d, dget (fst generic) (definitions (db st)) = Some d /\ scope_at d (snd generic) = Ok fields) /\
      forall name, In name (dkeys (entries fields)) ->
        (forall node, In node (nodes_of_object st (fst generic) (snd generic ++ [name])) ->
           forall n bases body, node <> SClassDef n bases body) ->
        Forall2 (stmt_instance (table_of parameters arguments))
          (nodes_of_object st (fst generic) (snd generic ++ [name]))
          (nodes_of_object st' specializations_path (specialization ++ [name])) /\
        kind_of_object st' specializations_path (specialization ++ [name])
        = kind_of_object st (fst generic) (snd generic ++ [name]).
Proof.
  intros limit generic cm sp ps args st st' Hg H.
  destruct (@register_generic_spec limit generic cm sp ps args st st' Hg H) as (A & _ & _ & _ & sc & D & F).
  split; [exact A|]. exists sc. split; [exact D|]. intros name Hn Hc.
  destruct (F name Hn) as ((l & F1 & F2 & names & F3) & _ & F5). split; [|exact F5]. rewrite F1. clear F1 F5.
  revert l names F2 F3. induction (nodes_of_object st (fst generic) (snd generic ++ [name])) as [|s r IH]; intros l names F2 F3.
  - injection F2 as <-. constructor.
  - cbn [map_m] in F2. destruct (specialize_stmt (table_of ps args) s) as [s'|] eqn:E1; [|discriminate]. cbn [bind_res] in F2.
    destruct (map_m (specialize_stmt (table_of ps args)) r) as [r'|] eqn:E2; [|discriminate]. cbn [bind_res] in F2. injection F2 as <-.
    cbn [map_m] in F3. destruct (to_names s') as [a|] eqn:E3; [|discriminate]. cbn [bind_res] in F3.
    destruct (map_m to_names r') as [b|] eqn:E4; [|discriminate].
    constructor; [|eapply IH; [intros node Hi; apply Hc; now right|reflexivity|exact E4]].
    apply specialize_stmt_instance; [|exact E1]. eapply to_names_kind; [exact E1|exact E3|]. apply Hc. now left.
Qed.
Print Assumptions C45_specialised_class.

(** Parameters and arguments are matched by position. *)
Theorem C45_parameters_matched_by_position :
  forall parameters arguments p a, NoDup parameters ->
    (dget p (table_of parameters arguments) = Some a
     <-> exists i, nth_error parameters i = Some p /\ nth_error arguments i = Some a).
Proof. exact @table_of_spec. Qed.
Print Assumptions C45_parameters_matched_by_position.

(** Specialisation never touches the definitions, kinds, references or nodes of a
    real module. *)
Theorem C45_generic_modules_untouched :
  forall printable limit st st', listed st -> consistent st ->
    process_classes_bases printable limit st = Ok st' ->
    forall m, m <> specializations_path ->
      dget m (nodes st') = dget m (nodes st) /\ dget m (kinds st') = dget m (kinds st)
      /\ dget m (definitions (db st')) = dget m (definitions (db st))
      /\ dget m (references (db st')) = dget m (references (db st))
      /\ dget m (submodules (db st')) = dget m (submodules (db st)).
Proof. intros p l st st' L C H m Hm. destruct (@process_classes_bases_spec p l st st' L C H) as [_ O]. now apply O. Qed.
Print Assumptions C45_generic_modules_untouched.

(** But the recorded bases of the generic class are: after [class C(B[int])] was
    processed, [class D(B[str])] inherits from [A[int]]. *)
Theorem C45_generic_bases_refuted :
  exists st, parsed generics [[$"typing"]; [$"m"]] = Ok st
    /\ source generics [$"m"] = Some (header ++ [
         SClassDef $"A" [sub $"Generic" $"T"] [def $"f" (Name $"T")];
         SClassDef $"B" [sub $"A" $"T"; sub $"Generic" $"T"] [def $"g" (Name $"T")];
         SClassDef $"C" [sub $"B" $"int"] [];
         SClassDef $"D" [sub $"B" $"str"] []])
    /\ dget ([$"m"], [$"B"]) (bases_of st) = Some [sub $"A" $"int"]
    /\ resolve_object_path (db st) 50 [$"m"] [] [$"D"; $"f"] []
       = Resolved (specializations_path, [$"A_getitem_int"; $"f"])
    /\ nodes_of_object st specializations_path [$"A_getitem_int"; $"f"] = [def $"f" (Name $"int")].
Proof. eexists. split; [vm_compute; reflexivity|]. repeat split. Qed.
Print Assumptions C45_generic_bases_refuted.

Example C45_example_class :
  exists st, parsed generics [[$"typing"]; [$"m"]] = Ok st
    /\ nodes_of_object st [$"m"] [$"B"; $"g"] = [def $"g" (Name $"T")]
    /\ nodes_of_object st specializations_path [$"B_getitem_str"; $"g"] = [def $"g" (Name $"str")]
    /\ nodes_of_object st specializations_path [$"B_getitem_int"; $"g"] = [def $"g" (Name $"int")].
Proof. eexists. split; [vm_compute; reflexivity|]. repeat split. Qed.

(** ** C46, the tables *)
(** [A[int]] in two modules with different classes [A]: the second is taken to be
    the first, so [k.F] has the member of [m.A] and not that of [k.A]. *)
Theorem C46_namesakes_refuted :
  exists st, parsed namesakes [[$"typing"]; [$"m"]; [$"k"]] = Ok st
    /\ resolve_object_path (db st) 50 [$"k"] [] [$"A"; $"g"] [] = Resolved ([$"k"], [$"A"; $"g"])
    /\ resolve_object_path (db st) 50 [$"k"] [] [$"F"; $"g"] [] = ObjectNotFound
    /\ resolve_object_path (db st) 50 [$"k"] [] [$"F"; $"f"] []
       = Resolved (specializations_path, [$"A_getitem_int"; $"f"]).
Proof. eexists. split; [vm_compute; reflexivity|]. repeat split. Qed.
Print Assumptions C46_namesakes_refuted.

(** ** C48 *)
(** After parsing any modules - also if the parser gave up on a missing object -
    every object with definitions has a kind, and every object with a kind is in
    the definitions tree. *)
Theorem C48_tables_are_consistent :
  forall source is_package condition fuel modules,
    match parse_modules source is_package condition fuel modules with
    | Done st _ | Missing st => consistent st
    | Fails _ => True
    end.
Proof. exact @parse_modules_consistent. Qed.
Print Assumptions C48_tables_are_consistent.

(** Also after the specialisation of generic bases. *)
Theorem C48_tables_are_consistent_at_the_end :
  forall source is_package condition printable limit fuel modules st,
    parse_stubs_state source is_package condition printable limit fuel modules = Ok st -> consistent st.
Proof.
  intros so ip co pr li fu mo st H. unfold parse_stubs_state in H.
  pose proof (@parse_modules_consistent so ip co fu mo) as HC. pose proof (@parse_modules_listed so ip co fu mo) as HL.
  destruct (parse_modules so ip co fu mo) as [st0 u|st0|e]; try discriminate H.
  eapply process_classes_bases_spec; [eapply HL; reflexivity|exact HC|exact H].
Qed.
Print Assumptions C48_tables_are_consistent_at_the_end.

(** What is recorded for a module is what its stub says (see [module_says]): class
    members under their class, repeated definitions in source order, the branches
    of conditions that hold, names for imports and aliases, bases and type
    parameters of classes; and nothing else. *)
Theorem C48_definitions_in_source_order :
  forall source is_package condition fuel m st st' scope,
    well_told st -> ~ In m (visited st) ->
    parse_stub_scope source is_package condition fuel m st = Done st' scope ->
    well_told st'
    /\ exists body says,
         source m = Some body /\ module_says source is_package condition (pred fuel) st' m body says
         /\ tables_say m st' says.
Proof. exact @parse_content. Qed.
Print Assumptions C48_definitions_in_source_order.
Example C48_example_start : well_told empty_state.
Proof. exact well_told_empty. Qed.

(** Parsing further modules does not change it. *)
Theorem C48_other_modules_do_not_interfere :
  forall source is_package condition fuel m st x says, well_told st -> In x (visited st) -> tables_say x st says ->
    match parse_stub_scope source is_package condition fuel m st with
    | Done st' _ | Missing st' => In x (visited st') /\ tables_say x st' says
    | Fails _ => True
    end.
Proof. exact @parse_stable. Qed.
Print Assumptions C48_other_modules_do_not_interfere.

Example C48_example :
  exists st, parsed overloaded [[$"m"]] = Ok st
    /\ nodes_of_object st [$"m"] [$"A"; $"f"] = [def $"f" (Name $"int"); def $"f" (Name $"str")]
    /\ nodes_of_object st [$"m"] [$"f"] = []
    /\ kind_of_object st [$"m"] [$"A"; $"f"] = Some FUNCTION
    /\ kind_of_object st [$"m"] [$"A"] = Some CLASS
    /\ defined (db st) [$"m"] [$"A"; $"f"].
Proof.
  eexists. split; [vm_compute; reflexivity|]. repeat split.
  eexists. split; [reflexivity|]. repeat (econstructor; try reflexivity).
Qed.

(** ** C49 *)
(** An alias is recorded as a name of the module, wherever it is written. *)
Theorem C49_alias_in_class_is_global_partial :
  forall is_package condition parse resolve m parent name v p st st',
    dotted v p ->
    visit is_package condition parse resolve m parent (SAssign [Name name] v) st = Done st' tt ->
    exists q t, dget m (references (db st')) = Some t /\ dget [name] t = Some q.
Proof.
  intros ip co pa re m parent name v p st st' Hv H. cbn [visit] in H.
  apply to_maybe_path_dotted in Hv. rewrite Hv in H.
  destruct (to_qualified_path re m parent p st) as [st1 q|st1|e]; [|discriminate|discriminate].
  cbn in H. injection H as <-. exists q. cbn.
  rewrite dget_dmodify, eqb_refl. eexists. split; [reflexivity|]. now rewrite dget_dset, eqb_refl.
Qed.
Print Assumptions C49_alias_in_class_is_global_partial.

(** At module level this is right: the name refers to what the value is resolved
    to, and no other name changes. *)
Theorem C49_module_alias_partial :
  forall is_package condition parse resolve m name v p st st1 q,
    dotted v p -> resolve m [] p st = Done st1 q ->
    exists st', visit is_package condition parse resolve m [] (SAssign [Name name] v) st = Done st' tt
      /\ (forall o, dget o (dget_or m [] (references (db st')))
                    = if o == [name] then Some q else dget o (dget_or m [] (references (db st1))))
      /\ definitions (db st') = definitions (db st1).
Proof.
  intros ip co pa re m name v p st st1 q Hv H. cbn [visit]. apply to_maybe_path_dotted in Hv. rewrite Hv.
  unfold to_qualified_path. rewrite H. cbn [sbind each]. cbn [to_path pure sbind]. eexists. split; [reflexivity|]. split; [|reflexivity].
  intros o. cbn. unfold dget_or at 1. rewrite dget_dmodify, eqb_refl. apply dget_dset.
Qed.
Print Assumptions C49_module_alias_partial.

(** [from p import x; class A: x = int]: the module's [x] becomes [int], and [A.x]
    is not found. *)
Theorem C49_alias_in_class_refuted :
  exists st, parsed aliases [[$"p"]; [$"m"]] = Ok st
    /\ resolve_object_path (db st) 50 [$"m"] [] [$"x"] [] = Resolved ([$"builtins"], [$"int"])
    /\ resolve_object_path (db st) 50 [$"m"] [] [$"A"; $"x"] [] = ObjectNotFound.
Proof. eexists. split; [vm_compute; reflexivity|]. repeat split. Qed.
Print Assumptions C49_alias_in_class_refuted.

(** [x = int] in a module *)
Example C49_example :
  exists st, parsed [builtins; ([$"m"], [SAssign [Name $"x"] (Name $"int")])] [[$"m"]] = Ok st
    /\ resolve_object_path (db st) 50 [$"m"] [] [$"x"] [] = Resolved ([$"builtins"], [$"int"]).
Proof. eexists. split; [vm_compute; reflexivity|]. repeat split. Qed.

(** ** C66 *)
(** A module whose own turn comes before it was read for another one keeps all
    its definitions to the end of the run. *)
Theorem C66_complete_partial :
  forall source is_package condition fuel m before after st0 st' u0 u,
    let parse_all := each (fun m st => run [st, _] <- parse_stub_scope source is_package condition fuel m st; Done st tt) in
    parse_all before empty_state = Done st0 u0 ->
    ~ In m (visited st0) ->
    parse_all (m :: after) st0 = Done st' u ->
    exists body says,
      source m = Some body /\ module_says source is_package condition (pred fuel) st' m body says
      /\ tables_say m st' says.
Proof. intros so ip co fu m b a st0 st' u0 u pa H0 Hm H. exact (proj2 (@run_content so ip co fu m b a st0 st' u0 u H0 Hm H)). Qed.
Print Assumptions C66_complete_partial.

(** Also after the specialisation of generic bases *)
Theorem C66_complete_at_the_end_partial :
  forall source is_package condition printable limit fuel modules m st,
    read_in_turn source is_package condition fuel modules m ->
    parse_stubs_state source is_package condition printable limit fuel modules = Ok st ->
    exists parsed body says,
      parse_modules source is_package condition fuel modules = Done parsed tt
      /\ source m = Some body /\ module_says source is_package condition (pred fuel) parsed m body says
      /\ finally_say printable limit m st says.
Proof. exact @stubs_content. Qed.
Print Assumptions C66_complete_at_the_end_partial.

(** Any other module has just what its stub says up to the end or up to a base or
    condition with a name that is not found. *)
Theorem C66_as_far_as_read_partial :
  forall source is_package condition printable limit fuel modules st,
    parse_stubs_state source is_package condition printable limit fuel modules = Ok st ->
    exists parsed,
      parse_modules source is_package condition fuel modules = Done parsed tt
      /\ (forall m, In m modules -> In m (visited parsed))
      /\ forall m, In m (visited parsed) ->
         exists body says,
           source m = Some body /\ told_by source is_package condition parsed m body says
           /\ finally_say printable limit m st says.
Proof. exact @stubs_told. Qed.
Print Assumptions C66_as_far_as_read_partial.

(** A module read while another name is being looked up is cut off, silently, at
    the first base that is not found. *)
Theorem C66_complete_refuted :
  exists st, parsed truncated [[$"a"]; [$"b"]] = Ok st
    /\ source truncated [$"b"] = Some [SClassDef $"C" [sub $"Undefined" $"int"] []; def $"f" (Name $"int")]
    /\ nodes_of_object st [$"b"] [$"f"] = []
    /\ resolve_object_path (db st) 50 [$"b"] [] [$"f"] [] = ObjectNotFound.
Proof. eexists. split; [vm_compute; reflexivity|]. repeat split. Qed.
Print Assumptions C66_complete_refuted.

(** The other order: now the undefined base is an error. *)
Example C66_example :
  parsed truncated [[$"b"]; [$"a"]] = Err OtherException
  /\ exists st, parsed overloaded [[$"m"]] = Ok st
       /\ nodes_of_object st [$"m"] [$"A"; $"f"] = [def $"f" (Name $"int"); def $"f" (Name $"str")]
       /\ read_in_turn (source overloaded) no_package any_condition 20 [[$"m"]] [$"m"].
Proof.
  split; [reflexivity|]. eexists. split; [vm_compute; reflexivity|]. split; [reflexivity|].
  eexists [_], [], _, _. split; [reflexivity|]. split; [vm_compute; reflexivity|]. cbn. intuition discriminate.
Qed.

(** ** C67 *)
(** [def f(x: X)] in [m.A] with [X] imported from [p]: in the specialisation
    [A[int]], [X] is that of module [q], which some other stub uses. *)
Theorem C67_names_in_specialisations_refuted :
  exists st, parsed dependencies [[$"typing"]; [$"p"]; [$"q"]; [$"m"]; [$"k"]] = Ok st
    /\ nodes_of_object st specializations_path [$"A_getitem_int"; $"f"] = [def $"f" (Name $"X")]
    /\ resolve_object_path (db st) 50 [$"m"] [] [$"X"] [] = Resolved ([$"p"], [$"X"])
    /\ resolve_object_path (db st) 50 specializations_path [$"A_getitem_int"] [$"X"] [] = Resolved ([$"q"], [$"X"]).
Proof. eexists. split; [vm_compute; reflexivity|]. repeat split. Qed.
Print Assumptions C67_names_in_specialisations_refuted.
(** [X] in [m.A] is that of [p]; in the specialisation [A[X]] it is that of [q], which
    is the argument. *)
Theorem C67_names_of_arguments_refuted :
  exists st, parsed arguments_ [[$"typing"]; [$"p"]; [$"q"]; [$"m"]; [$"k"]] = Ok st
    /\ nodes_of_object st specializations_path [$"A_getitem_X"; $"f"] = [def $"f" (Name $"X")]
    /\ resolve_object_path (db st) 50 [$"m"] [] [$"X"] [] = Resolved ([$"p"], [$"X"])
    /\ resolve_object_path (db st) 50 specializations_path [$"A_getitem_X"] [$"X"] [] = Resolved ([$"q"], [$"X"]).
Proof. eexists. split; [vm_compute; reflexivity|]. repeat split. Qed.
Print Assumptions C67_names_of_arguments_refuted.
(** A builtin under another name is not found in a specialisation. *)
Theorem C67_renamed_builtins_refuted :
  exists st, parsed renamed [[$"typing"]; [$"m"]] = Ok st
    /\ nodes_of_object st specializations_path [$"A_getitem_str"; $"f"] = [def $"f" (Name $"I")]
    /\ resolve_object_path (db st) 50 [$"m"] [] [$"I"] [] = Resolved (builtins_path, [$"int"])
    /\ resolve_object_path (db st) 50 specializations_path [$"A_getitem_str"] [$"I"] [] = ObjectNotFound.
Proof. eexists. split; [vm_compute; reflexivity|]. repeat split. Qed.
Print Assumptions C67_renamed_builtins_refuted.
(** [int] in the specialisation of a class of [m] is the class [int] of [k], which has
    nothing to do with [m]. *)
Theorem C67_builtins_refuted :
  exists st, parsed shadowed [[$"typing"]; [$"k"]; [$"m"]] = Ok st
    /\ nodes_of_object st specializations_path [$"A_getitem_str"; $"f"] = [def $"f" (Name $"int")]
    /\ resolve_object_path (db st) 50 [$"m"] [] [$"int"] [] = Resolved (builtins_path, [$"int"])
    /\ resolve_object_path (db st) 50 specializations_path [$"A_getitem_str"] [$"int"] [] = Resolved ([$"k"], [$"int"]).
Proof. eexists. split; [vm_compute; reflexivity|]. repeat split. Qed.
Print Assumptions C67_builtins_refuted.
(** Apart from these: when a class is specialised, a name in a field of the
    specialisation that is not one of a specialisation or of a field resolves to what it
    denotes in the module of the class, or, if it is in the arguments, in the module of
    the arguments. Builtins do so under their own names only, and only if no earlier
    specialisation uses their name for something else: then they mean that. *)
Theorem C67_names_partial :
  forall limit generic child_module specialization parameters arguments st st',
    register_generic_specialization limit generic child_module specialization parameters arguments st = Ok st' ->
    fst generic <> specializations_path ->
    has_references (db st) specializations_path -> star_imports (db st) specializations_path = [] ->
    exists fields,
      (exists d, dget (fst generic) (definitions (db st)) = Some d /\ scope_at d (snd generic) = Ok fields)
      /\ forall name n, In name (dkeys (entries fields)) ->
         (exists s, In s (nodes_of_object st' specializations_path (specialization ++ [name])) /\ stmt_occurs n s) ->
         (forall s, In s (nodes_of_object st' specializations_path (specialization ++ [name])) -> ~ defines n s) ->
         ~ defined (db st') specializations_path [n] -> ~ defined (db st') specializations_path (specialization ++ [n]) ->
         let argument := exists a, In a arguments /\ occurs n a in
         let means q := resolves (db st') specializations_path specialization [n] [] (Resolved q) in
         exists m q,
           (argument /\ m = child_module \/ ~ argument /\ m = fst generic)
           /\ denotes limit (db st') m n q
           /\ (fst q <> builtins_path -> means q)
           /\ (fst q = builtins_path -> snd q = [n] -> reference (db st) specializations_path [n] = None -> means q)
           /\ (forall r, fst q = builtins_path -> reference (db st) specializations_path [n] = Some r ->
                 defined (db st') (fst r) (snd r) -> means r).
Proof.
  intros limit generic cm sp ps args st st' H Hg HR HS.
  destruct (@names_keep_meaning limit generic cm sp ps args st st' H Hg HR HS) as (fields & D & E).
  exists fields. split; [exact D|]. intros name n H1 H2 H3 H5 H6 argument means.
  destruct (E name n H1 H2 H3 H5 H6) as (q & F1 & F2). exists (origin cm (fst generic) (flat_map names_in args) n), q.
  split; [|split; [exact F1 | exact F2]]. unfold origin, argument.
  assert (A : mem n (flat_map names_in args) = true <-> exists a, In a args /\ occurs n a).
  { rewrite mem_In, in_flat_map. split; intros (a & Ha & Hn); exists a; (split; [exact Ha|now apply occurs_names]). }
  destruct (mem n (flat_map names_in args)) eqn:M; [left|right].
  - split; [now apply A|reflexivity].
  - split; [intros X; apply A in X; discriminate|reflexivity].
Qed.
Print Assumptions C67_names_partial.
Example C67_example :
  exists st, parsed dependencies [[$"typing"]; [$"p"]; [$"m"]] = Ok st
    /\ nodes_of_object st specializations_path [$"A_getitem_int"; $"f"] = [def $"f" (Name $"X")]
    /\ resolve_object_path (db st) 50 specializations_path [$"A_getitem_int"] [$"X"] [] = Resolved ([$"p"], [$"X"]).
Proof. eexists. split; [vm_compute; reflexivity|]. repeat split. Qed.

(** ** C68 *)
(** A condition that is a single name is evaluated without any names. *)
Theorem C68_bare_name_refuted :
  forall is_package condition parse resolve m parent name body orelse st,
    visit is_package condition parse resolve m parent (SIf (Name name) body orelse) st
    = match condition [] (Name name) with
      | Ok c => each (visit is_package condition parse resolve m parent) (if c then body else orelse) st
      | Err e => Fails e
      end.
Proof. intros. cbn [visit names_below dedupe resolve_names sbind]. now destruct (condition [] (Name name)). Qed.
Print Assumptions C68_bare_name_refuted.

(** Every other condition is evaluated with exactly its names, each as it is resolved
    where the condition is, and chooses the branch that is read. *)
Theorem C68_names_partial :
  forall is_package condition parse resolve m parent test body orelse st st' u,
    (forall n, test <> Name n) ->
    visit is_package condition parse resolve m parent (SIf test body orelse) st = Done st' u ->
    exists bindings st1 c,
      NoDup (map fst bindings) /\ (forall n, In n (map fst bindings) <-> occurs n test)
      /\ looked_up resolve m parent st bindings st1
      /\ condition bindings test = Ok c
      /\ each (visit is_package condition parse resolve m parent) (if c then body else orelse) st1 = Done st' u.
Proof.
  intros ip co pa re m parent test body orelse st st' u Ht H. cbn [visit] in H.
  destruct (resolve_names re m parent (dedupe (names_below test)) st) as [st1 bindings|st1|e] eqn:R; [|discriminate|discriminate].
  cbn [sbind] in H. destruct (co bindings test) as [c|e] eqn:C; [|discriminate]. cbn [pure sbind] in H.
  exists bindings, st1, c.
  assert (E : map fst bindings = dedupe (names_in test) /\ looked_up re m parent st bindings st1).
  { clear H C. replace (names_below test) with (names_in test) in R by (destruct test; try reflexivity; now destruct (Ht id)).
    revert st st1 bindings R. generalize (dedupe (names_in test)). induction l as [|n l IH]; intros st st1 b R; cbn [resolve_names] in R.
    - injection R as <- <-. split; [reflexivity | constructor].
    - destruct (re m parent [n] st) as [st2 q|st2|e] eqn:Q; [|discriminate|discriminate]. cbn [sbind] in R.
      destruct (resolve_names re m parent l st2) as [st3 r|st3|e] eqn:E; [|discriminate|discriminate]. cbn [sbind] in R.
      injection R as <- <-. destruct (IH _ _ _ E) as [IH1 IH2]. cbn. split; [now f_equal | econstructor; eassumption]. }
  destruct E as [E L]. rewrite E. split; [|split; [|split; [exact L|split; [exact C | exact H]]]].
  - generalize (names_in test). induction l as [|x r IH]; cbn [dedupe]; [constructor|]. constructor; [|now apply NoDup_filter].
    intros Hi. apply filter_In in Hi. destruct Hi as [_ Hi]. now rewrite eqb_refl in Hi.
  - intros n. rewrite occurs_names. generalize (names_in test). intros l. induction l as [|x r IH]; cbn [dedupe]; [reflexivity|]. cbn [In]. rewrite filter_In, IH.
    destruct (eqb_reflect n x) as [->|Hn]; [split; auto|]. cbn [negb].
    split; [intros [->|[Hi _]]|intros [->|Hi]]; auto.
Qed.
Print Assumptions C68_names_partial.

Example C68_example :
  resolve_names (fun m parent o st => Done st (m, o)) [$"m"] []
    (dedupe (names_below (OtherExpr [Attribute (Name $"sys") $"version_info"; Tuple []]))) empty_state
  = Done empty_state [($"sys", ([$"m"], [$"sys"]))].
Proof. reflexivity. Qed.

(** ** C69 *)
(** [class A(Generic[T]): f], [class B(A[T])], [class C(B[T])], [class D(C[int])]:
    [C.f] is found and [D.f] is not. *)
Theorem C69_members_of_distant_generic_bases_refuted :
  exists st, parsed tower [[$"typing"]; [$"m"]] = Ok st
    /\ resolve_object_path (db st) 50 [$"m"] [] [$"D"; $"h"] [] = Resolved (specializations_path, [$"C_getitem_int"; $"h"])
    /\ resolve_object_path (db st) 50 [$"m"] [] [$"D"; $"g"] [] = Resolved (specializations_path, [$"B_getitem_int"; $"g"])
    /\ resolve_object_path (db st) 50 [$"m"] [] [$"C"; $"f"] [] = Resolved (specializations_path, [$"A_getitem_T"; $"f"])
    /\ resolve_object_path (db st) 50 [$"m"] [] [$"D"; $"f"] [] = ObjectNotFound.
Proof. eexists. split; [vm_compute; reflexivity|]. repeat split. Qed.
Print Assumptions C69_members_of_distant_generic_bases_refuted.
(** The members written in the body of the generic class itself are all there:
    each specialised class has exactly these members, and a class that has the
    specialised class among its bases finds each of them, unless it or an earlier
    base has a member of that name. *)
Theorem C69_members_partial :
  forall source is_package condition printable limit fuel modules st n,
    parse_stubs_state source is_package condition printable limit fuel modules = Ok st ->
    defined (db st) specializations_path [n] ->
    exists generic,
      specialisation_of printable limit st n generic
      /\ defined (db st) (fst generic) (snd generic)
      /\ (forall f, defined (db st) specializations_path [n; f] <-> defined (db st) (fst generic) (snd generic ++ [f]))
      /\ forall m (c : path) f before after visited,
           defined (db st) (fst generic) (snd generic ++ [f]) ->
           c <> [] -> defined (db st) m c -> ~ defined (db st) m (c ++ [f]) ->
           bases (db st) (m, c) = before ++ (specializations_path, [n]) :: after ->
           (forall b, In b before -> resolves (db st) (fst b) [] (snd b ++ [f]) (visited ++ [m]) ObjectNotFound) ->
           resolves (db st) m [] (c ++ [f]) visited (Resolved (specializations_path, [n; f])).
Proof.
  intros so ip co pr li fu mo st n H Hn. destruct (@stubs_members so ip co pr li fu mo st n H Hn) as (q & A & B & C).
  exists q. split; [exact A|]. split; [exact B|]. split; [exact C|].
  intros m c f before after visited Hf Hc Dc Nc Hb Hbefore. eapply (@resolves_base (db st) m c f []); try eassumption; [|discriminate].
  cbn [fst snd app]. apply resolves_defined. now apply C.
Qed.
Print Assumptions C69_members_partial.
Example C69_example :
  exists st, parsed tower [[$"typing"]; [$"m"]] = Ok st
    /\ defined (db st) specializations_path [$"C_getitem_int"]
    /\ defined (db st) [$"m"] [$"C"; $"h"] /\ ~ defined (db st) [$"m"] [$"D"; $"h"]
    /\ bases (db st) ([$"m"], [$"D"]) = [(specializations_path, [$"C_getitem_int"])].
Proof.
  eexists. split; [vm_compute; reflexivity|]. split; [eexists; split; [reflexivity|]; repeat (econstructor; try reflexivity)|].
  split; [eexists; split; [reflexivity|]; repeat (econstructor; try reflexivity)|]. split; [|reflexivity].
  intros (s & E & X). vm_compute in E. injection E as <-. inversion X as [|? ? s' ? E' X']; subst. vm_compute in E'. injection E' as <-.
  inversion X' as [|? ? s'' ? E'' _]; subst. discriminate E''.
Qed.

(** ** C74 *)
(** The names of a module that are not its own are those its imports and aliases
    bind, the last one counting; its starred modules are listed in order. *)
Theorem C74_imports_partial :
  forall source is_package condition printable limit fuel modules st,
    parse_stubs_state source is_package condition printable limit fuel modules = Ok st ->
    exists parsed,
      parse_modules source is_package condition fuel modules = Done parsed tt
      /\ (forall m, In m modules -> In m (visited parsed))
      /\ forall m, In m (visited parsed) ->
         exists body says,
           source m = Some body /\ told_by source is_package condition parsed m body says
           /\ (forall p, dget p (dget_or m [] (references (db st))) = reference_in p says)
           /\ dget_or m [] (submodules (db st)) = stars_in says.
Proof.
  intros so ip co pr li fu mo st H.
  destruct (@stubs_told so ip co pr li fu mo st H) as (parsed & A & B & C). exists parsed. split; [exact A|]. split; [exact B|].
  intros m Hm. destruct (C m Hm) as (body & fs & D & E & _ & _ & _ & F & G & _). eauto 8.
Qed.
Print Assumptions C74_imports_partial.
(** ... all of them if the module is read when its turn comes *)
Theorem C74_all_imports_partial :
  forall source is_package condition printable limit fuel modules m st,
    read_in_turn source is_package condition fuel modules m ->
    parse_stubs_state source is_package condition printable limit fuel modules = Ok st ->
    exists parsed body says,
      parse_modules source is_package condition fuel modules = Done parsed tt
      /\ source m = Some body /\ module_says source is_package condition (pred fuel) parsed m body says
      /\ (forall p, dget p (dget_or m [] (references (db st))) = reference_in p says)
      /\ dget_or m [] (submodules (db st)) = stars_in says.
Proof.
  intros so ip co pr li fu mo m st HT H.
  destruct (@stubs_content so ip co pr li fu mo m st HT H) as (parsed & body & fs & A & D & E & _ & _ & _ & F & G & _). eauto 9.
Qed.
Print Assumptions C74_all_imports_partial.

Example C74_example :
  exists st, parsed imports_ [[$"p"]; [$"m"; $"k"]] = Ok st
    /\ dget [$"m"; $"k"] (references (db st))
       = Some [([$"a"], ([$"a"], [])); ([$"a"; $"b"], ([$"a"; $"b"], [])); ([$"d"], ([$"a"; $"c"], []));
               ([$"y"], ([$"p"], [$"x"])); ([$"z"], ([$"p"], [$"x"])); ([$"w"], ([$"m"; $"q"], [$"w"]))]
    /\ dget [$"m"; $"k"] (submodules (db st)) = Some [[$"p"]].
Proof. eexists. split; [vm_compute; reflexivity|]. repeat split. Qed.

(** ** C75 *)
(** Every class gets the type variables of its generic bases as parameters, each
    once, in order of first appearance. *)
Theorem C75_type_parameters_partial :
  forall source is_package condition printable limit fuel modules st,
    parse_stubs_state source is_package condition printable limit fuel modules = Ok st ->
    exists parsed,
      parse_modules source is_package condition fuel modules = Done parsed tt
      /\ (forall m, In m modules -> In m (visited parsed))
      /\ forall m, In m (visited parsed) ->
         exists body says,
           source m = Some body /\ told_by source is_package condition parsed m body says
           /\ forall o, dget (m, o) (parameters_of st) = parameters_in o says.
Proof.
  intros so ip co pr li fu mo st H.
  destruct (@stubs_told so ip co pr li fu mo st H) as (parsed & A & B & C). exists parsed. split; [exact A|]. split; [exact B|].
  intros m Hm. destruct (C m Hm) as (body & fs & D & E & _ & _ & F & _). eauto 8.
Qed.
Print Assumptions C75_type_parameters_partial.
Theorem C75_all_type_parameters_partial :
  forall source is_package condition printable limit fuel modules m st,
    read_in_turn source is_package condition fuel modules m ->
    parse_stubs_state source is_package condition printable limit fuel modules = Ok st ->
    exists parsed body says,
      parse_modules source is_package condition fuel modules = Done parsed tt
      /\ source m = Some body /\ module_says source is_package condition (pred fuel) parsed m body says
      /\ forall o, dget (m, o) (parameters_of st) = parameters_in o says.
Proof.
  intros so ip co pr li fu mo m st HT H.
  destruct (@stubs_content so ip co pr li fu mo m st HT H) as (parsed & body & fs & A & D & E & _ & _ & F & _). eauto 9.
Qed.
Print Assumptions C75_all_type_parameters_partial.

Example C75_example :
  exists st, parsed generics [[$"typing"]; [$"m"]] = Ok st
    /\ dget ([$"m"], [$"B"]) (parameters_of st) = Some [[$"T"]]
    /\ dget ([$"m"], [$"C"]) (parameters_of st) = None.
Proof. eexists. split; [vm_compute; reflexivity|]. repeat split. Qed.

(** ** C76 *)
(** The superclasses of a class are [typing.NamedTuple] for a named tuple and then,
    in the order of the class statement, what becomes of its other bases. *)
Theorem C76_superclasses_partial :
  forall source is_package condition printable limit fuel modules st,
    parse_stubs_state source is_package condition printable limit fuel modules = Ok st ->
    exists parsed,
      parse_modules source is_package condition fuel modules = Done parsed tt
      /\ (forall m, In m modules -> In m (visited parsed))
      /\ forall m, In m (visited parsed) ->
         exists body says,
           source m = Some body /\ told_by source is_package condition parsed m body says
           /\ forall o, exists others,
                dget_or o [] (dget_or m [] (superclasses (db st))) = tuples_in o says ++ others
                /\ Forall2 (superclass_of printable limit st m o)
                     (match bases_in o says with Some bases => bases | None => [] end) others.
Proof.
  intros so ip co pr li fu mo st H.
  destruct (@stubs_told so ip co pr li fu mo st H) as (parsed & A & B & C). exists parsed. split; [exact A|]. split; [exact B|].
  intros m Hm. destruct (C m Hm) as (body & fs & D & E & _ & _ & _ & _ & _ & _ & F). eauto 8.
Qed.
Print Assumptions C76_superclasses_partial.
Theorem C76_all_superclasses_partial :
  forall source is_package condition printable limit fuel modules m st,
    read_in_turn source is_package condition fuel modules m ->
    parse_stubs_state source is_package condition printable limit fuel modules = Ok st ->
    exists parsed body says,
      parse_modules source is_package condition fuel modules = Done parsed tt
      /\ source m = Some body /\ module_says source is_package condition (pred fuel) parsed m body says
      /\ forall o, exists others,
           dget_or o [] (dget_or m [] (superclasses (db st))) = tuples_in o says ++ others
           /\ Forall2 (superclass_of printable limit st m o)
                (match bases_in o says with Some bases => bases | None => [] end) others.
Proof.
  intros so ip co pr li fu mo m st HT H.
  destruct (@stubs_content so ip co pr li fu mo m st HT H) as (parsed & body & fs & A & D & E & _ & _ & _ & _ & _ & _ & F). eauto 9.
Qed.
Print Assumptions C76_all_superclasses_partial.

(** So [class R(P, NamedTuple, ...)] gets [NamedTuple] before [P]. *)
Theorem C76_order_of_named_tuples_refuted :
  exists st, parsed bases_ [[$"typing"]; [$"m"]] = Ok st
    /\ dget_or [$"R"] [] (dget_or [$"m"] [] (superclasses (db st)))
       = [NamedTuple_path; ([$"m"], [$"P"]); (specializations_path, [$"A_getitem_int"])]
    /\ dget_or [$"R"; $"Q"] [] (dget_or [$"m"] [] (superclasses (db st))) = [([$"m"], [$"P"])].
Proof. eexists. split; [vm_compute; reflexivity|]. repeat split. Qed.
Print Assumptions C76_order_of_named_tuples_refuted.

(** The hypotheses are met: [typing] does not read [m]. *)
Example C76_example_in_turn : read_in_turn (source bases_) no_package any_condition 20 [[$"typing"]; [$"m"]] [$"m"].
Proof. eexists [_; _], [], _, _. split; [reflexivity|]. split; [vm_compute; reflexivity|]. cbn. intuition discriminate. Qed.
