(** Properties C57, C58, C70-C73, C87, C88: evaluating stubs. *)
From Verif Require Import Base Ast Conversion Catalog Scoping Signatures Stubs Evaluation SpecEvaluation EvaluationProofs.

(** ** Sample values and stubs *)
Module Samples.
Inductive value :=
| VConstant (k : constant) | VTuple (vs : list value) | VList (vs : list value) | VOperation (vs : list value)
| VForwardRef (text : pystr)
| VObject (q : qualified_path)
| VItem (v i : value)
| VFunction (q : qualified_path) (used : list value)
| VDict (items : list (option value * value))
| VClass (name : pystr) (bases : list value) (fields : list (pystr * value))
| VModule (name : pystr).
(** The value of a name in executed code *)
Definition looked_up (ns : dict pystr value) (name : pystr) : res value :=
  match dget name ns with
  | Some v => Ok v
  | None => if mem name [$"int"; $"str"; $"object"] then Ok (VObject ([$"builtins"], [name])) else Err NameError
  end.
(** typing and builtins are importable; everything can be subscripted; executed functions
    are shown with the values of the names in decorators and defaults. *)
Definition py : python value := {|
  of_constant := VConstant; tuple_of := VTuple; list_of := VList; dict_of := fun items => Ok (VDict items);
  unary := fun _ v => Ok (VOperation [v]); binary := fun _ _ _ => Err TypeError; union := fun a b => Ok (VOperation [a; b]);
  getattr := fun _ _ => Err AttributeError; getitem := fun v i => Ok (VItem v i);
  call := fun f vs _ => Ok (VOperation (f :: vs)); forward_ref := VForwardRef;
  import_object := fun q => if mem (fst q) [[$"typing"]; [$"builtins"]] then Imported (VObject q) else NotImportable;
  empty_dict := VDict [];
  execute := fun ns q s => let* used := map_m (looked_up ns) (lazy_names s) in Ok (VFunction q used); new_class := fun n bs fs => Ok (VClass n bs fs); new_module := VModule |}.
Definition source (modules : list (path * list stmt)) : path -> option (list stmt) := fun m => dget m modules.
Definition tables_of (st : state) : tables :=
  mk_tables (fun m p o => resolve_stub 50 m p o st) (nodes st) (kinds st) (definitions (db st)) (superclasses (db st)).
Definition builtins := ([$"builtins"], [SClassDef $"int" [] []; SClassDef $"str" [] []; SClassDef $"object" [] []]).
Definition typing := ([$"typing"], [SAnnAssign (Name $"List") (Name $"object") None]).
Definition list_of_ (e : expr) := Subscript (Name $"List") e.
Definition stubs (body : list stmt) : tables :=
  match parse_stubs_state
          (source [builtins; typing; ([$"m"], SImportFrom (Some $"typing") [mk_alias $"List" None] 0 :: body)])
          (fun _ => false) (fun _ _ => Ok true) (fun _ => true) 50 20 [[$"typing"]; [$"m"]] with
  | Ok st => tables_of st
  | Err _ => mk_tables (fun _ _ _ => Err OtherException) [] [] [] []
  end.
Definition empty : memory value := mk_memory [] [] [] [[]] [] [] [] [].
Definition in_m (name : pystr) : qualified_path := ([$"m"], [name]).
Definition evaluate (t : tables) (name : pystr) (c : memory value) := evaluate_qualified_path py t 20 (in_m name) c.
Definition List_of v := VItem (VObject ([$"typing"], [$"List"])) v.

(** [A = List[A]] *)
Definition recursive := stubs [SAssign [Name $"A"] (list_of_ (Name $"A"))].
(** [A = List[B]; B = List[A]] *)
Definition mutual := stubs [SAssign [Name $"A"] (list_of_ (Name $"B")); SAssign [Name $"B"] (list_of_ (Name $"A"))].
(** [class C: A = List[C]] *)
Definition class_alias := stubs [SClassDef $"C" [] [SAssign [Name $"A"] (list_of_ (Name $"C"))]].
(** [A = List[Undefined]] *)
Definition broken := stubs [SAssign [Name $"A"] (list_of_ (Name $"Undefined"))].
(** [x: int] *)
Definition variable := stubs [SAnnAssign (Name $"x") (Name $"int") None].
(** [class C: x: Undefined] *)
Definition broken_class := stubs [SClassDef $"C" [] [SAnnAssign (Name $"x") (Name $"Undefined") None]].
(** [A = List[int]; A = List[str]] *)
Definition redefined := stubs [SAssign [Name $"A"] (list_of_ (Name $"int")); SAssign [Name $"A"] (list_of_ (Name $"str"))].
(** [class C: (class D: ...)] *)
Definition nested := stubs [SClassDef $"C" [] [SClassDef $"D" [] []]].
(** [class C: A = List[int]] *)
Definition flat := stubs [SClassDef $"C" [] [SAssign [Name $"A"] (list_of_ (Name $"int"))]].
End Samples.
Import Samples.

(** ** C57 *)
(** Evaluation of any expression and any path ends - from some recursion depth on more depth makes no
    difference - unless classes that exist in stubs only wait for each other in circles; annotations
    may recur as they like. *)
Theorem C57_no_circles_partial :
  forall V (py : python V) (stubs : tables) (rank : qualified_path -> nat),
    (forall m o module_nodes nodes targets value,
       dget m (stub_nodes stubs) = Some module_nodes -> dget o module_nodes = Some nodes ->
       In (SAssign targets value) nodes -> targets <> []) ->
    (forall q q', stub_only_class py stubs q -> stub_only_class py stubs q' -> waits_for stubs q q' -> rank q' < rank q) ->
    forall c, exists depth, forall fuel, depth <= fuel ->
      (forall q, evaluate_qualified_path py stubs fuel q c = evaluate_qualified_path py stubs depth q c)
      /\ (forall m parent e, evaluate_expression_node py stubs fuel m parent e c
                             = evaluate_expression_node py stubs depth m parent e c).
Proof.
  intros V py stubs rank HA HR c. set (n := measure stubs c). exists (n * (highest stubs rank + 3) + highest stubs rank + 2). intros fuel L.
  assert (P : forall q, same stubs n (evaluate_qualified_path py stubs fuel q)
                          (evaluate_qualified_path py stubs (n * (highest stubs rank + 3) + highest stubs rank + 2) q)).
  { intros q. apply (same_path py stubs) with rank.
    - intros m o mn ns s A B C. destruct s; cbn; auto. eapply HA; eauto.
    - intros q1 q2 U1 U2 [N|(mn & x & ns & s & name & N1 & N2 & N3 & N4 & N5 & N6)]; apply HR; auto; [now left|]. right.
      exists mn, x, ns, s, name. split; [exact N1|]. split; [exact N2|]. split; [exact N3|]. split; [intros (t & a & ->); discriminate N4|].
      split; [|exact N6]. destruct s; try (right; split; [intros f'; split; discriminate|exact N5]).
      all: left; match goal with |- looked_up_at_once _ (_ ?f) => apply (fun X => proj2 (@at_once_names _ f name X) N5); auto end.
    - apply enough_for_all. lia.
    - apply enough_for_all. lia. }
  split.
  - intros q. apply P. apply Nat.le_refl.
  - intros m parent e. unfold evaluate_expression_node. eapply same_expression; [exact P|apply Nat.le_refl].
Qed.
Print Assumptions C57_no_circles_partial.

(** If classes can be imported, evaluation of any expression and any path ends: from
    some recursion depth on more depth makes no difference. *)
Theorem C57_evaluation_terminates_partial :
  forall V (py : python V) (stubs : tables),
    (forall m o module_nodes nodes targets value,
       dget m (stub_nodes stubs) = Some module_nodes -> dget o module_nodes = Some nodes ->
       In (SAssign targets value) nodes -> targets <> []) ->
    (forall m o module_kinds,
       dget m (stub_kinds stubs) = Some module_kinds -> dget o module_kinds = Some CLASS ->
       exists v, import_object py (m, o) = Imported v) ->
    forall c, exists depth, forall fuel, depth <= fuel ->
      (forall q, evaluate_qualified_path py stubs fuel q c = evaluate_qualified_path py stubs depth q c)
      /\ (forall m parent e, evaluate_expression_node py stubs fuel m parent e c
                             = evaluate_expression_node py stubs depth m parent e c).
Proof.
  intros V py stubs HA HC. apply (C57_no_circles_partial V py stubs (fun _ => 0) HA).
  intros q q' (N & kinds & K1 & K2). exfalso. destruct (HC _ _ _ K1 K2) as (v & I). rewrite <- surjective_pairing in I. exact (N v I).
Qed.
Print Assumptions C57_evaluation_terminates_partial.

(** Classes that exist in stubs only may refer to themselves: [class C: A = List[C]]
    is evaluated for ever. *)
Theorem C57_class_alias_refuted :
  forall fuel, evaluate_qualified_path py class_alias fuel (in_m $"C") empty = (empty, Err RecursionError).
Proof.
  pose (at_ := fun ns => with_names ns empty).
  assert (one : forall f v, (forall ns, f ([$"typing"], [$"List"]) (at_ ns) = (at_ ns, Ok v)) ->
            (forall ns, f (in_m $"C") (at_ ns) = (at_ ns, Err RecursionError)) ->
            forall ns, evaluate_object py class_alias f [$"m"] [$"C"] (at_ ns) = (at_ ns, Err RecursionError)).
  { intros f v F G ns.
    pose (A := SAssign [Name $"A"] (list_of_ (Name $"C"))).
    assert (N : (let* module_nodes := fetch [$"m"] (stub_nodes class_alias) in
             let* module_kinds := fetch [$"m"] (stub_kinds class_alias) in
             let* kind := fetch [$"C"] module_kinds in Ok (module_nodes, kind))
            = Ok ([([$"C"; $"A"], [A])], CLASS)) by (vm_compute; reflexivity).
    assert (D : (let* s := fetch [$"m"] (stub_definitions class_alias) in scope_at s [$"C"]) = Ok (Scope [($"A", Scope [])]))
      by (vm_compute; reflexivity).
    assert (R1 : resolve class_alias [$"m"] [$"C"] [$"List"] = Ok ([$"typing"], [$"List"])) by (vm_compute; reflexivity).
    assert (R2 : resolve class_alias [$"m"] [$"C"] [$"C"] = Ok (in_m $"C")) by (vm_compute; reflexivity).
    assert (P : forall md, evaluate_dependencies class_alias f [$"m"] [$"C"] (dedupe (lazy_names A)) md (at_ ns) = (at_ ns, Err RecursionError)).
    { intros md. change (dedupe (lazy_names A)) with [$"List"; $"C"]. cbn [evaluate_dependencies]. rewrite R1.
      change (fst ([$"typing"], [$"List"]) == builtins_path) with false. cbv iota beta. unfold inside.
      change (with_names [md] (at_ ns)) with (at_ [md]). rewrite F. cbn [ebind]. rewrite R2.
      change (fst (in_m $"C") == builtins_path) with false. cbv iota beta.
      change (with_names (names (at_ ns)) (at_ [md])) with (at_ ns).
      match goal with |- context [with_names [?x] (at_ ns)] => change (with_names [x] (at_ ns)) with (at_ [x]) end.
      rewrite G. reflexivity. }
    assert (E : forall cls md, evaluate_fields py class_alias f [$"m"] [$"C"] [([$"C"; $"A"], [A])] [$"A"] cls md (at_ ns) = (at_ ns, Err RecursionError)).
    { intros cls md. cbn [evaluate_fields].
      replace (fetch ([$"C"] ++ [$"A"]) [([$"C"; $"A"], [A])]) with (Ok [A]) by (vm_compute; reflexivity).
      cbv iota beta. change (definitions_nodes [A]) with [A]. cbn [evaluate_definitions]. rewrite P. reflexivity. }
    unfold evaluate_object. change (dget ([$"m"], [$"C"]) (classes (at_ ns))) with (@None value). cbv iota.
    match goal with |- match ?x with _ => _ end = _ => replace x with (Ok ([([$"C"; $"A"], [A])], CLASS)) by (symmetry; exact N) end.
    cbv iota beta. change (is_CLASS CLASS) with true. cbv iota. unfold evaluate_class.
    match goal with |- match ?x with _ => _ end = _ => replace x with (Ok (Scope [($"A", Scope [])])) by (symmetry; exact D) end.
    cbv iota beta. change (dkeys (entries (Scope [($"A", Scope [])]))) with [$"A"].
    match goal with |- ebind ?x _ = _ => replace x with (at_ ns, @Err ((dict pystr value * dict pystr value) * list (pystr * expr)) RecursionError) by (symmetry; apply E) end.
    reflexivity. }
  assert (all : forall fuel ns, evaluate_qualified_path py class_alias fuel (in_m $"C") (at_ ns) = (at_ ns, Err RecursionError)).
  { induction fuel as [|fuel IH]; intros ns; [reflexivity|].
    change (evaluate_qualified_path py class_alias (S fuel) (in_m $"C") (at_ ns))
      with (evaluate_object py class_alias (evaluate_qualified_path py class_alias fuel) [$"m"] [$"C"] (at_ ns)).
    destruct fuel as [|fuel].
    - unfold evaluate_object. change (dget ([$"m"], [$"C"]) (classes (at_ ns))) with (@None value). vm_compute. reflexivity.
    - eapply one; [intros; reflexivity|exact IH]. }
  intros fuel. exact (all fuel [[]]).
Qed.
Print Assumptions C57_class_alias_refuted.

(** What is evaluated within some recursion depth is evaluated to the same thing, with the same
    effects, within any greater one: for all stubs, and whatever else evaluation ends with. *)
Theorem C57_any_depth :
  forall V (py : python V) (stubs : tables) depth fuel, depth <= fuel ->
    (forall q c, snd (evaluate_qualified_path py stubs depth q c) <> Err RecursionError ->
       evaluate_qualified_path py stubs fuel q c = evaluate_qualified_path py stubs depth q c)
    /\ (forall m parent e c, snd (evaluate_expression_node py stubs depth m parent e c) <> Err RecursionError ->
          evaluate_expression_node py stubs fuel m parent e c = evaluate_expression_node py stubs depth m parent e c)
    /\ (forall m parent s c, snd (evaluate_statement_node py stubs depth m parent s c) <> Err RecursionError ->
          evaluate_statement_node py stubs fuel m parent s c = evaluate_statement_node py stubs depth m parent s c).
Proof.
  intros V py stubs depth fuel L. pose proof (fun q => deeper_path py stubs depth fuel q L) as P. split; [|split].
  - intros q c N. destruct (P q c) as [E|E]; [contradiction|exact E].
  - intros m parent e c N. destruct (deeper_expression py stubs _ _ P m parent e c) as [E|E]; [contradiction|exact E].
  - intros m parent s c N. destruct (deeper_statement py stubs _ _ P m parent s c) as [E|E]; [contradiction|exact E].
Qed.
Print Assumptions C57_any_depth.

(** Classes that need each other first are evaluated for ever, for all stubs. *)
Theorem C57_circles_refuted :
  forall V (py : python V) (stubs : tables) (circle : qualified_path -> Prop),
    (forall q, circle q -> stub_only_class py stubs q /\ fst q <> [$"builtins"] /\ snd q <> [] /\ needs_first py stubs circle q) ->
    forall q c, circle q -> (forall q', circle q' -> dget q' (classes c) = None) ->
    forall fuel, snd (evaluate_qualified_path py stubs fuel q c) = Err RecursionError.
Proof. intros V py stubs circle H q c C U fuel. now apply circles_for_ever with circle. Qed.
Print Assumptions C57_circles_refuted.

(** An alias under evaluation is evaluated, where it occurs again, to what the cache
    has for it: the forward reference put there first. *)
Theorem C57_recursive_occurrence :
  forall V (py : python V) (stubs : tables) fuel m parent name qm qo module_nodes module_kinds kind s v r targets value c,
    resolve stubs m parent [name] = Ok (qm, qo) ->
    (forall w, import_object py (qm, qo) <> Imported w) -> qo <> [] ->
    dget (qm, qo) (classes c) = None ->
    dget qm (stub_nodes stubs) = Some module_nodes -> dget qm (stub_kinds stubs) = Some module_kinds ->
    dget qo module_kinds = Some kind -> kind <> CLASS -> dget qo module_nodes = Some [s] ->
    s = SAssign targets value ->
    targets_paths stubs qm (removelast qo) s = Ok ((qm, qo) :: r) ->
    dget (qm, qo) (aliases c) = Some v ->
    exists c', evaluate_expression_node py stubs (S fuel) m parent (Name name) c = (c', Ok v).
Proof.
  intros V py stubs fuel m parent name qm qo mn mk kind s v r targets value c R NI NE NC N K Ki KC Ns -> T A.
  unfold evaluate_expression_node. cbn [evaluate_expression]. unfold evaluate_resolved. rewrite R. cbn [evaluate_qualified_path].
  assert (O : exists c', evaluate_object py stubs (evaluate_qualified_path py stubs fuel) qm qo c = (c', Ok v)).
  { unfold evaluate_object. rewrite NC. unfold fetch. rewrite N, K. cbn [bind_res]. rewrite Ki. cbn [bind_res].
    replace (is_CLASS kind) with false by (destruct kind; easy). rewrite Ns. cbn [evaluate_nodes evaluate_statement].
    rewrite (assignment_cached py stubs _ qm (removelast qo) _ (Some value) c v (qm, qo) r T A). cbn. eauto. }
  cbn [fst snd]. destruct (import_object py (qm, qo)) as [| |w]; [|exact O|now destruct (NI w)].
  destruct qo; [easy|exact O].
Qed.
Print Assumptions C57_recursive_occurrence.

(** Evaluating the value of an assignment for the first time, its targets are
    forward references. *)
Theorem C57_forward_reference :
  forall V (py : python V) (stubs : tables) fuel m parent name value c q,
    resolve stubs m parent [name] = Ok q -> dget q (aliases c) = None ->
    let started := with_alias q (forward_ref py (path_to_string (snd q))) c in
    evaluate_statement_node py stubs fuel m parent (SAssign [Name name] value) c
    = match evaluate_expression_node py stubs fuel m parent value started with
      | (c', Ok v) => (with_alias q v c', Ok v)
      | failed => failed
      end.
Proof.
  intros V py stubs fuel m parent name value c q R N. cbn zeta. unfold evaluate_statement_node, evaluate_expression_node.
  cbn [evaluate_statement]. unfold evaluate_assignment, targets_paths.
  cbn [to_names map_m target_name bind_res]. rewrite R. cbn [bind_res search_cache]. rewrite N.
  now destruct (evaluate_expression py stubs _ m parent value _) as [c' [v|e]].
Qed.
Print Assumptions C57_forward_reference.

(** Evaluating an assignment again gives the same value and changes nothing. *)
Theorem C57_evaluated_once :
  forall V (py : python V) (stubs : tables) fuel fuel' m parent targets value c c' v,
    targets <> [] ->
    evaluate_statement_node py stubs fuel m parent (SAssign targets value) c = (c', Ok v) ->
    evaluate_statement_node py stubs fuel' m parent (SAssign targets value) c' = (c', Ok v).
Proof.
  intros V py stubs fuel fuel' m parent targets value c c' v NE H.
  unfold evaluate_statement_node in *. cbn [evaluate_statement] in *.
  destruct (targets_paths stubs m parent (SAssign targets value)) as [ts|e] eqn:T.
  2:{ unfold evaluate_assignment in H. rewrite T in H. discriminate. }
  pose proof (assignment_stored py stubs _ _ _ _ _ _ _ _ ts T H) as S.
  destruct ts as [|t r].
  - exfalso. eapply targets_nonempty; [| |exact T|reflexivity]; [exact NE|right; eauto].
  - rewrite (assignment_cached py stubs _ m parent _ (Some value) c' v t r T); [|apply S; now left].
    now rewrite store_same.
Qed.
Print Assumptions C57_evaluated_once.

Example C57_example :
  snd (evaluate recursive $"A" empty) = Ok (List_of (VForwardRef $"A")).
Proof. vm_compute. reflexivity. Qed.
Example C57_example_again :
  evaluate recursive $"A" (fst (evaluate recursive $"A" empty)) = evaluate recursive $"A" empty.
Proof. vm_compute. reflexivity. Qed.

(** Depth 1 is too little for [A = List[A]], 2 is enough, and so is more. *)
Example C57_example_depth : forall fuel, 2 <= fuel ->
  snd (evaluate_qualified_path py recursive 1 (in_m $"A") empty) = Err RecursionError
  /\ snd (evaluate_qualified_path py recursive fuel (in_m $"A") empty) = Ok (List_of (VForwardRef $"A")).
Proof.
  intros fuel L. split; [vm_compute; reflexivity|].
  assert (E : snd (evaluate_qualified_path py recursive 2 (in_m $"A") empty) = Ok (List_of (VForwardRef $"A"))) by (vm_compute; reflexivity).
  destruct (C57_any_depth value py recursive 2 fuel L) as (P & _). rewrite P; [exact E|rewrite E; discriminate].
Qed.
(** [class C: x: C; class D(C): A = List[C]] *)
Definition ordered := stubs [SClassDef $"C" [] [SAnnAssign (Name $"x") (Name $"C") None];
                             SClassDef $"D" [Name $"C"] [SAssign [Name $"A"] (list_of_ (Name $"C"))]].
Ltac computed t := let v := eval vm_compute in t in let E := fresh "E" in assert (E : t = v) by (vm_compute; reflexivity); rewrite E in *; clear E.
Lemma ordered_classes q : stub_only_class py ordered q -> q = in_m $"C" \/ q = in_m $"D".
Proof.
  intros (N & kinds & K1 & K2). destruct q as [m o]. cbn [fst snd] in *.
  apply dget_Some_In in K1. computed (stub_kinds ordered).
  repeat (destruct K1 as [K1|K1]; [injection K1 as <- <-; apply dget_Some_In in K2;
    repeat (destruct K2 as [K2|K2]; [try discriminate K2; injection K2 as <-; try (now left); try (now right); exfalso; eapply N; reflexivity|]); destruct K2|]).
  destruct K1.
Qed.
Lemma ordered_ranks q q' : stub_only_class py ordered q -> stub_only_class py ordered q' -> waits_for ordered q q' ->
  q = in_m $"D" /\ q' = in_m $"C".
Proof.
  intros U U' [W|(ns & x & ss & s & name & N1 & N2 & N3 & N4 & N5 & N6)].
  - destruct (ordered_classes q U) as [->| ->]; computed (stub_superclasses ordered); [destruct W|destruct W as [<-|[]]; now split].
  - assert (E : fst q = [$"m"]) by (destruct (ordered_classes q U) as [->| ->]; reflexivity).
    rewrite E in N1. computed (stub_nodes ordered). vm_compute in N1. injection N1 as <-. apply dget_Some_In in N2.
    destruct N2 as [N2|[N2|[]]]; injection N2 as N2 <-; destruct N3 as [<-|[]].
    + exfalso. apply N4. red. eauto.
    + destruct (ordered_classes q U) as [->| ->]; [discriminate N2|]. split; [reflexivity|].
      destruct (ordered_classes q' U') as [->| ->]; [reflexivity|exfalso].
      destruct N5 as [N5|[_ N5]].
      * red in N5. destruct N5 as (f & e & [F|F] & _); discriminate F.
      * assert (R : forall n, In n (names_stmt (SAssign [Name $"A"] (list_of_ (Name $"C")))) -> match resolve ordered [$"m"] [$"D"] [n] with Ok q => q == in_m $"D" | Err _ => false end = false)
          by (intros n I; vm_compute in I; repeat destruct I as [<-|I]; try destruct I; vm_compute; reflexivity).
        apply R in N5. change (fst (in_m $"D")) with [$"m"] in N6. change (snd (in_m $"D")) with [$"D"] in N6. rewrite N6 in N5. vm_compute in N5. discriminate N5.
Qed.

(** Stub-only classes, one annotated with itself and one that waits for it *)
Example C57_example_classes :
  waits_for ordered (in_m $"D") (in_m $"C")
  /\ exists depth, forall fuel, depth <= fuel ->
       evaluate_qualified_path py ordered fuel (in_m $"D") empty = evaluate_qualified_path py ordered depth (in_m $"D") empty.
Proof.
  split; [left; vm_compute; now left|].
  destruct (C57_no_circles_partial value py ordered (fun q => if q == in_m $"D" then 1 else 0)) with (c := empty) as (depth & H).
  - intros m o mn ns ts e A B I. apply dget_Some_In in A. computed (stub_nodes ordered).
    repeat (destruct A as [A|A]; [injection A as <- <-; apply dget_Some_In in B;
      repeat (destruct B as [B|B]; [injection B as <- <-; destruct I as [I|[]]; first [discriminate I|injection I as <- _; discriminate]|]); destruct B|]).
    destruct A.
  - intros q q' U U' W. destruct (ordered_ranks q q' U U' W) as [-> ->]. vm_compute. auto.
  - exists depth. intros fuel L. now apply H.
Qed.
(** [class C: A = List[C]] waits for itself *)
Example C57_example_circle : stub_only_class py class_alias (in_m $"C") /\ waits_for class_alias (in_m $"C") (in_m $"C").
Proof.
  split.
  - split; [intros v H; discriminate H|]. eexists. split; vm_compute; reflexivity.
  - right. do 2 eexists. exists [SAssign [Name $"A"] (list_of_ (Name $"C"))], (SAssign [Name $"A"] (list_of_ (Name $"C"))), $"C".
    split; [vm_compute; reflexivity|]. split; [instantiate (1 := $"A"); vm_compute; reflexivity|]. split; [now left|].
    split; [intros (t & a & H); discriminate H|]. split; [|vm_compute; reflexivity].
    right. split; [intros f; split; discriminate|]. vm_compute. auto.
Qed.

(** [class B: d: D = ...; class D(B): ...] *)
Definition derived := stubs [SClassDef $"B" [] [SAnnAssign (Name $"d") (Name $"D") (Some (Constant CEllipsis))]; SClassDef $"D" [Name $"B"] []].
Example C57_example_derived : forall fuel, snd (evaluate_qualified_path py derived fuel (in_m $"D") empty) = Err RecursionError.
Proof.
  intros fuel. apply C57_circles_refuted with (circle := fun q => q = in_m $"B" \/ q = in_m $"D"); [|now right|reflexivity].
  assert (K : dget [$"m"] (stub_kinds derived) = Some [([$"B"], CLASS); ([$"B"; $"d"], ANNOTATED_ASSIGNMENT); ([$"D"], CLASS)]) by (vm_compute; reflexivity).
  pose (s := SAnnAssign (Name $"d") (Name $"D") (Some (Constant CEllipsis))).
  assert (N : dget [$"m"] (stub_nodes derived) = Some [([$"B"; $"d"], [s])]) by (vm_compute; reflexivity).
  assert (D : exists defs, dget [$"m"] (stub_definitions derived) = Some defs
                /\ scope_at defs [$"B"] = Ok (Scope [($"d", Scope [])]) /\ scope_at defs [$"D"] = Ok (Scope []))
    by (eexists; split; [vm_compute; reflexivity|split; vm_compute; reflexivity]).
  destruct D as (defs & D & DB & DD).
  assert (R : resolve derived [$"m"] [$"B"] [$"D"] = Ok (in_m $"D")) by (vm_compute; reflexivity).
  assert (B : dget_or [$"D"] [] (dget_or [$"m"] [] (stub_superclasses derived)) = [in_m $"B"]) by (vm_compute; reflexivity).
  intros q C. split; [split|split; [|split]].
  - intros v. destruct C as [->| ->]; discriminate.
  - destruct C as [->| ->]; (eexists; split; [exact K|reflexivity]).
  - destruct C as [->| ->]; discriminate.
  - destruct C as [->| ->]; discriminate.
  - destruct C as [->| ->].
    + exists defs, (Scope [($"d", Scope [])]), [([$"B"; $"d"], [s])], [], [$"d"].
      split; [exact D|]. split; [exact DB|]. split; [exact N|]. split; [reflexivity|]. split; [intros ? []|].
      exists [], s, []. split; [reflexivity|]. split; [intros ? []|]. split; [intros (t & a & H); discriminate H|].
      assert (L : forall n, read_when_made n s -> n = $"D") by (intros n H; apply read_lazy in H; now destruct H as [<-|[]]).
      split; [exists $"D", (in_m $"D"); split; [apply read_lazy; now left|split; [exact R|now right]]|].
      intros n H. apply L in H as ->. exists (in_m $"D"). split; [exact R|left; now right].
    + exists defs, (Scope []), [([$"B"; $"d"], [s])], [], [].
      split; [exact D|]. split; [exact DD|]. split; [exact N|]. split; [reflexivity|]. split; [intros ? []|]. cbv zeta.
      change (fst (in_m $"D")) with [$"m"]. change (snd (in_m $"D")) with [$"D"].
      split; [exists (in_m $"B"); split; [|now left]|intros q']; match goal with |- context [In _ ?x] => replace x with [in_m $"B"] by (symmetry; exact B) end.
      * now left.
      * intros [<-|[]]. left. now left.
Qed.

(** ** C58 *)
(** Whenever the evaluation of an assignment fails after its targets were found, the
    next one succeeds with whatever is left in the cache. *)
Theorem C58_no_trace_refuted :
  forall V (py : python V) (stubs : tables) fuel fuel' m parent s value targets c c' e,
    s = SAssign targets value \/ (exists a, s = SAnnAssign a value None) ->
    (exists t r, targets_paths stubs m parent s = Ok (t :: r)) ->
    evaluate_statement_node py stubs fuel m parent s c = (c', Err e) ->
    exists c'' v, evaluate_statement_node py stubs fuel' m parent s c' = (c'', Ok v).
Proof.
  intros V py stubs fuel fuel' m parent s value targets c c' e Hs (t & r & T) H.
  assert (F : exists value', (forall fuel c, evaluate_statement_node py stubs fuel m parent s c
                                 = evaluate_assignment py stubs (evaluate_qualified_path py stubs fuel) m parent s value' c)).
  { destruct Hs as [->|(a & ->)]; [exists (Some value)|exists None]; reflexivity. }
  destruct F as (value' & F). rewrite F in H.
  assert (K : dget t (aliases c') <> None).
  { unfold evaluate_assignment in H. rewrite T in H. destruct (search_cache py (t :: r) c) as [c1 [v|]] eqn:S; [discriminate|].
    destruct (search_none py _ _ _ S) as [K _]. specialize (K t (or_introl eq_refl)).
    assert (L : le c1 c').
    { destruct value' as [e'|].
      - pose proof (grows_expression py stubs _ (grows_path py stubs fuel) m parent e' c1) as L.
        destruct (evaluate_expression py stubs (evaluate_qualified_path py stubs fuel) m parent e' c1) as [c2 [v|x]]; [discriminate|].
        cbn in H. injection H as <- _. exact L.
      - cbn in H. injection H as <- _. apply le_refl. }
    now apply L. }
  destruct (dget t (aliases c')) as [v|] eqn:E; [|easy].
  exists (store (t :: r) v c'), v. rewrite F. now apply assignment_cached.
Qed.
Print Assumptions C58_no_trace_refuted.

(** [A = List[Undefined]] fails and then is ForwardRef('A'); so is any variable
    [x: int]. *)
Theorem C58_placeholder_refuted :
  (exists e, snd (evaluate broken $"A" empty) = Err e)
  /\ snd (evaluate broken $"A" (fst (evaluate broken $"A" empty))) = Ok (VForwardRef $"A")
  /\ snd (evaluate variable $"x" empty) = Err TypeError
  /\ snd (evaluate variable $"x" (fst (evaluate variable $"x" empty))) = Ok (VForwardRef $"x").
Proof. vm_compute. eauto. Qed.
Print Assumptions C58_placeholder_refuted.

(** A class whose annotations cannot be evaluated fails at first and then is there (until the
    garbage collector finds it, unless something refers to it: [objects_cache] is weak). *)
Theorem C58_class_refuted :
  (exists e, snd (evaluate broken_class $"C" empty) = Err e)
  /\ exists v, snd (evaluate broken_class $"C" (fst (evaluate broken_class $"C" empty))) = Ok v.
Proof. vm_compute. eauto. Qed.
Print Assumptions C58_class_refuted.

(** Successful evaluations leave no placeholder: the targets have the value. *)
Theorem C58_success_partial :
  forall V (py : python V) (stubs : tables) fuel m parent targets value c c' v paths,
    targets_paths stubs m parent (SAssign targets value) = Ok paths ->
    evaluate_statement_node py stubs fuel m parent (SAssign targets value) c = (c', Ok v) ->
    forall t, In t paths -> dget t (aliases c') = Some v.
Proof. intros V py stubs fuel m parent targets value c c' v ts T H. eapply assignment_stored; [exact T|exact H]. Qed.
Print Assumptions C58_success_partial.

(** ** C70 *)
(** [A = List[B]; B = List[A]]: [B] is one thing when evaluated first and another
    after [A]. *)
Theorem C70_order_of_evaluation_refuted :
  snd (evaluate mutual $"B" empty) = Ok (List_of (List_of (VForwardRef $"B")))
  /\ snd (evaluate mutual $"B" (fst (evaluate mutual $"A" empty))) = Ok (List_of (VForwardRef $"A")).
Proof. vm_compute. auto. Qed.
Print Assumptions C70_order_of_evaluation_refuted.

(** Where all names can be imported the value of an expression does not depend on
    what was evaluated before, and nothing is remembered. *)
Theorem C70_imported_names_partial :
  forall V (py : python V) (stubs : tables) fuel m parent e,
    (forall o, mentions e o -> importable py stubs m parent o) ->
    exists r, forall c, evaluate_expression_node py stubs (S fuel) m parent e c = (c, r).
Proof. intros V py stubs fuel m parent e I. exact (steady_expression py stubs m parent fuel e I). Qed.
Print Assumptions C70_imported_names_partial.

Example C70_imported_example :
  evaluate_expression_node py flat 3 [$"m"] [] (list_of_ (Name $"int")) empty
  = (empty, Ok (List_of (VObject ([$"builtins"], [$"int"])))).
Proof. vm_compute. reflexivity. Qed.

(** ** C71 *)
(** Of several assignments to one name the first has effect. *)
Theorem C71_last_assignment_refuted :
  forall V (py : python V) (stubs : tables) fuel m parent targets value targets' value' t r r' c c1 v,
    targets_paths stubs m parent (SAssign targets value) = Ok (t :: r) ->
    targets_paths stubs m parent (SAssign targets' value') = Ok (t :: r') ->
    evaluate_statement_node py stubs fuel m parent (SAssign targets value) c = (c1, Ok v) ->
    forall name, snd (evaluate_nodes py stubs (evaluate_qualified_path py stubs fuel) m parent name
           [SAssign targets value; SAssign targets' value'] (Err NameError) c) = Ok v.
Proof.
  intros V py stubs fuel m parent ts val ts' val' t r r' c c1 v T T' H name. cbn [evaluate_nodes].
  unfold evaluate_statement_node in H. rewrite H. cbn [ebind].
  pose proof (assignment_stored py stubs _ _ _ _ _ _ _ _ _ T H t (or_introl eq_refl)) as S.
  cbn [evaluate_statement]. rewrite (assignment_cached py stubs _ m parent _ (Some val') (bind_name name v c1) v t r' T' S). reflexivity.
Qed.
Print Assumptions C71_last_assignment_refuted.

Example C71_example :
  snd (evaluate redefined $"A" empty) = Ok (List_of (VObject ([$"builtins"], [$"int"]))).
Proof. vm_compute. reflexivity. Qed.

(** Of several function definitions the last has effect. *)
Theorem C71_last_function_partial :
  forall V (py : python V) (stubs : tables) fuel m parent name fs f c,
    (forall g ns, In g fs -> exists w, execute py ns (m, parent ++ [fd_name g]) (SFunctionDef g) = Ok w) ->
    exists ns, snd (evaluate_nodes py stubs (evaluate_qualified_path py stubs fuel) m parent name
                      (map SFunctionDef (fs ++ [f])) (Err NameError) c)
               = execute py ns (m, parent ++ [fd_name f]) (SFunctionDef f).
Proof.
  intros V py stubs fuel m parent name fs f c H. generalize (@Err V NameError). revert c. induction fs as [|g r IH]; intros c last.
  - exists (merged (names c)). cbn [app map evaluate_nodes evaluate_statement].
    now destruct (execute py (merged (names c)) (m, parent ++ [fd_name f]) (SFunctionDef f)).
  - destruct (H g (merged (names c)) (or_introl eq_refl)) as [w W]. cbn [app map evaluate_nodes evaluate_statement]. rewrite W. cbn [ebind].
    apply IH. intros g' ns Hg. apply H. now right.
Qed.
Print Assumptions C71_last_function_partial.

(** ** C72 *)
(** A stub-only class with a class in it cannot be evaluated: no nodes are recorded
    for the inner one. *)
Theorem C72_nested_class_refuted :
  forall fuel c, dget (in_m $"C") (classes c) = None ->
    evaluate_qualified_path py nested (S fuel) (in_m $"C") c = (c, Err KeyError).
Proof.
  intros fuel c N. cbn [evaluate_qualified_path]. change (import_object py (in_m $"C")) with (@NotImportable value).
  cbn [fst snd in_m is_nil]. unfold evaluate_object.
  match goal with |- match ?x with _ => _ end = _ => replace x with (@None value) by (symmetry; exact N) end. cbv iota.
  match goal with |- match ?x with _ => _ end = _ =>
    replace x with (@Ok (dict path (list stmt) * node_kind) ([], CLASS)) by (vm_compute; reflexivity) end.
  cbv iota beta. change (is_CLASS CLASS) with true. cbv iota. unfold evaluate_class.
  match goal with |- match ?x with _ => _ end = _ =>
    replace x with (Ok (Scope [($"D", Scope [])])) by (vm_compute; reflexivity) end.
  reflexivity.
Qed.
Print Assumptions C72_nested_class_refuted.

(** A class of functions, assignments and annotations whose names can be imported is made of its
    functions, the values assigned and its base classes, if Python can make it; the next evaluation
    finds it, and what was assigned. Its annotations are the last ones stated for each name. *)
Theorem C72_flat_class_partial :
  forall V (py : python V) (stubs : tables) fuel (m o : path) module_nodes module_kinds definitions sc c ns assigned annotated bases v,
    o <> [] -> dget (m, o) (classes c) = None -> (forall w, import_object py (m, o) <> Imported w) ->
    dget m (stub_nodes stubs) = Some module_nodes ->
    dget m (stub_kinds stubs) = Some module_kinds -> dget o module_kinds = Some CLASS ->
    dget m (stub_definitions stubs) = Some definitions -> scope_at definitions o = Ok sc ->
    NoDup (dkeys (entries sc)) -> ~ In $"__module__" (dkeys (entries sc)) -> ~ In $"__annotations__" (dkeys (entries sc)) ->
    class_namespace (fun name => dget (o ++ [name]) module_nodes) (runs py stubs m o (dkeys (entries sc))) (assigns py stubs m o)
      (dkeys (entries sc)) ns assigned ->
    (forall name w, In (name, w) assigned ->
       dget (m, o ++ [name]) (aliases c) = None \/ dget (m, o ++ [name]) (aliases c) = Some w) ->
    (forall name nodes t a, In name (dkeys (entries sc)) -> dget (o ++ [name]) module_nodes = Some nodes ->
       In (SAnnAssign t a None) nodes ->
       (forall x, mentions a x -> importable py stubs m o x) /\ exists w, means py (imported py stubs m o) a w) ->
    (annotated = true <-> exists name nodes s, In name (dkeys (entries sc)) /\ dget (o ++ [name]) module_nodes = Some nodes
                                               /\ In s nodes /\ is_annotation s) ->
    Forall2 (fun q b => import_object py q = Imported b) (dget_or o [] (dget_or m [] (stub_superclasses stubs))) bases ->
    new_class py (path_to_string o) bases (class_body py annotated ns) = Ok v ->
    exists c', evaluate_qualified_path py stubs (S (S fuel)) (m, o) c = (c', Ok v)
      /\ modules c' = modules c /\ classes c' = dset (m, o) v (classes c)
      /\ globals c' = dset (path_to_string o) v (globals c)
      /\ (forall name w, In (name, w) assigned -> dget (m, o ++ [name]) (aliases c') = Some w)
      /\ (forall t, (forall name, In name (dkeys assigned) -> t <> (m, o ++ [name])) -> dget t (aliases c') = dget t (aliases c))
      /\ attributes c' = attributes c
      /\ (exists stated values, annotations_stated (fun name => dget (o ++ [name]) module_nodes) (dkeys (entries sc)) stated
            /\ Forall2 (fun x y => fst x = fst y /\ means py (imported py stubs m o) (snd x) (snd y)) stated values
            /\ annotations c' = if annotated then dset (m, o) values (annotations c) else annotations c)
      /\ forall fuel', evaluate_qualified_path py stubs (S fuel') (m, o) c' = (c', Ok v).
Proof. intros *. apply flat_class_made. Qed.
Print Assumptions C72_flat_class_partial.

Example C72_flat_example : exists v, snd (evaluate flat $"C" empty) = Ok v.
Proof. vm_compute. eauto. Qed.
(** [class C: (x: int; def f(self): ...)] *)
Definition method := SFunctionDef (mk_function_def $"f" (mk_arguments [] [] None [] [] None []) [] None).
Definition methods := stubs [SClassDef $"C" [] [SAnnAssign (Name $"x") (Name $"int") None; method]].
Definition made_here := ($"__module__", VConstant (CStr $"paradigm._core.arboreal.evaluation")).
Example C72_methods_example :
  snd (evaluate methods $"C" empty)
  = Ok (VClass $"C" [] [made_here; ($"f", VFunction ([$"m"], [$"C"; $"f"]) []); ($"__annotations__", VDict [])]).
Proof. vm_compute. reflexivity. Qed.

(** [class C: (x: int; def f(self): ...; A = List[int]; y: int = 1)] *)
Definition assignments := stubs [SClassDef $"C" [] [SAnnAssign (Name $"x") (Name $"int") None; method;
                                                    SAssign [Name $"A"] (list_of_ (Name $"int"));
                                                    SAnnAssign (Name $"y") (Name $"int") (Some (Constant (CInt 1)))]].
Example C72_assignments_example :
  snd (evaluate assignments $"C" empty)
  = Ok (VClass $"C" [] [made_here; ($"f", VFunction ([$"m"], [$"C"; $"f"]) []); ($"A", List_of (VObject ([$"builtins"], [$"int"])));
                        ($"y", VConstant (CInt 1)); ($"__annotations__", VDict [])]).
Proof. vm_compute. reflexivity. Qed.

(** It meets what [C72_flat_class_partial] asks of it. *)
Example C72_assignments_hypotheses :
  exists module_nodes, dget [$"m"] (stub_nodes assignments) = Some module_nodes
    /\ class_namespace (fun name => dget ([$"C"] ++ [name]) module_nodes) (runs py assignments [$"m"] [$"C"] [$"x"; $"f"; $"A"; $"y"])
         (assigns py assignments [$"m"] [$"C"]) [$"x"; $"f"; $"A"; $"y"]
         [($"f", VFunction ([$"m"], [$"C"; $"f"]) []); ($"A", List_of (VObject ([$"builtins"], [$"int"]))); ($"y", VConstant (CInt 1))]
         [($"A", List_of (VObject ([$"builtins"], [$"int"]))); ($"y", VConstant (CInt 1))]
    /\ (forall o, mentions (Name $"int") o -> importable py assignments [$"m"] [$"C"] o)
    /\ means py (imported py assignments [$"m"] [$"C"]) (Name $"int") (VObject ([$"builtins"], [$"int"])).
Proof.
  assert (I : imported py assignments [$"m"] [$"C"] [$"int"] (VObject ([$"builtins"], [$"int"])))
    by (exists ([$"builtins"], [$"int"]); split; vm_compute; reflexivity).
  assert (L : imported py assignments [$"m"] [$"C"] [$"List"] (VObject ([$"typing"], [$"List"])))
    by (exists ([$"typing"], [$"List"]); split; vm_compute; reflexivity).
  assert (C : forall o v, imported py assignments [$"m"] [$"C"] o v -> importable py assignments [$"m"] [$"C"] o).
  { intros o v (q & Q & Im) q' Q'. assert (q' = q) as -> by congruence. eauto. }
  assert (Int : forall o, mentions (Name $"int") o -> importable py assignments [$"m"] [$"C"] o).
  { intros o H. inv H. match goal with H : dotted _ _ |- _ => inv H end. eapply C; eassumption. }
  eexists. split; [vm_compute; reflexivity|]. split; [|split].
  - eapply namespace_annotated; [vm_compute; reflexivity|intros s [<-|[]]; repeat econstructor|].
    eapply (namespace_function _ _ _ _ _ [] method []); [vm_compute; reflexivity| | | | |].
    + eexists. split; [left; reflexivity|]. split; [reflexivity|]. split; [|split; [cbn; intros X; decompose [or] X; discriminate || assumption|reflexivity]].
      intros n (f & e & [S|S] & _ & In); [|discriminate S]. unfold method in S. injection S as <-. destruct In as [[]|[[]|[]]].
    + intros (t & a & H). discriminate H.
    + easy.
    + easy.
    + eapply (namespace_assigned _ _ _ _ _ [] _ []); [vm_compute; reflexivity| | |easy|].
      * eexists. split; [left; reflexivity|]. split; [vm_compute; reflexivity|]. split; [|split].
        -- intros n (t & e & Oc & [S|[[a S]|[v S]]]); [|discriminate S|discriminate S]. injection S as <- <-.
           apply StubsProofs.occurs_names in Oc. destruct Oc as [<-|[<-|[]]]; (split; [eauto|discriminate]).
        -- intros o H. inv H.
           ++ match goal with H : dotted _ _ |- _ => inv H end.
           ++ match goal with H : mentions _ _ |- _ => inv H end. match goal with H : dotted _ _ |- _ => inv H end. eapply C; eassumption.
           ++ now apply Int.
        -- eapply means_item; [constructor; exact L|constructor; exact I|reflexivity].
      * intros (t & a & H). discriminate H.
      * eapply (namespace_assigned _ _ _ _ _ [] _ []); [vm_compute; reflexivity| | |easy|constructor].
        -- eexists. split; [right; eexists; reflexivity|]. split; [vm_compute; reflexivity|]. split; [|split].
           ++ intros n (t & e & Oc & [S|[[a S]|[v S]]]); [discriminate S| |]; injection S as <- <-; try subst; apply StubsProofs.occurs_names in Oc;
                cbn in Oc; decompose [or] Oc; subst; try contradiction; (split; [eauto|discriminate]).
           ++ intros o H. inv H. match goal with H : dotted _ _ |- _ => inv H end.
           ++ constructor.
        -- intros (t & a & H). discriminate H.
  - exact Int.
  - constructor. exact I.
Qed.

(** [class C: (A = int; B = List[A])]: [A] is no attribute of the class that is made; [B] is. *)
Definition plain_alias := stubs [SClassDef $"C" [] [SAssign [Name $"A"] (Name $"int"); SAssign [Name $"B"] (list_of_ (Name $"A"))]].
Theorem C72_plain_alias_refuted :
  snd (evaluate plain_alias $"C" empty)
  = Ok (VClass $"C" [] [made_here; ($"B", List_of (VObject ([$"builtins"], [$"int"])))]).
Proof. vm_compute. reflexivity. Qed.
Print Assumptions C72_plain_alias_refuted.

(** ** C73 *)
(** Where all names can be imported, an expression is evaluated to what it means, and
    fails if it means nothing; no cache is touched. *)
Theorem C73_value_of_expression :
  forall V (py : python V) (stubs : tables) fuel m parent e,
    (forall o, mentions e o -> importable py stubs m parent o) ->
    forall c c' v, evaluate_expression_node py stubs (S fuel) m parent e c = (c', Ok v)
                   <-> c' = c /\ means py (imported py stubs m parent) e v.
Proof. intros V py stubs fuel m parent e I. exact (expression_agrees py stubs m parent fuel e I). Qed.
Print Assumptions C73_value_of_expression.

(** [List[int | str]] where classes do not support [|] *)
Example C73_example :
  evaluate_expression_node py flat 3 [$"m"] [] (list_of_ (BinOp (Name $"int") BitOr (Name $"str"))) empty
  = (empty, Ok (List_of (VOperation [VObject ([$"builtins"], [$"int"]); VObject ([$"builtins"], [$"str"])]))).
Proof. vm_compute. reflexivity. Qed.
(** [int + str] means nothing. *)
Example C73_other_operator :
  snd (evaluate_expression_node py flat 3 [$"m"] [] (BinOp (Name $"int") OtherOperator (Name $"str")) empty) = Err AssertionError.
Proof. vm_compute. reflexivity. Qed.

(** [{int: str}]: keys before values *)
Example C73_dictionary :
  snd (evaluate_expression_node py flat 3 [$"m"] [] (Dict [(Some (Name $"int"), Name $"str")]) empty)
  = Ok (VDict [(Some (VObject ([$"builtins"], [$"int"])), VObject ([$"builtins"], [$"str"]))]).
Proof. vm_compute. reflexivity. Qed.
(** [{int: str, **int}] is refused, before anything is evaluated. *)
Example C73_unpacking :
  snd (evaluate_expression_node py flat 3 [$"m"] [] (Dict [(Some (Name $"int"), Name $"str"); (None, Name $"int")]) empty)
  = Err AssertionError.
Proof. vm_compute. reflexivity. Qed.

(** ** C87 *)
(** The only method of a stub-only class is executed where the names of its decorators and
    defaults stand for what is imported from where they are resolved to, if that can be
    imported: when it fails, it fails there. ([C72_flat_class_partial]: several
    methods, if none fails.) *)
Theorem C87_method_partial :
  forall V (py : python V) (stubs : tables) fuel (m o : path) module_nodes module_kinds definitions name s f c,
    o <> [] -> dget (m, o) (classes c) = None -> (forall w, import_object py (m, o) <> Imported w) ->
    dget m (stub_nodes stubs) = Some module_nodes ->
    dget m (stub_kinds stubs) = Some module_kinds -> dget o module_kinds = Some CLASS ->
    dget m (stub_definitions stubs) = Some definitions -> scope_at definitions o = Ok (Scope [(name, Scope [])]) ->
    dget (o ++ [name]) module_nodes = Some [s] ->
    (s = SFunctionDef f \/ s = SAsyncFunctionDef f) -> fd_name f = name ->
    (forall n, looked_up_at_once n s -> (exists w, imported py stubs m o [n] w) /\ ~ In n [$"__module__"; $"__name__"; $"__builtins__"; name]) ->
    name <> $"__builtins__" ->
    exists ns, provides py stubs m o s ns /\
      forall e, execute py ns (m, o ++ [name]) s = Err e ->
        evaluate_qualified_path py stubs (S (S fuel)) (m, o) c = (c, Err e).
Proof.
  intros V py stubs fuel m o mn mk ds name s f c NE NC NI N K Kc D Sc Ns Hs Hf L NB.
  assert (step : forall k c', evaluate_qualified_path py stubs (S k) (m, o) c'
                   = evaluate_object py stubs (evaluate_qualified_path py stubs k) m o c').
  { intros k c'. cbn [evaluate_qualified_path fst snd]. destruct (import_object py (m, o)) as [| |w]; [|reflexivity|now destruct (NI w)].
    destruct o; [easy|reflexivity]. }
  destruct (run_fails py stubs m o fuel [name] name f s None [] [($"__module__", module_name py)] [($"__name__", module_name py)] c Hs Hf L)
    as (ns & P & E).
  { intros [X|[]]. now destruct NB. }
  { split; [repeat constructor; easy|]. split; [intros [X|[]]; discriminate X|]. intros n w G X. exfalso. apply dget_Some_In in G as [G|[]]. now inv G. }
  { intros n [<-|[]]. now left. }
  exists ns. split; [exact P|]. intros e Ex. rewrite step. unfold evaluate_object.
  match goal with |- match ?x with _ => _ end = _ => replace x with (@None V) by (symmetry; exact NC) end.
  unfold fetch. rewrite N, K. cbn [bind_res]. rewrite Kc. cbn [bind_res is_CLASS].
  unfold evaluate_class. unfold fetch. rewrite D. cbn [bind_res]. rewrite Sc.
  change (dkeys (entries (Scope [(name, Scope [])]))) with [name]. cbn [evaluate_fields]. unfold fetch. rewrite Ns.
  replace (definitions_nodes [s]) with [s] by (destruct Hs as [->| ->]; reflexivity).
  rewrite (E e Ex). reflexivity.
Qed.
Print Assumptions C87_method_partial.

(** A function that exists in stubs only, evaluated as signatures.py does with no names at
    hand, is executed without any: the names in its decorators and defaults are resolved by
    no one. *)
Theorem C87_function_refuted :
  forall V (py : python V) (stubs : tables) fuel (m o : path) module_nodes module_kinds kind f c,
    o <> [] -> dget (m, o) (classes c) = None -> (forall w, import_object py (m, o) <> Imported w) ->
    dget m (stub_nodes stubs) = Some module_nodes ->
    dget m (stub_kinds stubs) = Some module_kinds -> dget o module_kinds = Some kind -> kind <> CLASS ->
    dget o module_nodes = Some [SFunctionDef f] -> names c = [[]] ->
    snd (evaluate_qualified_path py stubs (S fuel) (m, o) c) = execute py [] (m, removelast o ++ [fd_name f]) (SFunctionDef f).
Proof.
  intros V py stubs fuel m o mn mk kind f c NE NC NI N K Kc NK Ns E.
  assert (O : snd (evaluate_object py stubs (evaluate_qualified_path py stubs fuel) m o c)
              = execute py [] (m, removelast o ++ [fd_name f]) (SFunctionDef f)).
  { unfold evaluate_object.
    match goal with |- snd (match ?x with _ => _ end) = _ => replace x with (@None V) by (symmetry; exact NC) end.
    unfold fetch. rewrite N, K. cbn [bind_res]. rewrite Kc. cbn [bind_res].
    replace (is_CLASS kind) with false by (now destruct kind). rewrite Ns. cbn [evaluate_nodes evaluate_statement]. rewrite E.
    change (merged [[]]) with (@nil (pystr * V)). now destruct (execute py [] (m, removelast o ++ [fd_name f]) (SFunctionDef f)). }
  cbn [evaluate_qualified_path fst snd]. destruct (import_object py (m, o)) as [| |w]; [|exact O|now destruct (NI w)].
  destruct o; [easy|exact O].
Qed.
Print Assumptions C87_function_refuted.

Definition def_ name ds decorators := SFunctionDef (mk_function_def name (mk_arguments [] [] None [] [] None ds) decorators None).
(** [@List def f(): ...] *)
Definition decorated := stubs [def_ $"f" [] [Name $"List"]].
(** [class C: (@List def f(self): ...)] *)
Definition decorated_method := stubs [SClassDef $"C" [] [def_ $"f" [] [Name $"List"]]].
Definition function_C used := VFunction ([$"m"], [$"C"; $"f"]) used.
Definition typing_List := VObject ([$"typing"], [$"List"]).
Definition builtin_int := VObject ([$"builtins"], [$"int"]).
Theorem C87_decorated_refuted :
  snd (evaluate decorated $"f" empty) = Err NameError
  /\ snd (evaluate decorated_method $"C" empty) = Ok (VClass $"C" [] [made_here; ($"f", function_C [typing_List])]).
Proof. vm_compute. auto. Qed.
Print Assumptions C87_decorated_refuted.

(** Names of a stub-only module come along: with [import other], where [other] has a function
    [int], [int] is no longer the builtin in [class C: def f(self, x=other.int, y=int)],
    even though it is resolved to it. *)
Definition polluted : tables :=
  match parse_stubs_state
          (source [builtins; typing; ([$"other"], [def_ $"int" [] []]);
                   ([$"m"], [SImport [mk_alias $"other" None];
                             SClassDef $"C" [] [def_ $"f" [Attribute (Name $"other") $"int"; Name $"int"] []]])])
          (fun _ => false) (fun _ _ => Ok true) (fun _ => true) 50 20 [[$"typing"]; [$"other"]; [$"m"]] with
  | Ok st => tables_of st
  | Err _ => mk_tables (fun _ _ _ => Err OtherException) [] [] [] []
  end.
Theorem C87_builtin_refuted :
  resolve polluted [$"m"] [$"C"] [$"int"] = Ok ([$"builtins"], [$"int"])
  /\ snd (evaluate polluted $"C" empty)
     = Ok (VClass $"C" [] [made_here; ($"f", function_C [VModule $"other"; VFunction ([$"other"], [$"int"]) []])]).
Proof. vm_compute. auto. Qed.
Print Assumptions C87_builtin_refuted.

(** Stub-only names come along into classes: [B = List[int]; class C: A = List[B]] gives [C] an
    attribute [B], in front of [A]. *)
Definition with_alias_of := stubs [SAssign [Name $"B"] (list_of_ (Name $"int"));
                                   SClassDef $"C" [] [SAssign [Name $"A"] (list_of_ (Name $"B"))]].
Theorem C87_attribute_refuted :
  snd (evaluate with_alias_of $"C" empty)
  = Ok (VClass $"C" [] [made_here; ($"B", List_of builtin_int); ($"A", List_of (List_of builtin_int))]).
Proof. vm_compute. reflexivity. Qed.
Print Assumptions C87_attribute_refuted.

(** A property and its setter: [class C: (@int def f(self): ...; @f.setter def f(self, v): ...)].
    The setter is decorated by the function evaluated for itself. *)
Definition with_setter := stubs [SClassDef $"C" [] [def_ $"f" [] [Name $"int"]; def_ $"f" [] [Attribute (Name $"f") $"setter"]]].
Example C87_setter_example :
  snd (evaluate with_setter $"C" empty)
  = Ok (VClass $"C" [] [made_here; ($"f", function_C [function_C [builtin_int]])]).
Proof. vm_compute. reflexivity. Qed.

(** ** C88 *)
(** Every stub-only class that was evaluated is a global of evaluation.py then, in place
    of what had its name there. *)
Theorem C88_globals_refuted :
  forall V (py : python V) (stubs : tables) fuel (m o : path) module_kinds c c' v,
    o <> [] -> dget (m, o) (classes c) = None -> (forall w, import_object py (m, o) <> Imported w) ->
    dget m (stub_kinds stubs) = Some module_kinds -> dget o module_kinds = Some CLASS ->
    evaluate_qualified_path py stubs fuel (m, o) c = (c', Ok v) ->
    dget (path_to_string o) (globals c') = Some v.
Proof.
  intros V py stubs [|fuel] m o mk c c' v NE NC NI K Kc H; [discriminate|].
  assert (O : evaluate_object py stubs (evaluate_qualified_path py stubs fuel) m o c = (c', Ok v)).
  { cbn [evaluate_qualified_path fst snd] in H. destruct (import_object py (m, o)) as [| |w]; [|exact H|now destruct (NI w)].
    destruct o; [easy|exact H]. }
  unfold evaluate_object in O. revert O.
  match goal with |- match ?x with _ => _ end = _ -> _ => replace x with (@None V) by (symmetry; exact NC) end.
  unfold fetch. destruct (dget m (stub_nodes stubs)) as [mn|]; cbn [bind_res]; [|discriminate].
  rewrite K. cbn [bind_res]. rewrite Kc. cbn [bind_res is_CLASS]. unfold evaluate_class.
  match goal with |- match ?x with _ => _ end = _ -> _ => destruct x as [sc|e] end; [|discriminate].
  match goal with |- ebind ?x _ = _ -> _ => destruct x as [c1 [fields|e]] end; cbn [ebind]; [|discriminate].
  match goal with |- ebind ?x _ = _ -> _ => destruct x as [c2 [bases|e]] end; cbn [ebind]; [|discriminate].
  match goal with |- match ?x with _ => _ end = _ -> _ => destruct x as [w|e] end; [|discriminate].
  match goal with |- ebind ?x _ = _ -> _ => destruct x as [c3 [u|e]] end; cbn [ebind]; [|discriminate].
  intros X. inv X. cbn [with_global globals]. now rewrite dget_dset, eqb_refl.
Qed.
Print Assumptions C88_globals_refuted.

(** Such as [class catalog: def f(self): ...]: [catalog] of evaluation.py is the class
    then. *)
Definition rebinding := stubs [SClassDef $"catalog" [] [def_ $"f" [] []]].
Example C88_example :
  exists v, snd (evaluate rebinding $"catalog" empty) = Ok v
            /\ globals (fst (evaluate rebinding $"catalog" empty)) = [($"catalog", v)].
Proof. vm_compute. eauto. Qed.

(** Expressions whose names can be imported leave the globals alone. *)
Theorem C88_imported_names_partial :
  forall V (py : python V) (stubs : tables) fuel m parent e,
    (forall o, mentions e o -> importable py stubs m parent o) ->
    forall c, globals (fst (evaluate_expression_node py stubs (S fuel) m parent e c)) = globals c.
Proof.
  intros V py stubs fuel m parent e I c. destruct (steady_expression py stubs m parent fuel e I) as [r R].
  unfold evaluate_expression_node. now rewrite R.
Qed.
Print Assumptions C88_imported_names_partial.
