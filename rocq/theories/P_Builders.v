(** Property C94: classes of the stubs have builders. *)
From Verif Require Import Base Models Ast Scoping SpecScoping Stubs SpecStubs Signatures SpecSignatures HierarchyProofs Whole SpecWhole
  WholeProofs BuildersProofs.
From Verif Require P_Evaluation P_Whole.

(** Superclasses are defined in the tables; [typing.NamedTuple] is recorded by name. *)
Theorem C94_superclasses_are_defined :
  forall source is_package condition printable limit fuel modules st c q,
    parse_stubs_state source is_package condition printable limit fuel modules = Ok st ->
    In q (bases (db st) c) -> q = ([$"typing"], [$"NamedTuple"]) \/ defined (db st) (fst q) (snd q).
Proof. intros. eapply base_of; eassumption. Qed.
Print Assumptions C94_superclasses_are_defined.

(** No class derives from itself: a builder is found, the nearest one under the path
    of the class (C29). *)
Theorem C94_builder_is_found_partial :
  forall source is_package condition printable limit fuel modules st c,
    parse_stubs_state source is_package condition printable limit fuel modules = Ok st ->
    was_read source is_package condition fuel modules (fst c) -> was_read source is_package condition fuel modules [$"typing"] ->
    acyclic (db st) c ->
    exists l n b, lineage (db st) c l /\ nearest (signature_tables st) (map (fun d => (fst d, snd c)) l) b
      /\ forall limit, n <= limit -> to_class_builder_qualified_path (signature_tables st) limit c = Return b.
Proof.
  intros source is_package condition printable limit fuel modules st c E R T A.
  apply (@builder_found source is_package condition printable limit fuel modules st E c A).
  - eapply read_module; eassumption.
  - intros _. eapply read_module; eassumption.
Qed.
Print Assumptions C94_builder_is_found_partial.

(** So the choice among the builders of all places where a class is described (C31)
    is made without failing. *)
Theorem C94_choice_is_made_partial :
  forall source is_package condition printable limit fuel modules st qs,
    parse_stubs_state source is_package condition printable limit fuel modules = Ok st ->
    was_read source is_package condition fuel modules [$"typing"] ->
    (forall q, In q qs -> defined (db st) (fst q) (snd q) /\ acyclic (db st) q) ->
    exists n, forall limit, n <= limit ->
      match resolve_builder_qualified_path (signature_tables st) limit qs with
      | Return b => choice (fun b => exists q, In q qs /\ to_class_builder_qualified_path (signature_tables st) limit q = Return b) (Some b)
      | SignatureNotFound => choice (fun b => exists q, In q qs /\ to_class_builder_qualified_path (signature_tables st) limit q = Return b) None
      | Throws _ => False
      end.
Proof.
  intros source is_package condition printable limit fuel modules st qs E T Q.
  assert (X : exists n, forall limit, n <= limit -> forall q, In q qs -> exists b, to_class_builder_qualified_path (signature_tables st) limit q = Return b).
  { induction qs as [|q r IH]; [exists 0; contradiction|].
    destruct IH as [n IH]; [intros x Hx; apply Q; now right|]. destruct (Q q (or_introl eq_refl)) as [D A].
    destruct (@builder_found source is_package condition printable limit fuel modules st E q A) as (l & n' & b & _ & _ & B).
    - eapply defined_module; eassumption.
    - intros _. eapply read_module; eassumption.
    - exists (Nat.max n n'). intros lim L x [<-|Hx]; [exists b; apply B; lia|apply IH; [lia|exact Hx]]. }
  destruct X as [n X]. exists n. intros lim L. apply resolve_builder_choice. now apply X.
Qed.
Print Assumptions C94_choice_is_made_partial.

(** Classes deriving from themselves, and without a builder of their own: the search
    never ends. *)
Theorem C94_search_does_not_end_refuted :
  forall source is_package condition printable limit fuel modules st c,
    parse_stubs_state source is_package condition printable limit fuel modules = Ok st ->
    was_read source is_package condition fuel modules (fst c) -> was_read source is_package condition fuel modules [$"typing"] ->
    inherits_from (db st) c c ->
    (forall d b, reaches (db st) c d -> ~ own_builder (signature_tables st) (fst d, snd c) b) ->
    forall limit, to_class_builder_qualified_path (signature_tables st) limit c = Throws RecursionError.
Proof.
  intros source is_package condition printable limit fuel modules st c E R T A B lim.
  apply (@cyclic_unbuilt source is_package condition printable limit fuel modules st E lim c).
  - intros X. apply (X c); [constructor|exact A].
  - eapply read_module; eassumption.
  - intros _. eapply read_module; eassumption.
  - exact B.
Qed.
Print Assumptions C94_search_does_not_end_refuted.

(** That is what [from base import A] with [class A(A): ...] is taken for: the class
    derives from a class of another module of the same name. *)
Module Shadow.
Import P_Evaluation.Samples P_Whole.Example.
Definition modules := [builtins; ([$"typing"], [SClassDef $"NamedTuple" [] []]);
  ([$"base"], [SClassDef $"A" [] [SFunctionDef init]]);
  ([$"m"], [SImportFrom (Some $"base") [mk_alias $"A" None] 0; SClassDef $"A" [Name $"A"] []; SClassDef $"B" [Name $"A"] []])].
Definition names : list path := [[$"typing"]; [$"base"]; [$"m"]].
Definition st : state :=
  match parse_stubs_state (source modules) (fun _ => false) (fun _ _ => Ok true) (fun _ => true) 50 20 names with Ok st => st | Err _ => empty_state end.
Definition from_type (o : qualified_path) (limit : nat) : res (signature value) :=
  from_callable (fun _ => false) (fun v => match v with VConstant CEllipsis => true | _ => false end)
    (VOperation []) (VModule $"Self") (VModule $"TypeSelf") (evaluate_node py limit 20 st empty)
    (signature_tables st) limit [] (fun _ _ => None) (fun q => q) (fun _ => Err ValueError) (fun _ => true) VObject [] (TypeCallable o).
Lemma parsed_st : parse_stubs_state (source modules) (fun _ => false) (fun _ _ => Ok true) (fun _ => true) 50 20 names = Ok st.
Proof.
  unfold st. destruct (parse_stubs_state (source modules) (fun _ => false) (fun _ _ => Ok true) (fun _ => true) 50 20 names) eqn:E; [reflexivity|].
  vm_compute in E. discriminate E.
Qed.
(** A class deriving from itself only, without anything defined in it *)
Lemma stuck source is_package condition printable limit fuel modules st m n :
  parse_stubs_state source is_package condition printable limit fuel modules = Ok st ->
  In m modules -> In [$"typing"] modules -> bases (db st) (m, [n]) = [(m, [n])] ->
  dget m (raw_ast_nodes (signature_tables st)) = Some [] ->
  forall limit, to_class_builder_qualified_path (signature_tables st) limit (m, [n]) = Throws RecursionError.
Proof.
  intros E M T B D. apply (@C94_search_does_not_end_refuted source is_package condition printable limit fuel modules st (m, [n]) E).
  - exact (@read_modules source is_package condition printable limit fuel modules st m E M).
  - exact (@read_modules source is_package condition printable limit fuel modules st [$"typing"] E T).
  - exists (m, [n]). split; [rewrite B; now left|constructor].
  - assert (X : forall c d, reaches (db st) c d -> c = (m, [n]) -> d = (m, [n])).
    { induction 1 as [c|c b d Hb _ IH]; intros ->; [reflexivity|]. rewrite B in Hb. destruct Hb as [<-|[]]. now apply IH. }
    intros d b R O. apply X in R; [|reflexivity]. subst d. cbn [fst snd] in O.
    assert (Y : forall x, ~ has_nodes (signature_tables st) m ([n] ++ [x])).
    { intros x (t & Ht & Hx). rewrite D in Ht. injection Ht as <-. destruct Hx. }
    inversion O as [? ? N|? ? _ N]; subst; exact (Y _ N).
Qed.
End Shadow.
Import Shadow.
Theorem C94_class_named_as_its_base_refuted :
  parse_stubs_state (P_Evaluation.Samples.source modules) (fun _ => false) (fun _ _ => Ok true) (fun _ => true) 50 20 names = Ok st
  /\ bases (db st) ([$"m"], [$"A"]) = [([$"m"], [$"A"])]
  /\ dget [$"A"] (dget_or [$"m"] [] (references (db st))) = Some ([$"base"], [$"A"])
  /\ from_type ([$"m"], [$"A"]) 50 = Err RecursionError /\ from_type ([$"m"], [$"B"]) 50 = Err RecursionError
  /\ forall limit, to_class_builder_qualified_path (signature_tables st) limit ([$"m"], [$"A"]) = Throws RecursionError.
Proof.
  split; [exact parsed_st|]. split; [vm_compute; reflexivity|]. split; [vm_compute; reflexivity|].
  split; [vm_compute; reflexivity|]. split; [vm_compute; reflexivity|].
  intros limit. apply (@stuck (P_Evaluation.Samples.source modules) (fun _ => false) (fun _ _ => Ok true) (fun _ => true) 50 20 names st [$"m"] $"A" parsed_st).
  - right. right. now left.
  - now left.
  - vm_compute. reflexivity.
  - vm_compute. reflexivity.
Qed.
Print Assumptions C94_class_named_as_its_base_refuted.
(** The class [base.A] is not affected. *)
Example C94_example :
  acyclic (db st) ([$"base"], [$"A"])
  /\ to_class_builder_qualified_path (signature_tables st) 50 ([$"base"], [$"A"]) = Return ([$"base"], [$"A"; $"__init__"])
  /\ exists s, from_type ([$"base"], [$"A"]) 50 = Ok s.
Proof.
  split; [|split; [vm_compute; reflexivity|eexists; vm_compute; reflexivity]].
  assert (B : bases (db st) ([$"base"], [$"A"]) = []) by (vm_compute; reflexivity).
  intros d R (b & Hb & _). assert (d = ([$"base"], [$"A"])) as ->.
  { inversion R as [|c0 b0 d0 X]; subst; [reflexivity|]. rewrite B in X. destruct X. }
  rewrite B in Hb. destruct Hb.
Qed.
