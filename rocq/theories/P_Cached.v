(** Property C90: signatures in processes that work with stored tables. *)
From Verif Require Import Base PyText SpecData Pretty Models SpecCall Ast Scoping SpecScoping Stubs SpecStubs StubsProofs SpecializeProofs
  Signatures SpecSignatures RawNodes SpecRaw Reading SpecTables TablesProofs SpecCached Whole SpecWhole WholeProofs CachedProofs RecordsProofs.
From Verif Require Evaluation SpecEvaluation StoredTables P_Tables P_Raw.

(** ** Any callable, if annotations and defaults are evaluated alike *)
(** [st] is what the parser arrived at, [trees] are its nodes in Python; [t] is what a process has,
    be it the one that parsed or a later one. *)
Theorem C90_same_signatures :
  forall printable node_classes st trees t,
    proper_classes node_classes -> describes node_classes trees st ->
    same_tables (tables_of node_classes printable st trees) t ->
    (exists st', works_with node_classes t st')
    /\ forall st', works_with node_classes t st' ->
       forall V O (H : Eqb O) is_NONE is_Ellipsis (Any Self TypeSelf : V) evaluate evaluate' limit
              sys_modules getattr own introspect is_type as_value table (c : @callable V O),
         (forall e m parent, evaluate e m parent = evaluate' e m parent) ->
         from_callable is_NONE is_Ellipsis Any Self TypeSelf evaluate (signature_tables st) limit
           sys_modules getattr own introspect is_type as_value table c
         = from_callable is_NONE is_Ellipsis Any Self TypeSelf evaluate' (signature_tables st') limit
           sys_modules getattr own introspect is_type as_value table c.
Proof.
  intros printable node_classes st trees t P D S. destruct (works P D S) as [E A]. split; [exact E|].
  intros st' W V O H is_NONE is_Ellipsis Any Self TypeSelf evaluate evaluate' limit sys_modules getattr own introspect is_type as_value table c Ee.
  pose proof (A st' W) as X. apply same_callable; [exact Ee|exact (proj1 X)|exact (proj1 (proj2 X))|now apply same_stubs].
Qed.
Print Assumptions C90_same_signatures.

(** So it is in a process that starts from the file the first one has written. *)
Theorem C90_later_start :
  forall printable node_classes st trees version,
    proper_classes node_classes -> describes node_classes trees st ->
    let t := tables_of node_classes printable st trees in
    Forall proper (StoredTables.saved t) -> valid_str version ->
    exists n t', (forall fuel, n <= fuel -> forall main build,
      let file := file_text printable (combine StoredTables.table_names (StoredTables.saved t) ++ [(StoredTables.version_name, DStr version)]) in
      let r := start printable fuel StoredTables.table_names StoredTables.version_name (DStr version) main build (Some file) in
      rebuilt r = false /\ StoredTables.uses (used r) t')
    /\ (exists st', works_with node_classes t' st')
    /\ forall st', works_with node_classes t' st' ->
       forall V O (H : Eqb O) is_NONE is_Ellipsis (Any Self TypeSelf : V) evaluate evaluate' limit
              sys_modules getattr own introspect is_type as_value table (c : @callable V O),
         (forall e m parent, evaluate e m parent = evaluate' e m parent) ->
         from_callable is_NONE is_Ellipsis Any Self TypeSelf evaluate (signature_tables st) limit
           sys_modules getattr own introspect is_type as_value table c
         = from_callable is_NONE is_Ellipsis Any Self TypeSelf evaluate' (signature_tables st') limit
           sys_modules getattr own introspect is_type as_value table c.
Proof.
  intros printable node_classes st trees version P D t Pr V.
  destruct (proj2 (P_Tables.C78_loaded_tables printable t version Pr V)) as (n & t' & S & R).
  exists n, t'. split; [exact R|]. exact (C90_same_signatures printable node_classes st trees t' P D S).
Qed.
Print Assumptions C90_later_start.

(** ** What the stub says (see C89), in any of these processes *)
Section Later.
Variables (printable : N -> bool) (node_classes : classes).
Variables (st st' : state) (trees : dict path (dict path (list value))) (t : StoredTables.tables).
(** A process that has what the one that parsed the stubs to [st] has, read from texts *)
Definition later : Prop :=
  proper_classes node_classes /\ describes node_classes trees st
  /\ same_tables (tables_of node_classes printable st trees) t /\ works_with node_classes t st'.
Lemma same_later : later -> same_state st st'.
Proof. intros (HP & HD & HT & HW). exact (proj2 (works HP HD HT) st' HW). Qed.
End Later.

Theorem C90_functions_partial :
  forall V O (H : Eqb O) is_NONE is_Ellipsis (Any Self TypeSelf : V) (py : Evaluation.python V)
         sys_modules getattr own table introspect is_type as_value
         source is_package condition printable limit fuel modules m st,
    parse_stubs_state source is_package condition printable (S limit) fuel modules = Ok st ->
    was_read source is_package condition fuel modules m -> m <> [] ->
    exists body says,
      described source is_package condition fuel modules m body says
      /\ forall node_classes trees t st', later printable node_classes st st' trees t ->
         forall (o : O) p fs value_of kind depth memory,
           functions_at says p fs ->
           (forall f, In f fs -> understood_before is_NONE py (S limit) (S depth) st memory value_of m (removelast p) f
              /\ Forall (other_decorator (signature_tables st) (S limit) m (removelast p)) (fd_decorators f)) ->
           p <> [] -> found_first (S limit) st sys_modules getattr table own o (m, p) -> is_type o = false ->
           In kind function_kinds ->
           exists s,
             from_callable is_NONE is_Ellipsis Any Self TypeSelf (evaluate_node py (S limit) (S depth) st' memory)
               (signature_tables st') (S limit) sys_modules getattr own introspect is_type as_value table (kind o) = Ok s
             /\ Forall2 (says_function is_Ellipsis Any value_of) fs (flatten_signature s).
Proof.
  intros V O H is_NONE is_Ellipsis Any Self TypeSelf py sys_modules getattr own table introspect is_type as_value
    source is_package condition printable limit fuel modules m st E R Nm.
  destruct (@described_content source is_package condition printable (S limit) fuel modules m st R E)
    as (body & says & Hd & T1 & T2 & _).
  exists body, says. split; [exact Hd|]. intros node_classes trees t st' L o p fs value_of kind depth memory A U Np F It I. apply same_later in L.
  assert (T : (forall o, nodes_of_object st' m o = nodes_in o says) /\ (forall o, kind_of_object st' m o = kind_in o says)).
  { split; intros x; [now rewrite <- (same_nodes_of L) | now rewrite <- (same_kind_of L)]. }
  apply (same_found_first L) in F; [|exact H].
  eapply told_functions; eauto. intros f Hf. destruct (U f Hf) as [U1 U2]. split; [now apply (same_understood L)|].
  eapply Forall_impl; [|exact U2]. intros d. now apply same_decorator.
Qed.
Print Assumptions C90_functions_partial.

Theorem C90_methods_partial :
  forall V O (H : Eqb O) is_NONE is_Ellipsis (Any Self TypeSelf : V) (py : Evaluation.python V)
         sys_modules getattr own table introspect is_type as_value
         source is_package condition printable limit fuel modules m st,
    parse_stubs_state source is_package condition printable (S limit) fuel modules = Ok st ->
    was_read source is_package condition fuel modules m -> m <> [] ->
    exists body says,
      described source is_package condition fuel modules m body says
      /\ forall node_classes trees t st', later printable node_classes st st' trees t ->
         forall (u : O) p fs value_of depth memory,
           methods_at says p fs ->
           (forall f, In f fs -> understood_before is_NONE py (S limit) (S depth) st memory value_of m (removelast p) f /\ written (fd_args f) <> []
              /\ Forall (other_decorator (signature_tables st) (S limit) m (removelast p)) (fd_decorators f)) ->
           p <> [] -> found_first (S limit) st sys_modules getattr table own u (m, p) -> is_type u = false ->
           let result := from_callable is_NONE is_Ellipsis Any Self TypeSelf (evaluate_node py (S limit) (S depth) st' memory)
               (signature_tables st') (S limit) sys_modules getattr own introspect is_type as_value table in
           (forall kind, In kind function_kinds -> exists s, result (kind u) = Ok s
              /\ Forall2 (says_method is_Ellipsis Any Self value_of) fs (flatten_signature s))
           /\ (forall o self kind, In kind (bound_kinds self u) -> exists s, result (kind o) = Ok s
                 /\ Forall2 (says_bound is_Ellipsis Any value_of) fs (flatten_signature s)).
Proof.
  intros V O H is_NONE is_Ellipsis Any Self TypeSelf py sys_modules getattr own table introspect is_type as_value
    source is_package condition printable limit fuel modules m st E R Nm.
  destruct (@described_content source is_package condition printable (S limit) fuel modules m st R E)
    as (body & says & Hd & T1 & T2 & _).
  exists body, says. split; [exact Hd|]. intros node_classes trees t st' L u p fs value_of depth memory A U Np F It. apply same_later in L.
  assert (T : (forall o, nodes_of_object st' m o = nodes_in o says) /\ (forall o, kind_of_object st' m o = kind_in o says)).
  { split; intros x; [now rewrite <- (same_nodes_of L) | now rewrite <- (same_kind_of L)]. }
  apply (same_found_first L) in F; [|exact H].
  eapply told_methods; eauto. intros f Hf. destruct (U f Hf) as (U1 & U2 & U3). split; [now apply (same_understood L)|]. split; [exact U2|].
  eapply Forall_impl; [|exact U3]. intros d. now apply same_decorator.
Qed.
Print Assumptions C90_methods_partial.

Theorem C90_class_methods_partial :
  forall V O (H : Eqb O) is_NONE is_Ellipsis (Any Self TypeSelf : V) (py : Evaluation.python V)
         sys_modules getattr own table introspect is_type as_value
         source is_package condition printable limit fuel modules m st,
    parse_stubs_state source is_package condition printable (S limit) fuel modules = Ok st ->
    was_read source is_package condition fuel modules m -> m <> [] ->
    exists body says,
      described source is_package condition fuel modules m body says
      /\ forall node_classes trees t st', later printable node_classes st st' trees t ->
         forall (o : O) p fs value_of kind depth memory,
           members_at says p fs ->
           (forall f, In f fs -> understood_before is_NONE py (S limit) (S depth) st memory value_of m (removelast p) f /\ written (fd_args f) <> []
              /\ class_method (signature_tables st) (S limit) m (removelast p) f) ->
           p <> [] -> found_first (S limit) st sys_modules getattr table own o (m, p) -> is_type o = false ->
           In kind (function_kinds ++ class_kinds) ->
           exists s,
             from_callable is_NONE is_Ellipsis Any Self TypeSelf (evaluate_node py (S limit) (S depth) st' memory)
               (signature_tables st') (S limit) sys_modules getattr own introspect is_type as_value table (kind o) = Ok s
             /\ Forall2 (says_method is_Ellipsis Any TypeSelf value_of) fs (flatten_signature s).
Proof.
  intros V O H is_NONE is_Ellipsis Any Self TypeSelf py sys_modules getattr own table introspect is_type as_value
    source is_package condition printable limit fuel modules m st E R Nm.
  destruct (@described_content source is_package condition printable (S limit) fuel modules m st R E)
    as (body & says & Hd & T1 & T2 & _).
  exists body, says. split; [exact Hd|]. intros node_classes trees t st' L o p fs value_of kind depth memory A U Np F It I. apply same_later in L.
  assert (T : (forall o, nodes_of_object st' m o = nodes_in o says) /\ (forall o, kind_of_object st' m o = kind_in o says)).
  { split; intros x; [now rewrite <- (same_nodes_of L) | now rewrite <- (same_kind_of L)]. }
  apply (same_found_first L) in F; [|exact H].
  eapply told_class_methods; eauto. intros f Hf. destruct (U f Hf) as (U1 & U2 & U3). split; [now apply (same_understood L)|].
  split; [exact U2|]. now apply (same_class_method L).
Qed.
Print Assumptions C90_class_methods_partial.

Theorem C90_classes_partial :
  forall V O (H : Eqb O) is_NONE is_Ellipsis (Any Self TypeSelf : V) (py : Evaluation.python V)
         sys_modules getattr own table introspect is_type as_value
         source is_package condition printable limit fuel modules m st,
    parse_stubs_state source is_package condition printable (S limit) fuel modules = Ok st ->
    was_read source is_package condition fuel modules m -> m <> [] ->
    exists body says,
      described source is_package condition fuel modules m body says
      /\ forall node_classes trees t st', later printable node_classes st st' trees t ->
         forall (o : O) p fs value_of depth memory,
           initializers_at says p fs ->
           (forall f, In f fs -> understood_before is_NONE py (S limit) (S depth) st memory value_of m p f /\ written (fd_args f) <> []) ->
           p <> [] -> found_at (S limit) st sys_modules getattr table own o (m, p) -> is_type o = true ->
           exists s,
             from_callable is_NONE is_Ellipsis Any Self TypeSelf (evaluate_node py (S limit) (S depth) st' memory)
               (signature_tables st') (S limit) sys_modules getattr own introspect is_type as_value table (TypeCallable o) = Ok s
             /\ Forall2 (says_initializer is_Ellipsis Any Self value_of) fs (flatten_signature s).
Proof.
  intros V O H is_NONE is_Ellipsis Any Self TypeSelf py sys_modules getattr own table introspect is_type as_value
    source is_package condition printable limit fuel modules m st E R Nm.
  destruct (@described_content source is_package condition printable (S limit) fuel modules m st R E)
    as (body & says & Hd & T1 & T2 & _).
  exists body, says. split; [exact Hd|]. intros node_classes trees t st' L o p fs value_of depth memory A U Np F It. apply same_later in L.
  assert (T : (forall o, nodes_of_object st' m o = nodes_in o says) /\ (forall o, kind_of_object st' m o = kind_in o says)).
  { split; intros x; [now rewrite <- (same_nodes_of L) | now rewrite <- (same_kind_of L)]. }
  apply (same_found L) in F; [|exact H].
  eapply told_initializers; eauto. intros f Hf. destruct (U f Hf) as (U1 & U2). split; [now apply (same_understood L)|]. exact U2.
Qed.
Print Assumptions C90_classes_partial.

Theorem C90_constructors_partial :
  forall V O (H : Eqb O) is_NONE is_Ellipsis (Any Self TypeSelf : V) (py : Evaluation.python V)
         sys_modules getattr own table introspect is_type as_value
         source is_package condition printable limit fuel modules m st,
    parse_stubs_state source is_package condition printable (S limit) fuel modules = Ok st ->
    was_read source is_package condition fuel modules m -> m <> [] ->
    exists body says,
      described source is_package condition fuel modules m body says
      /\ forall node_classes trees t st', later printable node_classes st st' trees t ->
         forall (o : O) p fs value_of depth memory,
           constructors_at says p fs ->
           (forall f, In f fs -> understood_before is_NONE py (S limit) (S depth) st memory value_of m p f /\ written (fd_args f) <> []) ->
           p <> [] -> found_at (S limit) st sys_modules getattr table own o (m, p) -> is_type o = true ->
           exists s,
             from_callable is_NONE is_Ellipsis Any Self TypeSelf (evaluate_node py (S limit) (S depth) st' memory)
               (signature_tables st') (S limit) sys_modules getattr own introspect is_type as_value table (TypeCallable o) = Ok s
             /\ Forall2 (says_bound is_Ellipsis Any value_of) fs (flatten_signature s).
Proof.
  intros V O H is_NONE is_Ellipsis Any Self TypeSelf py sys_modules getattr own table introspect is_type as_value
    source is_package condition printable limit fuel modules m st E R Nm.
  destruct (@described_content source is_package condition printable (S limit) fuel modules m st R E)
    as (body & says & Hd & T1 & T2 & _).
  exists body, says. split; [exact Hd|]. intros node_classes trees t st' L o p fs value_of depth memory A U Np F It. apply same_later in L.
  assert (T : (forall o, nodes_of_object st' m o = nodes_in o says) /\ (forall o, kind_of_object st' m o = kind_in o says)).
  { split; intros x; [now rewrite <- (same_nodes_of L) | now rewrite <- (same_kind_of L)]. }
  apply (same_found L) in F; [|exact H].
  eapply told_constructors; eauto.
  - apply (same_records L). eapply stubs_records; eauto.
  - intros f Hf. destruct (U f Hf) as (U1 & U2). split; [now apply (same_understood L)|]. exact U2.
Qed.
Print Assumptions C90_constructors_partial.

(** ** Examples *)
Module Example.
Import P_Raw.
(** [def f(a, b=..., *, c: int = ..., d: 'x'): ...] as the parser sees it *)
Definition function : stmt :=
  SFunctionDef (mk_function_def $"f"
    (mk_arguments [] [mk_arg $"a" None; mk_arg $"b" None] None
       [mk_arg $"c" (Some (Name $"int")); mk_arg $"d" (Some (Constant (CStr $"x")))]
       [Some (Constant CEllipsis); None] None [Constant CEllipsis]) [] None).
Definition m : path := [$"m"].
Definition f : path := [$"f"].
Definition st : state :=
  mk_state (mk_database [(m, Scope [($"f", Scope [])])] [] [] []) [(m, [(f, [function])])] [(m, [(f, FUNCTION)])] [m] [] [].
Definition trees : dict path (dict path (list value)) := [(m, [(f, [example_tree])])].
End Example.
Import Example.
Example C90_example_seen : see P_Raw.classes_of_3_11 P_Raw.example_tree = SeenStmt function.
Proof. vm_compute. reflexivity. Qed.
(** The text leads to the same node. *)
Example C90_example_read :
  statement_from_raw P_Raw.classes_of_3_11 1000 (to_raw (fun _ => true) P_Raw.classes_of_3_11 P_Raw.example_tree) = Some function.
Proof. vm_compute. reflexivity. Qed.
Example C90_example_tree : tree P_Raw.classes_of_3_11 P_Raw.example_tree.
Proof.
  unfold P_Raw.example_tree, P_Raw.argument, P_Raw.constant, P_Raw.node, P_Raw.string, P_Raw.none. cbn [map].
  repeat match goal with
         | |- tree _ (VNode _ _) => eapply t_node; [vm_compute; reflexivity | reflexivity |]
         | |- tree _ (VList _) => apply t_list
         | |- tree _ (VConst (Known _)) => apply t_constant; repeat constructor; try discriminate
         | |- forall v, In _ _ -> _ => let v := fresh in let I := fresh in intros v I; cbn [In] in I
         | H : _ \/ _ |- _ => destruct H
         | H : False |- _ => destruct H
         | H : Some _ = Some _ |- _ => injection H as <-
         | H : _ = ?v |- tree _ ?v => subst v
         end.
Qed.
Example C90_example_describes : describes P_Raw.classes_of_3_11 trees st.
Proof.
  assert (one : forall A (k k' : path) (a : A), dget k [(k', a)] = if k == k' then Some a else None) by reflexivity.
  intros k. unfold trees, st. cbn [nodes]. rewrite !one. destruct (k == m); [|exact I].
  intros p. rewrite !one. destruct (p == f); [|exact I]. constructor; [|constructor].
  split; [exact C90_example_tree | exact C90_example_seen].
Qed.
Lemma same_scope_refl s : same_scope s s.
Proof.
  induction s as [es IH] using scope_ind'. constructor; [|auto]. intros n x E. exists x. split; [exact E|].
  apply dget_Some_In in E. exact (proj1 (Forall_forall _ _) IH _ E).
Qed.
Lemma same_tables_refl t : same_tables t t.
Proof.
  unfold same_tables, same_database. repeat split; repeat (apply same_lookups_refl; intros ?); try reflexivity.
  apply same_scope_refl.
Qed.
Example C90_example_works : exists st', works_with P_Raw.classes_of_3_11 (tables_of P_Raw.classes_of_3_11 (fun _ => true) st trees) st'.
Proof.
  apply (proj1 (C90_same_signatures (fun _ => true) P_Raw.classes_of_3_11 st trees
    (tables_of P_Raw.classes_of_3_11 (fun _ => true) st trees) P_Raw.C77_classes C90_example_describes
    (same_tables_refl _))).
Qed.
(** Whatever it sees, it sees the same signature. *)
Example C90_example_signature :
  forall st', works_with P_Raw.classes_of_3_11 (tables_of P_Raw.classes_of_3_11 (fun _ => true) st trees) st' ->
  from_callable (fun _ => false) (fun v => v == $"...") $"Any" $"Self" $"TypeSelf"
    (fun e _ _ => Ok (match e with Name n => n | Constant (CStr s) => s | _ => $"..." end)) (signature_tables st') 50
    [] (fun _ _ => None) (fun q => q) (fun _ => Err ValueError) (fun _ => false) (fun _ => $"object") [] (FunctionCallable (m, f))
  = Ok (Plain (mk_plain
      [RequiredParameter $"Any" POSITIONAL_ONLY $"a"; OptionalParameter $"Any" None POSITIONAL_ONLY $"b";
       OptionalParameter $"int" None KEYWORD_ONLY $"c"; RequiredParameter $"x" KEYWORD_ONLY $"d"] $"Any")).
Proof.
  intros st' W.
  rewrite <- (proj2 (C90_same_signatures (fun _ => true) P_Raw.classes_of_3_11 st trees
    (tables_of P_Raw.classes_of_3_11 (fun _ => true) st trees) P_Raw.C77_classes C90_example_describes
    (same_tables_refl _)) st' W pystr qualified_path _ (fun _ => false) (fun v => v == $"...") _ _ _
    (fun e _ _ => Ok (match e with Name n => n | Constant (CStr s) => s | _ => $"..." end))) by reflexivity.
  vm_compute. reflexivity.
Qed.
