(** Property C98: definitions survive the way through their stored text. *)
From Verif Require Import Base Ast Stubs StubsProofs PyText RawNodes SpecRaw Reading SpecTables SpecCached CachedProofs SpecNodes NodesProofs.
From Verif Require P_Raw P_Cached.

(** Nodes are seen as what they stand for, in any version's [ast] module. *)
Theorem C98_seen :
  forall node_classes v,
    (forall e, is_expr node_classes v e -> see node_classes v = SeenExpr e)
    /\ forall s, is_stmt node_classes v s -> see node_classes v = SeenStmt s.
Proof. intros. split; intros; [now apply see_expr|now apply (proj1 (see_stmts node_classes))]. Qed.
Print Assumptions C98_seen.

(** The node read from the text of a node stands for the same statement. *)
Theorem C98_read_partial :
  forall printable node_classes v s,
    proper_classes node_classes -> tree node_classes v -> is_stmt node_classes v s ->
    reads_as node_classes (to_raw printable node_classes v) s.
Proof. intros printable node_classes v s P T H. apply reads_back; [exact P|exact T|]. now apply C98_seen. Qed.
Print Assumptions C98_read_partial.

(** ** Every statement has nodes *)
Section Made.
Notation cs := P_Raw.classes_of_3_11.
Notation tree := (tree cs).
Definition node (class : pystr) (attributes : list value) : value := VNode class (map Some attributes).
Lemma made class fields l : dget class cs = Some fields -> length l = length fields -> Forall tree l -> tree (node class l).
Proof.
  intros E L F. eapply t_node; [exact E|now rewrite map_length|]. intros v I. apply in_map_iff in I as (x & [= <-] & I).
  now apply (proj1 (Forall_forall _ _) F).
Qed.
Lemma made_list l : Forall tree l -> tree (VList l).
Proof. intros F. constructor. now apply Forall_forall. Qed.
Lemma made_none : tree none.
Proof. now constructor. Qed.
Lemma made_text s : valid_str s -> tree (text s).
Proof. now constructor. Qed.
Lemma made_constant c : proper_constant c -> tree (VConst (Known c)).
Proof. now constructor. Qed.
Definition load := node $"Load" [].
Lemma made_load : tree load.
Proof. eapply made; [reflexivity|reflexivity|constructor]. Qed.
Ltac trees := repeat match goal with
  | |- SpecRaw.tree _ (node _ _) => eapply made; [reflexivity|reflexivity|]
  | |- SpecRaw.tree _ (VList _) => apply made_list
  | |- SpecRaw.tree _ none => exact made_none
  | |- SpecRaw.tree _ load => exact made_load
  | |- SpecRaw.tree _ (text _) => apply made_text
  | |- Forall _ (_ :: _) => constructor
  | |- Forall _ [] => constructor
  | |- SpecRaw.tree _ _ => assumption
  | |- Forall _ _ => assumption
  | |- valid_str _ => assumption
  end.
Ltac texts := repeat match goal with
  | H : Forall _ (_ ++ _) |- _ => apply Forall_app in H; destruct H
  | H : Forall _ (?x :: _) |- _ => apply Forall_cons_iff in H; destruct H
  end.
Definition makes {A} (P : value -> A -> Prop) (texts : A -> list constant) (a : A) : Prop :=
  Forall proper_constant (texts a) -> exists v, P v a /\ tree v.
Lemma make_all {A} (P : value -> A -> Prop) texts (l : list A) : Forall (makes P texts) l -> Forall proper_constant (flat_map texts l) ->
  exists vs, Forall2 P vs l /\ Forall tree vs.
Proof.
  induction 1 as [|a l Ha _ IH]; intros V; [exists []; repeat constructor|]. cbn [flat_map] in V. apply Forall_app in V as [V1 V2].
  destruct (Ha V1) as (v & Pv & Tv). destruct (IH V2) as (vs & F & T). exists (v :: vs). split; now constructor.
Qed.
Lemma make_optional {A} (P : value -> A -> Prop) texts (a : option A) : (forall a, makes P texts a) -> makes (is_optional P) (optional_texts texts) a.
Proof.
  intros H V. destruct a as [a|]; [exact (H a V)|]. exists none. split; [reflexivity|exact made_none].
Qed.
Lemma are_all l es : Forall2 (is_expr cs) l es -> are_exprs cs l es.
Proof. induction 1; now constructor. Qed.
Lemma expressions_all l es : Forall2 (is_expr cs) l es -> expressions_of cs l es.
Proof. induction 1; now constructor. Qed.
Lemma are_all_stmts l es : Forall2 (is_stmt cs) l es -> are_stmts cs l es.
Proof. induction 1; now constructor. Qed.
Lemma statements_all l es : Forall2 (is_stmt cs) l es -> statements_of cs l es.
Proof. induction 1; now constructor. Qed.
Lemma make_operator op : exists v, is_operator v op /\ tree v.
Proof.
  destruct op; [exists (node $"BitAnd" [])|exists (node $"BitOr" [])|exists (node $"BitXor" [])|exists (node $"Add" [])];
    (split; [constructor; now left || constructor|trees]).
Qed.
Lemma make_unary op : exists v, is_unary v op /\ tree v.
Proof.
  destruct op; [exists (node $"UAdd" [])|exists (node $"USub" [])|exists (node $"Not" [])];
    (split; [constructor; (right; now left) || constructor|trees]).
Qed.
Ltac is := eexists; reflexivity.

Lemma make_expr e : makes (is_expr cs) expr_texts e.
Proof.
  induction e using expr_ind'; intros V; cbn [expr_texts] in V; texts.
  - exists (node $"Name" [text id; load]). split; [|trees]. constructor; [is|reflexivity].
  - destruct (IHe H) as (v & Pv & Tv). exists (node $"Attribute" [v; text a; load]). split; [|trees].
    apply ie_attribute with v; [is|reflexivity|exact Pv|reflexivity].
  - destruct (IHe1 H) as (v & Pv & Tv). destruct (IHe2 H0) as (w & Pw & Tw). exists (node $"Subscript" [v; w; load]). split; [|trees].
    apply ie_subscript with v w; [is|reflexivity|exact Pv|reflexivity|exact Pw].
  - destruct (make_all _ _ _ H V) as (l & F & T). exists (node $"Tuple" [VList l; load]). split; [|trees].
    apply ie_tuple with l; [is|reflexivity|now apply are_all].
  - destruct (make_all _ _ _ H V) as (l & F & T). exists (node $"List" [VList l; load]). split; [|trees].
    apply ie_list with l; [is|reflexivity|now apply are_all].
  - assert (K : exists l l', are_items cs l l' items /\ Forall tree l /\ Forall tree l').
    { induction H as [|[k x] items [Hk Hx] _ IH]; [exists [], []; repeat constructor|].
      cbn [flat_map fst snd] in *. texts. match goal with H : Forall _ (flat_map _ items) |- _ => destruct (IH H) as (l & l' & F & T & T') end.
      match goal with H : Forall _ (expr_texts x) |- _ => destruct (Hx H) as (v & Pv & Tv) end.
      destruct k as [k|].
      - match goal with H : Forall _ (_ k) |- _ => destruct (Hk k eq_refl H) as (w & Pw & Tw) | H : Forall _ (_ (Some k)) |- _ => destruct (Hk k eq_refl H) as (w & Pw & Tw) end.
        exists (w :: l), (v :: l'). split; [now constructor|]. split; now constructor.
      - exists (none :: l), (v :: l'). split; [now constructor|]. split; constructor; trees. }
    destruct K as (l & l' & F & T & T'). exists (node $"Dict" [VList l; VList l']). split; [|trees].
    apply ie_dict with l l'; [is|reflexivity|reflexivity|exact F].
  - destruct (IHe H1) as (v & Pv & Tv). destruct (make_all _ _ _ H H2) as (l & F & T).
    assert (K : exists l', are_keywords cs l' ks /\ Forall tree l').
    { clear - H0 H3. induction H0 as [|[n x] ks Hx _ IH]; [exists []; repeat constructor|].
      cbn [flat_map fst snd] in *. texts. destruct (IH H0) as (l & F & T). destruct (Hx H1) as (v & Pv & Tv).
      destruct n as [n|]; cbn [name_texts] in H; texts.
      - exists (node $"keyword" [text n; v] :: l). split; [|constructor; [trees|exact T]].
        apply ak_cons with v; [is|reflexivity|reflexivity|exact Pv|exact F].
      - exists (node $"keyword" [none; v] :: l). split; [|constructor; [trees|exact T]].
        apply ak_cons with v; [is|reflexivity|reflexivity|exact Pv|exact F]. }
    destruct K as (l' & F' & T'). exists (node $"Call" [v; VList l; VList l']). split; [|trees].
    apply ie_call with v l l'; [is|reflexivity|exact Pv|reflexivity|now apply are_all|reflexivity|exact F'].
  - destruct (IHe1 H) as (v & Pv & Tv). destruct (IHe2 H0) as (w & Pw & Tw). destruct (make_operator o) as (x & Px & Tx).
    exists (node $"BinOp" [v; x; w]). split; [|trees].
    apply ie_binary with v x w; [is|reflexivity|exact Pv|reflexivity|exact Px|reflexivity|exact Pw].
  - destruct (IHe V) as (v & Pv & Tv). destruct (make_unary o) as (x & Px & Tx). exists (node $"UnaryOp" [x; v]). split; [|trees].
    apply ie_unary with x v; [is|reflexivity|exact Px|reflexivity|exact Pv].
  - exists (node $"Constant" [VConst (Known c); none]). split; [constructor; [is|reflexivity]|].
    assert (T : tree (VConst (Known c))).
    { now apply made_constant. }
    trees.
  - destruct (make_all _ _ _ H V) as (l & F & T). exists (node $"Set" [VList l]). split; [|trees].
    apply ie_other; [cbn; tauto|]. change (fields_of cs $"Set") with [($"elts", false)].
    rewrite <- (app_nil_r es). apply ei_many; [now apply expressions_all|constructor].
Qed.
Lemma make_exprs es : Forall proper_constant (flat_map expr_texts es) -> exists vs, Forall2 (is_expr cs) vs es /\ Forall tree vs.
Proof. apply make_all, Forall_forall. intros e _. apply make_expr. Qed.
Lemma make_arg a : makes (is_arg cs) arg_texts a.
Proof.
  destruct a as [n a]. intros V. unfold arg_texts in V. cbn [arg_name arg_annotation] in V. texts.
  destruct (make_optional _ _ a make_expr H0) as (v & Pv & Tv). exists (node $"arg" [text n; v; none]). split; [|trees].
  split; [is|]. split; [reflexivity|]. exists v. split; [reflexivity|exact Pv].
Qed.
Lemma make_args l : Forall proper_constant (flat_map arg_texts l) -> exists vs, Forall2 (is_arg cs) vs l /\ Forall tree vs.
Proof. apply make_all, Forall_forall. intros a _. apply make_arg. Qed.
Lemma make_arguments a : makes (is_arguments cs) arguments_texts a.
Proof.
  destruct a as [po ar va ko kd kw de]. intros V. unfold arguments_texts in V. cbn [posonlyargs args vararg kwonlyargs kw_defaults kwarg defaults] in V. texts.
  destruct (make_args _ H) as (l1 & F1 & T1). destruct (make_args _ H0) as (l2 & F2 & T2).
  destruct (make_optional _ _ va make_arg H1) as (v3 & F3 & T3). destruct (make_args _ H2) as (l4 & F4 & T4).
  destruct (make_all (is_optional (is_expr cs)) (optional_texts expr_texts) kd) as (l5 & F5 & T5); [|exact H3|].
  { apply Forall_forall. intros x _. apply make_optional, make_expr. }
  destruct (make_optional _ _ kw make_arg H4) as (v6 & F6 & T6). destruct (make_exprs _ H5) as (l7 & F7 & T7).
  exists (node $"arguments" [VList l1; VList l2; v3; VList l4; VList l5; v6; VList l7]). split; [|trees].
  split; [is|]. repeat (split; [eexists; split; [reflexivity|eassumption]|]). eexists; split; [reflexivity|eassumption].
Qed.
Lemma make_function class f : class = $"FunctionDef" \/ class = $"AsyncFunctionDef" -> Forall proper_constant (function_texts f) ->
  exists v, is_a class v /\ is_function cs v f /\ tree v.
Proof.
  intros C V. destruct f as [n a d r]. unfold function_texts in V. cbn [fd_name fd_args fd_decorators fd_returns] in V. texts.
  destruct (make_arguments _ H0) as (v & Pv & Tv). destruct (make_exprs _ H1) as (l & F & T).
  destruct (make_optional _ _ r make_expr H2) as (w & Pw & Tw).
  exists (node class [text n; v; VList []; VList l; w; none]). split; [is|].
  destruct C as [-> | ->]; (split; [|trees]); (split; [reflexivity|]); repeat (split; [eexists; split; [reflexivity|eassumption]|]);
    eexists; split; try reflexivity; eassumption.
Qed.
Lemma make_alias a : makes (is_alias cs) alias_texts a.
Proof.
  destruct a as [n a]. intros V. unfold alias_texts in V. cbn [alias_name alias_asname] in V. texts.
  destruct a as [a|]; cbn [name_texts] in H0; texts.
  - exists (node $"alias" [text n; text a]). split; [|trees]. split; [is|]. split; [reflexivity|]. eexists. split; reflexivity.
  - exists (node $"alias" [text n; none]). split; [|trees]. split; [is|]. split; [reflexivity|]. eexists. split; reflexivity.
Qed.
Lemma make_aliases l : Forall proper_constant (flat_map alias_texts l) -> exists vs, Forall2 (is_alias cs) vs l /\ Forall tree vs.
Proof. apply make_all, Forall_forall. intros a _. apply make_alias. Qed.
Lemma made_number z : tree (VConst (Known (CInt z))).
Proof. now apply made_constant. Qed.
Lemma make_stmt s : makes (is_stmt cs) stmt_texts s.
Proof.
  induction s as [t a x|ts x|f|f|n bases body IH|t b o IHb IHo|ns|mo ns l|ch IH] using stmt_ind'; intros V; cbn [stmt_texts] in V; texts.
  - destruct (make_expr _ H) as (v & Pv & Tv). destruct (make_expr _ H0) as (w & Pw & Tw).
    destruct (make_optional _ _ x make_expr H1) as (y & Py & Ty).
    exists (node $"AnnAssign" [v; w; y; VConst (Known (CInt 1))]). pose proof (made_number 1). split; [|trees].
    apply is_annotated; [is| | |]; eexists; (split; [reflexivity|eassumption]).
  - destruct (make_exprs _ H) as (l & F & T). destruct (make_expr _ H0) as (v & Pv & Tv).
    exists (node $"Assign" [VList l; v; none]). split; [|trees]. apply is_assign; [is| |]; eexists; (split; [reflexivity|eassumption]).
  - destruct (@make_function $"FunctionDef" f (or_introl eq_refl) V) as (v & I & F & T). exists v. split; [now constructor|exact T].
  - destruct (@make_function $"AsyncFunctionDef" f (or_intror eq_refl) V) as (v & I & F & T). exists v. split; [|exact T].
    now apply is_async_def.
  - destruct (make_exprs _ H0) as (l & F & T). destruct (make_all _ _ _ IH H1) as (l' & F' & T').
    exists (node $"ClassDef" [text n; VList l; VList []; VList l'; VList []]). split; [|trees].
    apply is_class with l'; [is|reflexivity|eexists; (split; [reflexivity|eassumption])|reflexivity|now apply are_all_stmts].
  - destruct (make_expr _ H) as (v & Pv & Tv). destruct (make_all _ _ _ IHb H0) as (l & F & T). destruct (make_all _ _ _ IHo H1) as (l' & F' & T').
    exists (node $"If" [v; VList l; VList l']). split; [|trees].
    apply is_if with l l'; [is|eexists; (split; [reflexivity|eassumption])|reflexivity|now apply are_all_stmts|reflexivity|now apply are_all_stmts].
  - destruct (make_aliases _ V) as (l & F & T). exists (node $"Import" [VList l]). split; [|trees].
    apply is_import; [is|]. eexists; (split; [reflexivity|eassumption]).
  - destruct (make_aliases _ H0) as (l' & F & T). pose proof (made_number (Z.of_nat l)).
    assert (M : exists x, is_optional (fun x s => x = text s) x mo /\ tree x).
    { destruct mo as [mo|]; cbn [name_texts] in H; texts; [exists (text mo)|exists none]; split; try reflexivity; trees. }
    destruct M as (x & Px & Tx). exists (node $"ImportFrom" [x; VList l'; VConst (Known (CInt (Z.of_nat l)))]). split; [|trees].
    apply is_import_from; [is|eexists; (split; [reflexivity|eassumption])|eexists; (split; [reflexivity|eassumption])|reflexivity].
  - destruct (make_all _ _ _ IH V) as (l & F & T).
    exists (node $"While" [node $"Constant" [VConst (Known CTrue); none]; VList l; VList []]). pose proof (made_constant CTrue I).
    split; [|trees].
    apply is_other; [cbn; tauto|]. change (fields_of cs $"While") with [($"test", false); ($"body", false); ($"orelse", false)].
    unfold node at 1. cbn [map]. apply si_none; [constructor; vm_compute; intuition discriminate|].
    rewrite <- (app_nil_r ch). apply si_many; [now apply statements_all|].
    change (@nil stmt) with (@nil stmt ++ []). apply si_many; constructor.
Qed.
End Made.

Lemma lookups_all A B (R : A -> B -> Prop) (d : dict path B) :
  (forall k b, dget k d = Some b -> exists a, R a b) -> exists d' : dict path A, same_lookups R d' d.
Proof.
  intros H.
  assert (G : forall d : list (path * B), forall ks : list path, (forall k b, ~ In k ks -> dget k d = Some b -> exists a, R a b) ->
    exists d' : list (path * A), forall k, ~ In k ks -> match dget k d', dget k d with Some a, Some b => R a b | None, None => True | _, _ => False end).
  { clear. induction d as [|[k b] d IH]; intros ks H; [exists []; intros; exact I|].
    assert (E : forall C k' (c : C) l, dget k' ((k, c) :: l) = if k' == k then Some c else dget k' l) by reflexivity.
    destruct (IH (k :: ks)) as [d' D].
    { intros k' b' N F. apply (H k' b'); [intros I; apply N; now right|]. rewrite E. destruct (k' == k) eqn:Q; [|exact F].
      apply eqb_to_eq in Q. subst. destruct N. now left. }
    destruct (mem k ks) eqn:M.
    - exists d'. intros k' N. rewrite E. destruct (k' == k) eqn:Q.
      + apply eqb_to_eq in Q. subst. destruct N. now apply mem_In.
      + apply D. intros [-> | I]; [now rewrite eqb_refl in Q|now apply N].
    - destruct (H k b) as [a Ha]; [now apply mem_not_In|rewrite E; now rewrite eqb_refl|].
      exists ((k, a) :: d'). intros k' N. rewrite !E. destruct (k' == k) eqn:Q; [exact Ha|].
      apply D. intros [-> | I]; [now rewrite eqb_refl in Q|now apply N]. }
  destruct (G d []) as [d' D]; [intros k b _; apply H|]. exists d'. intros k. apply D. intros [].
Qed.

(** So every state whose names and constants Python can represent can be stored: there are trees that
    stand for its statements, in Python 3.11's [ast] module; a process that uses the stored
    tables obtains the same signatures (C90). *)
Definition representable (st : state) : Prop :=
  forall m t o ss s, dget m (nodes st) = Some t -> dget o t = Some ss -> In s ss -> Forall proper_constant (stmt_texts s).
Theorem C98_states_are_stored_partial :
  forall st, representable st ->
  exists trees,
    same_lookups (same_lookups (Forall2 (fun v s => tree P_Raw.classes_of_3_11 v /\ is_stmt P_Raw.classes_of_3_11 v s))) trees (nodes st)
    /\ describes P_Raw.classes_of_3_11 trees st
    /\ forall printable t, same_tables (tables_of P_Raw.classes_of_3_11 printable st trees) t ->
       exists st', works_with P_Raw.classes_of_3_11 t st'.
Proof.
  intros st V.
  destruct (lookups_all _ _ (same_lookups (Forall2 (fun v s => tree P_Raw.classes_of_3_11 v /\ is_stmt P_Raw.classes_of_3_11 v s))) (nodes st)) as [trees T].
  { intros m t E. apply lookups_all. intros o ss E'.
    destruct (make_all (is_stmt P_Raw.classes_of_3_11) stmt_texts ss) as (vs & F & Ts).
    - apply Forall_forall. intros s _. apply make_stmt.
    - apply Forall_flat_map, Forall_forall. intros s I. exact (V m t o ss s E E' I).
    - exists vs. clear - F Ts. induction F; constructor; inversion Ts; subst; auto. }
  exists trees. split; [exact T|]. assert (D : describes P_Raw.classes_of_3_11 trees st).
  { intros m. specialize (T m). destruct (dget m trees), (dget m (nodes st)); try exact T. intros o. specialize (T o).
    destruct (dget o _), (dget o _); try exact T. induction T as [|v s vs ss [H1 H2] _ IH]; constructor; [|exact IH]. split; [exact H1|now apply C98_seen]. }
  split; [exact D|]. intros printable t S.
  exact (proj1 (P_Cached.C90_same_signatures printable P_Raw.classes_of_3_11 st trees t P_Raw.C77_classes D S)).
Qed.
Print Assumptions C98_states_are_stored_partial.

(** A definition and a condition; the text of their node leads back to them. *)
Definition example : stmt :=
  SClassDef $"A" [Subscript (Attribute (Name $"typing") $"Generic") (Name $"T")]
    [SIf (BinOp (Name $"a") BitOr (Constant CNone))
       [SFunctionDef {| fd_name := $"f";
          fd_args := {| posonlyargs := []; args := [{| arg_name := $"self"; arg_annotation := None |}]; vararg := None;
                        kwonlyargs := []; kw_defaults := []; kwarg := None; defaults := [] |};
          fd_decorators := [Call (Name $"d") [Tuple []] [(None, Name $"k"); (Some $"x", UnaryOp USub (Constant (CInt 1)))]];
          fd_returns := Some (Constant (CStr $"A")) |}]
       [SImportFrom (Some $"b") [{| alias_name := $"c"; alias_asname := Some $"d" |}] 1]].
Example C98_example :
  exists v, is_stmt P_Raw.classes_of_3_11 v example /\ tree P_Raw.classes_of_3_11 v
    /\ forall printable, reads_as P_Raw.classes_of_3_11 (to_raw printable P_Raw.classes_of_3_11 v) example.
Proof.
  destruct (make_stmt example) as (v & H & T).
  - repeat constructor; discriminate.
  - exists v. repeat split; [exact H|exact T|]. intros printable. apply C98_read_partial; [exact P_Raw.C77_classes|exact T|exact H].
Qed.
(** Nodes of other classes stand for something else. *)
Example C98_example_attribute :
  is_expr P_Raw.classes_of_3_11 (node $"Attribute" [node $"Name" [text $"a"; load]; text $"b"; load]) (Attribute (Name $"a") $"b")
  /\ ~ is_expr P_Raw.classes_of_3_11 (node $"Attribute" [node $"Name" [text $"a"; load]; text $"b"; load]) (Name $"b").
Proof.
  assert (H : is_expr P_Raw.classes_of_3_11 (node $"Attribute" [node $"Name" [text $"a"; load]; text $"b"; load]) (Attribute (Name $"a") $"b")).
  { apply ie_attribute with (node $"Name" [text $"a"; load]); [eexists; reflexivity|reflexivity| |reflexivity].
    constructor; [eexists; reflexivity|reflexivity]. }
  split; [exact H|]. intros N. apply C98_seen in H, N. congruence.
Qed.
