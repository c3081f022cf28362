(** Nodes are seen as what they stand for. *)
From Verif Require Import Base Ast Stubs RawNodes SpecRaw Reading SpecNodes.

Section See.
Variable node_classes : classes.
Notation see := (see node_classes).
Notation has := (has node_classes).
Notation is_expr := (is_expr node_classes).
Notation is_stmt := (is_stmt node_classes).

Fixpoint seen_attributes (fields : list (pystr * bool)) (l : list (option value)) {struct l} : list (pystr * option seen) :=
  match fields, l with
  | (name, optional) :: fields, a :: l =>
      (name, match a with
             | Some v => Some (see v)
             | None => if optional : bool then Some (SeenConstant (Known CNone)) else None
             end) :: seen_attributes fields l
  | _, _ => []
  end.
Lemma see_node class l : see (VNode class l) = interpret class (seen_attributes (fields_of node_classes class) l).
Proof. reflexivity. Qed.
Lemma seen_attribute fields l name w : attribute_in fields l name = Some w ->
  dget name (seen_attributes fields l) = Some (Some (see w)).
Proof.
  revert fields. induction l as [|a l IH]; intros [|[n o] fs]; cbn [attribute_in seen_attributes]; try discriminate.
  intros E. match goal with |- dget _ ((_, ?x) :: ?r) = _ => change ((if name == n then Some x else dget name r) = Some (Some (see w))) end.
  rewrite (eqb_sym name n). destruct (n == name); [|now apply IH].
  destruct a as [v|]; cbn in E; [now injection E as <-|]. destruct o; [now injection E as <-|discriminate].
Qed.
Lemma has_field {A} (f : seen -> option A) class l name w :
  has (VNode class l) name w -> field (seen_attributes (fields_of node_classes class) l) f name = f (see w).
Proof. intros E. unfold field. now rewrite (seen_attribute _ _ _ _ E). Qed.

Lemma see_text s : see (text s) = SeenConstant (Known (CStr s)). Proof. reflexivity. Qed.
Lemma see_none : see none = SeenConstant (Known CNone). Proof. reflexivity. Qed.
Lemma see_list l : see (VList l) = SeenList (map see l). Proof. reflexivity. Qed.
Lemma seen_all {A B} (f : seen -> option B) (P : value -> A -> Prop) (g : A -> B) l es :
  (forall v a, P v a -> f (see v) = Some (g a)) -> Forall2 P l es -> all_seen f (map see l) = Some (map g es).
Proof. intros H. induction 1 as [|v a l es Hv _ IH]; [reflexivity|]. cbn. now rewrite (H v a Hv), IH. Qed.

Lemma see_operator v op : is_operator v op -> seen_operator (see v) = Some op.
Proof.
  intros [l|l|l|class l I]; try reflexivity. repeat (destruct I as [<-|I]; [reflexivity|]). destruct I.
Qed.
Lemma see_unary v op : is_unary v op -> seen_unary (see v) = Some op.
Proof. intros [l|l|class l I]; try reflexivity. repeat (destruct I as [<-|I]; [reflexivity|]). destruct I. Qed.

Ltac next N := match goal with
  | |- context [if ?c == ?s then _ else _] => let E := fresh in destruct (c == s) eqn:E;
      [apply eqb_to_eq in E; subst c;
       first [exfalso; apply N, mem_In; reflexivity
             |unfold interpret_function;
              repeat match goal with |- context [match ?x with Some _ => _ | None => _ end] => destruct x; [|now split] end;
              try match goal with |- context [if Nat.eqb ?a ?b then _ else _] => destruct (Nat.eqb a b) end; now split]|]
  end.
Lemma see_no_expression v : no_expression v -> seen_expr (see v) = None /\ below seen_expr (see v) = [].
Proof.
  intros [c|class l N]; [now split|]. rewrite see_node. unfold interpret.
  repeat next N.
  destruct (mem class other_expressions) eqn:M.
  - exfalso. apply mem_In in M. apply N. apply in_or_app. now right.
  - destruct (mem class other_statements); now split.
Qed.
Lemma see_no_statement v : no_statement v -> seen_stmt (see v) = None /\ below seen_stmt (see v) = [].
Proof.
  intros [c|class l N]; [now split|]. rewrite see_node. unfold interpret.
  repeat next N.
  destruct (mem class other_expressions); [now split|].
  destruct (mem class other_statements) eqn:M; [|now split].
  exfalso. apply mem_In in M. apply N. apply in_or_app. now right.
Qed.

(** What is below a node *)
Definition found {A} (f : seen -> option A) (l : list (option value)) fields : list A :=
  flat_map (fun a => match snd a with Some s => below f s | None => [] end) (seen_attributes fields l).
Lemma seen_below {A} (f : seen -> option A) l : below f (see (VList l)) = flat_map (fun v => match f (see v) with Some a => [a] | None => [] end) l.
Proof. rewrite see_list. cbn [below]. induction l as [|v l IH]; [reflexivity|]. cbn. now rewrite IH. Qed.

Lemma interpret_other class l es : In class further_expressions -> found seen_expr l (fields_of node_classes class) = es ->
  see (VNode class l) = SeenExpr (OtherExpr es).
Proof.
  intros I <-. rewrite see_node. repeat (destruct I as [<-|I]; [reflexivity|]). destruct I.
Qed.
Lemma interpret_other_stmt class l body : In class further_statements -> found seen_stmt l (fields_of node_classes class) = body ->
  see (VNode class l) = SeenStmt (SOther body).
Proof.
  intros I <-. rewrite see_node. repeat (destruct I as [<-|I]; [reflexivity|]). destruct I.
Qed.

Scheme is_expr_mind := Minimality for SpecNodes.is_expr Sort Prop
  with are_exprs_mind := Minimality for are_exprs Sort Prop
  with are_items_mind := Minimality for are_items Sort Prop
  with are_keywords_mind := Minimality for are_keywords Sort Prop
  with expressions_in_mind := Minimality for expressions_in Sort Prop
  with expressions_of_mind := Minimality for expressions_of Sort Prop.
Combined Scheme exprs_mind from is_expr_mind, are_exprs_mind, are_items_mind, are_keywords_mind, expressions_in_mind, expressions_of_mind.

Ltac node := match goal with H : is_a _ ?v |- _ => destruct H as [? ->] end; rewrite see_node; cbv beta iota delta [interpret];
  repeat match goal with |- context [if ?a == ?b then _ else _] =>
    let x := constr:(a == b) in let y := eval vm_compute in x in change x with y; cbv iota end.
Ltac fields := repeat match goal with H : has (VNode _ _) ?n _ |- context [field _ _ ?n] => rewrite (has_field _ _ _ _ _ H) end.

Ltac known := repeat match goal with
  | H : see _ = _ |- _ => rewrite H
  | H : all_seen _ _ = _ |- _ => rewrite H
  | H : is_operator _ _ |- _ => rewrite (see_operator _ _ H)
  | H : is_unary _ _ |- _ => rewrite (see_unary _ _ H)
  end; cbn [seen_expr].
Lemma combine_fst_snd {A B} (l : list (A * B)) : combine (map fst l) (map snd l) = l.
Proof. induction l as [|[a b] l IH]; [reflexivity|]. cbn. now rewrite IH. Qed.
Lemma see_exprs :
  (forall v e, is_expr v e -> see v = SeenExpr e)
  /\ (forall l es, are_exprs node_classes l es -> all_seen seen_expr (map see l) = Some es)
  /\ (forall l l' items, are_items node_classes l l' items ->
        all_seen (seen_optional seen_expr) (map see l) = Some (map fst items) /\ all_seen seen_expr (map see l') = Some (map snd items))
  /\ (forall l ks, are_keywords node_classes l ks -> all_seen seen_keyword (map see l) = Some ks)
  /\ (forall fields l es, expressions_in node_classes fields l es -> found seen_expr l fields = es)
  /\ (forall l es, expressions_of node_classes l es -> flat_map (fun v => match seen_expr (see v) with Some a => [a] | None => [] end) l = es).
Proof.
  apply exprs_mind; intros.
  - node. fields. reflexivity.
  - node. fields. known. reflexivity.
  - node. fields. known. reflexivity.
  - node. fields. rewrite see_list. cbn [seen_list]. known. reflexivity.
  - node. fields. rewrite see_list. cbn [seen_list]. known. reflexivity.
  - node. fields. rewrite !see_list. cbn [seen_list]. destruct H3 as [-> ->]. rewrite !map_length, Nat.eqb_refl, combine_fst_snd. reflexivity.
  - node. fields. rewrite !see_list. cbn [seen_list]. known. reflexivity.
  - node. fields. known. reflexivity.
  - node. fields. known. reflexivity.
  - node. fields. reflexivity.
  - now apply interpret_other.
  - reflexivity.
  - cbn [map all_seen]. known. reflexivity.
  - split; reflexivity.
  - destruct H4 as [E E']. cbn [map all_seen fst snd]. known. cbn [seen_optional option_map seen_expr]. rewrite ?E, ?E'. split; reflexivity.
  - destruct H2 as [E E']. cbn [map all_seen fst snd]. known. rewrite ?E, ?E'. split; reflexivity.
  - reflexivity.
  - cbn [map all_seen]. assert (X : see v = SeenKeyword n e).
    { node. fields. known. destruct n; reflexivity. }
    rewrite X. known. reflexivity.
  - reflexivity.
  - destruct f as [n o]. unfold found in *. cbn [seen_attributes flat_map snd]. rewrite H0. now destruct o.
  - destruct f as [n o]. unfold found in *. cbn [seen_attributes flat_map snd]. known. rewrite H2. reflexivity.
  - destruct f as [n o]. unfold found in *. cbn [seen_attributes flat_map snd]. rewrite H1, (proj2 (see_no_expression _ H)). reflexivity.
  - destruct f as [n o]. unfold found in *. cbn [seen_attributes flat_map snd]. rewrite H2, seen_below, H0. reflexivity.
  - reflexivity.
  - cbn [flat_map]. known. rewrite H2. reflexivity.
  - cbn [flat_map]. rewrite (proj1 (see_no_expression _ H)), H1. reflexivity.
Qed.
Lemma see_expr v e : is_expr v e -> see v = SeenExpr e.
Proof. apply see_exprs. Qed.

(** ** Parts of definitions *)
Lemma see_optional {A} (f : seen -> option A) (P : value -> A -> Prop) v a :
  (forall v a, P v a -> f (see v) = Some a /\ see v <> SeenConstant (Known CNone)) -> is_optional P v a ->
  seen_optional f (see v) = Some a.
Proof.
  intros H. destruct a as [a|]; cbn [is_optional].
  - intros Hv. destruct (H v a Hv) as [E N]. unfold seen_optional. rewrite E. destruct (see v) as [c| | | | | | | | |]; try reflexivity.
    destruct c as [c| |]; [|reflexivity|reflexivity]. destruct c; try reflexivity. now elim N.
  - intros ->. reflexivity.
Qed.
Lemma see_some_expr v e : is_expr v e -> seen_expr (see v) = Some e /\ see v <> SeenConstant (Known CNone).
Proof. intros H. rewrite (see_expr _ _ H). now split. Qed.
Lemma see_some_text v s : v = text s -> seen_string (see v) = Some s /\ see v <> SeenConstant (Known CNone).
Proof. intros ->. split; [reflexivity|discriminate]. Qed.
Lemma see_arg v a : is_arg node_classes v a -> see v = SeenArg a.
Proof.
  intros (I & N & x & Hx & Hy). destruct a as [n a]. node. fields. rewrite (see_optional _ _ _ _ see_some_expr Hy). reflexivity.
Qed.
Lemma see_some_arg v a : is_arg node_classes v a -> seen_arg (see v) = Some a /\ see v <> SeenConstant (Known CNone).
Proof. intros H. rewrite (see_arg _ _ H). now split. Qed.
Lemma see_all {A} (f : seen -> option A) (P : value -> A -> Prop) class l name es :
  (forall v a, P v a -> f (see v) = Some a) -> has_list node_classes P (VNode class l) name es ->
  field (seen_attributes (fields_of node_classes class) l) (seen_list f) name = Some es.
Proof.
  intros H (vs & Hv & A2). rewrite (has_field _ _ _ _ _ Hv), see_list. cbn [seen_list]. rewrite (seen_all f P (fun a => a) _ _ H A2).
  now rewrite map_id.
Qed.
Lemma see_one {A} (f : seen -> option A) (P : value -> A -> Prop) class l name a :
  (forall v a, P v a -> f (see v) = Some a) -> has_one node_classes P (VNode class l) name a ->
  field (seen_attributes (fields_of node_classes class) l) f name = Some a.
Proof. intros H (v & Hv & Pv). rewrite (has_field _ _ _ _ _ Hv). now apply H. Qed.
Lemma arg_seen v a : is_arg node_classes v a -> seen_arg (see v) = Some a.
Proof. intros H. now apply see_some_arg. Qed.
Lemma expr_seen v e : is_expr v e -> seen_expr (see v) = Some e.
Proof. intros H. now apply see_some_expr. Qed.
Lemma optional_arg_seen v a : is_optional (is_arg node_classes) v a -> seen_optional seen_arg (see v) = Some a.
Proof. apply see_optional, see_some_arg. Qed.
Lemma optional_expr_seen v a : is_optional is_expr v a -> seen_optional seen_expr (see v) = Some a.
Proof. apply see_optional, see_some_expr. Qed.
Lemma optional_text_seen v a : is_optional (fun x s => x = text s) v a -> seen_optional seen_string (see v) = Some a.
Proof. apply see_optional, see_some_text. Qed.
Lemma see_arguments v a : is_arguments node_classes v a -> see v = SeenArguments a.
Proof.
  intros (I & H1 & H2 & H3 & H4 & H5 & H6 & H7). destruct a as [a1 a2 a3 a4 a5 a6 a7]. cbn [posonlyargs args vararg kwonlyargs kw_defaults kwarg defaults] in *. node.
  rewrite (see_all _ _ _ _ _ _ arg_seen H1), (see_all _ _ _ _ _ _ arg_seen H2), (see_one _ _ _ _ _ _ optional_arg_seen H3),
    (see_all _ _ _ _ _ _ arg_seen H4), (see_all _ _ _ _ _ _ optional_expr_seen H5), (see_one _ _ _ _ _ _ optional_arg_seen H6),
    (see_all _ _ _ _ _ _ expr_seen H7).
  reflexivity.
Qed.
Lemma arguments_seen v a : is_arguments node_classes v a -> seen_arguments (see v) = Some a.
Proof. intros H. now rewrite (see_arguments _ _ H). Qed.
Lemma see_function class l f make : is_function node_classes (VNode class l) f ->
  interpret_function (seen_attributes (fields_of node_classes class) l) make = SeenStmt (make f).
Proof.
  intros (H1 & H2 & H3 & H4). destruct f as [f1 f2 f3 f4]. cbn [fd_name fd_args fd_decorators fd_returns] in *. unfold interpret_function. fields.
  rewrite (see_one _ _ _ _ _ _ arguments_seen H2), (see_all _ _ _ _ _ _ expr_seen H3), (see_one _ _ _ _ _ _ optional_expr_seen H4).
  reflexivity.
Qed.
Lemma see_alias v a : is_alias node_classes v a -> see v = SeenAlias a.
Proof.
  intros (I & H1 & H2). destruct a as [a1 a2]. cbn [alias_name alias_asname] in *. node. fields.
  rewrite (see_one _ _ _ _ _ _ optional_text_seen H2). reflexivity.
Qed.
Lemma alias_seen v a : is_alias node_classes v a -> seen_alias (see v) = Some a.
Proof. intros H. now rewrite (see_alias _ _ H). Qed.

(** ** Statements *)
Scheme is_stmt_mind := Minimality for SpecNodes.is_stmt Sort Prop
  with are_stmts_mind := Minimality for are_stmts Sort Prop
  with statements_in_mind := Minimality for statements_in Sort Prop
  with statements_of_mind := Minimality for statements_of Sort Prop.
Combined Scheme stmts_mind from is_stmt_mind, are_stmts_mind, statements_in_mind, statements_of_mind.
Ltac parts := repeat match goal with
  | H : has_list _ (SpecNodes.is_expr _) _ _ _ |- _ => rewrite (see_all _ _ _ _ _ _ expr_seen H)
  | H : has_list _ (is_alias _) _ _ _ |- _ => rewrite (see_all _ _ _ _ _ _ alias_seen H)
  | H : has_one _ (SpecNodes.is_expr _) _ _ _ |- _ => rewrite (see_one _ _ _ _ _ _ expr_seen H)
  | H : has_one _ (is_optional (SpecNodes.is_expr _)) _ _ _ |- _ => rewrite (see_one _ _ _ _ _ _ optional_expr_seen H)
  | H : has_one _ (is_optional (fun x s => x = text s)) _ _ _ |- _ => rewrite (see_one _ _ _ _ _ _ optional_text_seen H)
  end.
Lemma see_stmts :
  (forall v s, is_stmt v s -> see v = SeenStmt s)
  /\ (forall l body, are_stmts node_classes l body -> all_seen seen_stmt (map see l) = Some body)
  /\ (forall fields l body, statements_in node_classes fields l body -> found seen_stmt l fields = body)
  /\ (forall l body, statements_of node_classes l body -> flat_map (fun v => match seen_stmt (see v) with Some a => [a] | None => [] end) l = body).
Proof.
  apply stmts_mind; intros.
  - node. parts. reflexivity.
  - node. parts. reflexivity.
  - node. now apply see_function.
  - node. now apply see_function.
  - node. parts. fields. rewrite see_list. cbn [seen_list]. known. reflexivity.
  - node. parts. fields. rewrite !see_list. cbn [seen_list]. known. reflexivity.
  - node. parts. reflexivity.
  - node. parts. fields. cbn [Reading.see seen_level]. destruct (Z.leb_spec 0 (Z.of_nat level)); [|lia]. now rewrite Nat2Z.id.
  - now apply interpret_other_stmt.
  - reflexivity.
  - cbn [map all_seen]. known. reflexivity.
  - reflexivity.
  - destruct f as [n o]. unfold found in *. cbn [seen_attributes flat_map snd]. rewrite H0. now destruct o.
  - destruct f as [n o]. unfold found in *. cbn [seen_attributes flat_map snd]. known. rewrite H2. reflexivity.
  - destruct f as [n o]. unfold found in *. cbn [seen_attributes flat_map snd]. rewrite H1, (proj2 (see_no_statement _ H)). reflexivity.
  - destruct f as [n o]. unfold found in *. cbn [seen_attributes flat_map snd]. rewrite H2, seen_below, H0. reflexivity.
  - reflexivity.
  - cbn [flat_map]. known. rewrite H2. reflexivity.
  - cbn [flat_map]. rewrite (proj1 (see_no_statement _ H)), H1. reflexivity.
Qed.
End See.
