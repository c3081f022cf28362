(** The text form of syntax trees: property C77. *)
From Verif Require Import Base PyText PyNumbers PyExpr PyExprProofs RawNodes SpecRaw RawProofs.
From Verif Require Ast.

(** C77: reading a tree back from its text gives the tree. *)
Theorem C77_raw_round_trip_partial printable node_classes class attributes :
  proper_classes node_classes -> tree node_classes (VNode class attributes) ->
  exists v, same node_classes (VNode class attributes) v
    /\ exists n, forall fuel, n <= fuel -> from_raw node_classes fuel (to_raw printable node_classes (VNode class attributes)) = Some v.
Proof. intros HP T. destruct (raw_round_trip printable HP T) as (n & v & S & H). exists v. split; [exact S|now exists n]. Qed.
Print Assumptions C77_raw_round_trip_partial.

(** Statement nodes that are a literal that is infinite are not read back: the text is
    the name [inf], and there is no such name. *)
Theorem C77_infinity_refuted : forall printable node_classes,
  dget $"Constant" node_classes = Some [($"value", false); ($"kind", true)] -> dget $"inf" node_classes = None ->
  forall fuel, from_raw node_classes fuel (to_raw printable node_classes (VNode $"Constant" [Some (VConst Infinity); None])) = None.
Proof.
  intros printable cs E I fuel. unfold to_raw, from_raw. cbn [dump]. unfold fields_of. rewrite E. cbn [is_none andb repr_literal join app].
  assert (R : read 20 $"Constant(inf)" = Some (ECall (EName $"Constant") [(None, EName $"inf")], [])) by (now vm_compute).
  destruct (read fuel _) as [[e [|c r]]|] eqn:Er; try reflexivity.
  pose proof (read_unique _ _ _ Er R) as U. injection U as ->. cbn [eval_node].
  assert (N : name_value cs $"inf" = None).
  { unfold name_value. replace (mem $"inf" (namespace cs)) with false; [now vm_compute|]. symmetry. apply mem_not_In. intros H.
    apply filter_In in H. destruct H as [[H|H] _]; [discriminate H|]. apply dmem_In in H. unfold dmem in H. now rewrite I in H. }
  change (name_value cs [105%N; 110%N; 102%N]) with (name_value cs $"inf"). rewrite N. match goal with |- context [name_value cs ?x] => destruct (name_value cs x) as [[]|] end; reflexivity.
Qed.
Print Assumptions C77_infinity_refuted.
(** Neither are infinite imaginary literals, such as [1e999j]. *)
Theorem C77_imaginary_infinity_refuted : forall printable node_classes,
  dget $"Constant" node_classes = Some [($"value", false); ($"kind", true)] -> dget $"infj" node_classes = None ->
  forall fuel, from_raw node_classes fuel (to_raw printable node_classes (VNode $"Constant" [Some (VConst ImaginaryInfinity); None])) = None.
Proof.
  intros printable cs E I fuel. unfold to_raw, from_raw. cbn [dump]. unfold fields_of. rewrite E. cbn [is_none andb repr_literal join app].
  assert (R : read 20 $"Constant(infj)" = Some (ECall (EName $"Constant") [(None, EName $"infj")], [])) by (now vm_compute).
  destruct (read fuel _) as [[e [|c r]]|] eqn:Er; try reflexivity.
  pose proof (read_unique _ _ _ Er R) as U. injection U as ->. cbn [eval_node].
  assert (N : name_value cs $"infj" = None).
  { unfold name_value. replace (mem $"infj" (namespace cs)) with false; [now vm_compute|]. symmetry. apply mem_not_In. intros H.
    apply filter_In in H. destruct H as [[H|H] _]; [discriminate H|]. apply dmem_In in H. unfold dmem in H. now rewrite I in H. }
  change (name_value cs [105%N; 110%N; 102%N; 106%N]) with (name_value cs $"infj"). rewrite N. match goal with |- context [name_value cs ?x] => destruct (name_value cs x) as [[]|] end; reflexivity.
Qed.
Print Assumptions C77_imaginary_infinity_refuted.

(** The classes of nodes as Python 3.11 has them, but for deprecated and abstract ones *)
Definition classes_of_3_11 : classes :=
  [($"Add", []);
   ($"And", []);
   ($"AnnAssign", [($"target", false); ($"annotation", false); ($"value", true); ($"simple", false)]);
   ($"Assert", [($"test", false); ($"msg", true)]);
   ($"Assign", [($"targets", false); ($"value", false); ($"type_comment", true)]);
   ($"AsyncFor", [($"target", false); ($"iter", false); ($"body", false); ($"orelse", false); ($"type_comment", true)]);
   ($"AsyncFunctionDef", [($"name", false); ($"args", false); ($"body", false); ($"decorator_list", false); ($"returns", true); ($"type_comment", true)]);
   ($"AsyncWith", [($"items", false); ($"body", false); ($"type_comment", true)]);
   ($"Attribute", [($"value", false); ($"attr", false); ($"ctx", false)]);
   ($"AugAssign", [($"target", false); ($"op", false); ($"value", false)]);
   ($"Await", [($"value", false)]);
   ($"BinOp", [($"left", false); ($"op", false); ($"right", false)]);
   ($"BitAnd", []);
   ($"BitOr", []);
   ($"BitXor", []);
   ($"BoolOp", [($"op", false); ($"values", false)]);
   ($"Break", []);
   ($"Call", [($"func", false); ($"args", false); ($"keywords", false)]);
   ($"ClassDef", [($"name", false); ($"bases", false); ($"keywords", false); ($"body", false); ($"decorator_list", false)]);
   ($"Compare", [($"left", false); ($"ops", false); ($"comparators", false)]);
   ($"Constant", [($"value", false); ($"kind", true)]);
   ($"Continue", []);
   ($"Del", []);
   ($"Delete", [($"targets", false)]);
   ($"Dict", [($"keys", false); ($"values", false)]);
   ($"DictComp", [($"key", false); ($"value", false); ($"generators", false)]);
   ($"Div", []);
   ($"Eq", []);
   ($"ExceptHandler", [($"type", true); ($"name", true); ($"body", false)]);
   ($"Expr", [($"value", false)]);
   ($"Expression", [($"body", false)]);
   ($"FloorDiv", []);
   ($"For", [($"target", false); ($"iter", false); ($"body", false); ($"orelse", false); ($"type_comment", true)]);
   ($"FormattedValue", [($"value", false); ($"conversion", false); ($"format_spec", true)]);
   ($"FunctionDef", [($"name", false); ($"args", false); ($"body", false); ($"decorator_list", false); ($"returns", true); ($"type_comment", true)]);
   ($"FunctionType", [($"argtypes", false); ($"returns", false)]);
   ($"GeneratorExp", [($"elt", false); ($"generators", false)]);
   ($"Global", [($"names", false)]);
   ($"Gt", []);
   ($"GtE", []);
   ($"If", [($"test", false); ($"body", false); ($"orelse", false)]);
   ($"IfExp", [($"test", false); ($"body", false); ($"orelse", false)]);
   ($"Import", [($"names", false)]);
   ($"ImportFrom", [($"module", true); ($"names", false); ($"level", true)]);
   ($"In", []);
   ($"Interactive", [($"body", false)]);
   ($"Invert", []);
   ($"Is", []);
   ($"IsNot", []);
   ($"JoinedStr", [($"values", false)]);
   ($"LShift", []);
   ($"Lambda", [($"args", false); ($"body", false)]);
   ($"List", [($"elts", false); ($"ctx", false)]);
   ($"ListComp", [($"elt", false); ($"generators", false)]);
   ($"Load", []);
   ($"Lt", []);
   ($"LtE", []);
   ($"MatMult", []);
   ($"Match", [($"subject", false); ($"cases", false)]);
   ($"MatchAs", [($"pattern", true); ($"name", true)]);
   ($"MatchClass", [($"cls", false); ($"patterns", false); ($"kwd_attrs", false); ($"kwd_patterns", false)]);
   ($"MatchMapping", [($"keys", false); ($"patterns", false); ($"rest", true)]);
   ($"MatchOr", [($"patterns", false)]);
   ($"MatchSequence", [($"patterns", false)]);
   ($"MatchSingleton", [($"value", false)]);
   ($"MatchStar", [($"name", true)]);
   ($"MatchValue", [($"value", false)]);
   ($"Mod", []);
   ($"Module", [($"body", false); ($"type_ignores", false)]);
   ($"Mult", []);
   ($"Name", [($"id", false); ($"ctx", false)]);
   ($"NamedExpr", [($"target", false); ($"value", false)]);
   ($"Nonlocal", [($"names", false)]);
   ($"Not", []);
   ($"NotEq", []);
   ($"NotIn", []);
   ($"Or", []);
   ($"Pass", []);
   ($"Pow", []);
   ($"RShift", []);
   ($"Raise", [($"exc", true); ($"cause", true)]);
   ($"Return", [($"value", true)]);
   ($"Set", [($"elts", false)]);
   ($"SetComp", [($"elt", false); ($"generators", false)]);
   ($"Slice", [($"lower", true); ($"upper", true); ($"step", true)]);
   ($"Starred", [($"value", false); ($"ctx", false)]);
   ($"Store", []);
   ($"Sub", []);
   ($"Subscript", [($"value", false); ($"slice", false); ($"ctx", false)]);
   ($"Try", [($"body", false); ($"handlers", false); ($"orelse", false); ($"finalbody", false)]);
   ($"TryStar", [($"body", false); ($"handlers", false); ($"orelse", false); ($"finalbody", false)]);
   ($"Tuple", [($"elts", false); ($"ctx", false)]);
   ($"TypeIgnore", [($"lineno", false); ($"tag", false)]);
   ($"UAdd", []);
   ($"USub", []);
   ($"UnaryOp", [($"op", false); ($"operand", false)]);
   ($"While", [($"test", false); ($"body", false); ($"orelse", false)]);
   ($"With", [($"items", false); ($"body", false); ($"type_comment", true)]);
   ($"Yield", [($"value", true)]);
   ($"YieldFrom", [($"value", false)]);
   ($"alias", [($"name", false); ($"asname", true)]);
   ($"arg", [($"arg", false); ($"annotation", true); ($"type_comment", true)]);
   ($"arguments", [($"posonlyargs", false); ($"args", false); ($"vararg", true); ($"kwonlyargs", false); ($"kw_defaults", false); ($"kwarg", true); ($"defaults", false)]);
   ($"comprehension", [($"target", false); ($"iter", false); ($"ifs", false); ($"is_async", false)]);
   ($"keyword", [($"arg", true); ($"value", false)]);
   ($"match_case", [($"pattern", false); ($"guard", true); ($"body", false)]);
   ($"withitem", [($"context_expr", false); ($"optional_vars", true)])].
Example C77_classes : proper_classes classes_of_3_11.
Proof.
  assert (H : forallb (fun c => is_identifier (fst c) && negb (mem (fst c) [$"None"; $"True"; $"False"; $"Ellipsis"])
                                && distinct_names (map fst (snd c)) && forallb (fun f => is_identifier (fst f)) (snd c)) classes_of_3_11 = true)
    by now vm_compute.
  intros class fields E. apply dget_Some_In in E. apply (proj1 (forallb_forall _ _) H) in E. cbn [fst snd] in E.
  apply andb_prop in E. destruct E as [E E4]. apply andb_prop in E. destruct E as [E E3]. apply andb_prop in E. destruct E as [E1 E2].
  apply negb_true_iff, mem_not_In in E2. split; [exact E1|]. split; [exact E2|]. split.
  - clear -E3. induction (map fst fields) as [|x l IH]; [constructor|]. cbn [distinct_names] in E3. apply andb_prop in E3.
    destruct E3 as [N E3]. constructor; [now apply negb_true_iff, mem_not_In in N|now apply IH].
  - intros n o Hn. now apply (proj1 (forallb_forall _ _) E4 (n, o)).
Qed.

(** [def f(a, b=..., *, c: int = ..., d: 'x'): ...] *)
Definition node (class : pystr) (attributes : list value) : value := VNode class (map Some attributes).
Definition none := VConst (Known Ast.CNone).
Definition string (s : pystr) := VConst (Known (Ast.CStr s)).
Definition argument (name : pystr) (annotation : value) : value := node $"arg" [string name; annotation; none].
Definition constant (c : Ast.constant) : value := node $"Constant" [VConst (Known c); none].
Definition example_tree : value :=
  node $"FunctionDef"
    [string $"f";
     node $"arguments"
       [VList []; VList [argument $"a" none; argument $"b" none]; none;
        VList [argument $"c" (node $"Name" [string $"int"; node $"Load" []]); argument $"d" (constant (Ast.CStr $"x"))];
        VList [constant Ast.CEllipsis; none]; none; VList [constant Ast.CEllipsis]];
     VList [node $"Expr" [constant Ast.CEllipsis]]; VList []; none; none].
Example C77_example :
  to_raw (fun _ => true) classes_of_3_11 example_tree
  = $"FunctionDef('f', arguments([], [arg('a'), arg('b')], kwonlyargs=[arg('c', Name('int', Load())), arg('d', Constant('x'))], kw_defaults=[Constant(Ellipsis), None], defaults=[Constant(Ellipsis)]), [Expr(Constant(Ellipsis))], [])"
  /\ exists v, from_raw classes_of_3_11 1000 (to_raw (fun _ => true) classes_of_3_11 example_tree) = Some v
     /\ to_raw (fun _ => true) classes_of_3_11 v = to_raw (fun _ => true) classes_of_3_11 example_tree.
Proof. split; [now vm_compute|]. eexists. split; vm_compute; reflexivity. Qed.
(** [[b"a'\xff", 0.5, 1e-7, 123e14, 123e13, 0., 2j, -3]]: minus is no part of numbers *)
Definition example_numbers : value :=
  node $"List"
    [VList [constant (Ast.CBytes [97%N; 39%N; 255%N]); constant (Ast.CFloat {| digits := $"5"; point := 0 |});
            constant (Ast.CFloat {| digits := $"1"; point := -6 |}); constant (Ast.CFloat {| digits := $"123"; point := 17 |});
            constant (Ast.CFloat {| digits := $"123"; point := 16 |}); constant (Ast.CFloat {| digits := []; point := 0 |});
            constant (Ast.CImaginary {| digits := $"2"; point := 1 |});
            node $"UnaryOp" [node $"USub" []; constant (Ast.CInt 3)]];
     node $"Load" []].
Example C77_example_numbers :
  to_raw (fun _ => true) classes_of_3_11 example_numbers
  = $"List([Constant(b""a'\xff""), Constant(0.5), Constant(1e-07), Constant(1.23e+16), Constant(1230000000000000.0), Constant(0.0), Constant(2j), UnaryOp(USub(), Constant(3))], Load())"
  /\ exists v, from_raw classes_of_3_11 1000 (to_raw (fun _ => true) classes_of_3_11 example_numbers) = Some v
     /\ to_raw (fun _ => true) classes_of_3_11 v = to_raw (fun _ => true) classes_of_3_11 example_numbers.
Proof. split; [now vm_compute|]. eexists. split; vm_compute; reflexivity. Qed.
Example C77_example_numbers_tree : tree classes_of_3_11 example_numbers.
Proof.
  assert (K : forall c, proper_constant c -> tree classes_of_3_11 (constant c)).
  { intros c H. eapply t_node; [reflexivity|reflexivity|]. intros v [[= <-]|[[= <-]|[]]]; now constructor. }
  assert (D : forall c r s d p, forallb is_digit (c :: r) = true -> c :: r = s ++ [d] -> c <> 48%N -> d <> 48%N ->
                proper_decimal {| digits := c :: r; point := p |}).
  { intros. right. split; [assumption|]. now exists c, r, d, s. }
  eapply t_node; [reflexivity|reflexivity|]. intros v [[= <-]|[[= <-]|[]]].
  - constructor. intros v I. repeat (destruct I as [<-|I]; [|]); try destruct I.
    1-7: apply K.
    + repeat constructor.
    + now apply (D 53%N [] [] 53%N).
    + now apply (D 49%N [] [] 49%N).
    + now apply (D 49%N [50; 51]%N [49; 50]%N 51%N).
    + now apply (D 49%N [50; 51]%N [49; 50]%N 51%N).
    + left. now split.
    + now apply (D 50%N [] [] 50%N).
    + eapply t_node; [reflexivity|reflexivity|]. intros v [[= <-]|[[= <-]|[]]]; [|now apply K].
      eapply t_node; [reflexivity|reflexivity|]. intros v [].
  - eapply t_node; [reflexivity|reflexivity|]. intros v [].
Qed.
(** a string is not a statement *)
Example C77_example_error : from_raw classes_of_3_11 100 $"'f'" = None /\ from_raw classes_of_3_11 100 $"Name('x', Lod())" = None.
Proof. now vm_compute. Qed.

