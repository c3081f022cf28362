(** Property C79: signatures of values whose stub is an annotation or an assignment. *)
From Verif Require Import Base PyText Models SpecCall ModelsProofs CallTheorems Ast Conversion Scoping SpecScoping
  Signatures SpecSignatures SignaturesProofs SpecExpressions ExpressionProofs P_Signatures.

(** ** Exactly the signatures of the specification are found, given enough depth *)
Theorem C79_expressions :
  forall V is_NONE is_Ellipsis (Any Self TypeSelf : V) evaluate stubs limit is_type value e m parent s,
    (exists fuel, from_expression_node is_NONE is_Ellipsis Any Self TypeSelf evaluate stubs limit is_type value fuel e m parent = Return s)
    <-> means is_NONE Any evaluate stubs limit value
          (fun fd m parent s => from_function_def is_NONE is_Ellipsis Any Self TypeSelf evaluate stubs limit fd is_type m parent = Return s)
          m parent e s.
Proof.
  intros. split; [intros [fuel E]; revert E; apply sound|]. apply complete.
Qed.
Print Assumptions C79_expressions.

Theorem C79_statements :
  forall V is_NONE is_Ellipsis (Any Self TypeSelf : V) evaluate stubs limit is_type value node m parent s,
    (exists fuel, from_statement_node is_NONE is_Ellipsis Any Self TypeSelf evaluate stubs limit is_type value fuel node m parent = Return s)
    <-> states is_NONE Any evaluate stubs limit value
          (fun fd m parent s => from_function_def is_NONE is_Ellipsis Any Self TypeSelf evaluate stubs limit fd is_type m parent = Return s)
          m parent node s.
Proof.
  intros. split; [intros [fuel E]; revert E; apply sound|]. apply complete.
Qed.
Print Assumptions C79_statements.

(** The depth allowed does not change what is found. *)
Theorem C79_depth :
  forall V is_NONE is_Ellipsis (Any Self TypeSelf : V) evaluate stubs limit is_type value fuel fuel' node m parent s,
    fuel <= fuel' ->
    from_statement_node is_NONE is_Ellipsis Any Self TypeSelf evaluate stubs limit is_type value fuel node m parent = Return s ->
    from_statement_node is_NONE is_Ellipsis Any Self TypeSelf evaluate stubs limit is_type value fuel' node m parent = Return s.
Proof.
  intros V is_NONE is_Ellipsis Any Self TypeSelf evaluate stubs limit is_type value fuel fuel' node m parent s L.
  now apply (@mono_le V is_NONE is_Ellipsis Any Self TypeSelf evaluate stubs limit is_type value).
Qed.
Print Assumptions C79_depth.

(** ** [Callable[[A_1, ..., A_n], R]] takes [n] positional arguments and nothing else *)
Theorem C79_callable_calls :
  forall V (values : list V) r args kwargs,
    plain_all_set (mk_plain (unnamed_parameters values) r) args kwargs = true
    <-> length args = length values /\ kwargs = [].
Proof.
  intros V values r args kwargs.
  set (s := mk_plain (unnamed_parameters values) r).
  assert (K : forall p, In p (sviews s) -> v_kind p = POSITIONAL_ONLY /\ v_required p = true).
  { intros p Hp. unfold sviews, s in Hp. cbn [parameters] in Hp. rewrite unnamed_views in Hp.
    apply in_map_iff in Hp. now destruct Hp as (x & <- & _). }
  assert (P : positionals (sviews s) = sviews s).
  { unfold positionals. clearbody s. revert K. generalize (sviews s). induction l as [|p l IH]; cbn [filter]; intros K; [reflexivity|].
    unfold positionalb at 1. destruct (K p) as [-> _]; [now left|]. f_equal. apply IH. intros q Hq. apply K. now right. }
  assert (L : length (sviews s) = length values).
  { unfold sviews, s. cbn [parameters]. rewrite unnamed_views, map_length. generalize 0.
    clear. induction values as [|v values IH]; intros i; cbn [number length]; [reflexivity|]. now rewrite IH. }
  assert (B : built_plain (fun _ => false) s).
  { exists (unnamed_parameters values), r. split.
    - apply Forall_forall. intros p Hp. unfold unnamed_parameters in Hp. apply in_map_iff in Hp. destruct Hp as (x & <- & _).
      left. exists (snd x), (IsKind POSITIONAL_ONLY), ($"_" ++ repr_int (Z.of_nat (fst x))). reflexivity.
    - apply (@new_plain_exact V (fun _ => false)), unnamed_legal. }
  rewrite (@all_set_exact V (fun _ => false) s args kwargs B).
  2:{ intros (p & Hp & Hk) _. destruct (K p Hp). congruence. }
  unfold accepts. split.
  - intros (F & Kw & M). split.
    + apply Nat.le_antisymm.
      * destruct F as [F|(p & Hp & Hk)]; [now rewrite P, L in F|]. destruct (K p Hp). congruence.
      * rewrite <- L. destruct (Nat.le_gt_cases (length (sviews s)) (length args)) as [|G]; [assumption|].
        assert (I : exists p, nth_error (sviews s) (length args) = Some p)
          by (destruct (nth_error (sviews s) (length args)) eqn:E; [eauto|apply nth_error_None in E; lia]).
        destruct I as (p & Ep). apply nth_error_split in Ep. destruct Ep as (l1 & l2 & E & E1).
        assert (Hp : In p (sviews s)) by (rewrite E; apply in_or_app; right; now left).
        destruct (K p Hp) as [K1 K2]. destruct (M p Hp K2) as [Hf|[[X|X] _]]; [|congruence|congruence].
        unfold filled in Hf. rewrite P, E, <- E1, firstn_app, Nat.sub_diag, firstn_all in Hf. cbn [firstn] in Hf. rewrite app_nil_r in Hf.
        assert (N : NoDup (map v_name (sviews s))).
        { destruct (@unnamed_legal V values) as [N _]. exact N. }
        rewrite E, map_app in N. cbn [map] in N. apply NoDup_remove_2 in N. destruct N. apply in_or_app. left. now apply in_map.
    + destruct kwargs as [|[k v] kwargs]; [reflexivity|]. destruct (Kw k) as [(p & Hp & [X|X] & _)|[(p & Hp & X) _]]; [now left| | |];
        destruct (K p Hp); congruence.
  - intros [E ->]. split; [left; rewrite P, L; now rewrite E|]. split; [intros k []|].
    intros p Hp _. left. unfold filled. rewrite P, E, <- L, firstn_all. exact Hp.
Qed.
Print Assumptions C79_callable_calls.

(** [Callable[..., R]] takes any arguments *)
Theorem C79_any_callable_calls :
  forall V (Any r : V) args kwargs,
    plain_all_set (mk_plain [OptionalParameter Any None VARIADIC_POSITIONAL $"args";
                             OptionalParameter Any None VARIADIC_KEYWORD $"kwargs"] r) args kwargs = true.
Proof.
  intros V Any r args kwargs.
  set (s := mk_plain _ r).
  assert (B : built_plain (fun _ => false) s).
  { eexists _, r. split; [|apply (@new_plain_exact V (fun _ => false)), any_legal].
    constructor; [right; exists Any, None, (IsKind VARIADIC_POSITIONAL), $"args"; reflexivity|].
    constructor; [right; exists Any, None, (IsKind VARIADIC_KEYWORD), $"kwargs"; reflexivity|constructor]. }
  assert (K : forall p, In p (sviews s) -> v_required p = false /\ ~ keyword_capable p).
  { intros p [<-|[<-|[]]]; (split; [reflexivity|intros [X|X]; discriminate X]). }
  apply (@all_set_exact V (fun _ => false) s args kwargs B).
  - intros _ (p & Hp & _). unfold filled in Hp. change (positionals (sviews s)) with (@nil pview) in Hp. now rewrite firstn_nil in Hp.
  - split; [right; eexists; split; [now left|reflexivity]|]. split.
    + intros kw _. right. split; [eexists; split; [right; now left|reflexivity]|]. intros p Hp Hk. now destruct (proj2 (K p Hp)).
    + intros p Hp Hr. destruct (K p Hp). congruence.
Qed.
Print Assumptions C79_any_callable_calls.

(** ** Samples: the module [m] with
    [class K: def __call__(self, x: int) -> int], [def f(x: int)], [g = f], [v: K],
    [c: Callable[[int, int], int]], [d: Callable[..., int]],
    [T = TypeVar('T', bound=K)], [U = TypeVar('U', g, d)], [l = l]. *)
Module Values.
Definition leaf := Scope [].
Definition m := [$"m"].
Definition names := map (fun x => $x) ["K"; "f"; "g"; "v"; "c"; "d"; "T"; "U"; "l"]%string.
Definition db := mk_database
  [(m, Scope (map (fun x => (x, leaf)) names));
   ([$"typing"], Scope [($"Callable", leaf); ($"TypeVar", leaf)]);
   ([$"builtins"], Scope [($"classmethod", leaf); ($"int", leaf)])]
  [(m, [([$"Callable"], ([$"typing"], [$"Callable"])); ([$"TypeVar"], ([$"typing"], [$"TypeVar"]))]); ([$"typing"], []); ([$"builtins"], [])]
  [] [].
Definition int := Name $"int".
Definition call := FunctionDef (mk_function_def $"__call__"
  (mk_arguments [] [mk_arg $"self" None; Stub.x] None [] [] None []) [] (Some int)).
Definition tables := mk_tables db
  [(m, ([$"K"], CLASS) :: map (fun x => ([x], ASSIGNMENT)) (tl names))]
  [(m, [([$"K"; $"__call__"], [call]);
        ([$"f"], [FunctionDef (mk_function_def $"f" (mk_arguments [] [Stub.x] None [] [] None []) [] None)]);
        ([$"g"], [Assign (Name $"f")]);
        ([$"v"], [AnnAssign (Name $"K") None]);
        ([$"c"], [AnnAssign (Subscript (Name $"Callable") (Tuple [List [int; int]; int])) None]);
        ([$"d"], [AnnAssign (Subscript (Name $"Callable") (Tuple [Constant CEllipsis; int])) None]);
        ([$"T"], [Assign (Call (Name $"TypeVar") [Constant (CStr $"T")] [(Some $"bound", Name $"K")])]);
        ([$"U"], [Assign (Call (Name $"TypeVar") [Constant (CStr $"U"); Name $"g"; Name $"d"] [])]);
        ([$"l"], [Assign (Name $"l")])])].
Definition signature (is_type : bool) (x : String.string) :=
  from_expression_node Stub.none Stub.dots 100 101 102 Stub.evaluate tables 20 is_type 7 20 (Name $x) m [].
Definition takes_x := mk_plain [RequiredParameter 50 POSITIONAL_ONLY $"x"] 100.
Definition takes_any := mk_plain [OptionalParameter 100 None VARIADIC_POSITIONAL $"args"; OptionalParameter 100 None VARIADIC_KEYWORD $"kwargs"] 50.
End Values.

Example C79_example :
  Values.signature false "f" = Return (Plain Values.takes_x)
  /\ Values.signature false "g" = Return (Plain Values.takes_x)
  /\ Values.signature false "v" = Return (Plain (mk_plain [RequiredParameter 50 POSITIONAL_ONLY $"x"] 50))
  /\ Values.signature false "c" = Return (Plain (mk_plain [RequiredParameter 50 POSITIONAL_ONLY $"_0"; RequiredParameter 50 POSITIONAL_ONLY $"_1"] 50))
  /\ Values.signature false "d" = Return (Plain Values.takes_any)
  /\ Values.signature false "T" = Values.signature false "v"
  /\ Values.signature false "U" = Return (Overloaded [Values.takes_x; Values.takes_any])
  /\ Values.signature false "l" = Throws RecursionError.
Proof. vm_compute. repeat split. Qed.
(** Nothing is stated about [l], which is defined by itself. *)
Example C79_nothing_stated s :
  ~ means Stub.none 100 Stub.evaluate Values.tables 20 7
      (fun fd m parent s => from_function_def Stub.none Stub.dots 100 101 102 Stub.evaluate Values.tables 20 fd false m parent = Return s)
      Values.m [] (Name $"l") s.
Proof.
  intros H. apply C79_expressions in H. destruct H as [fuel H].
  enough (G : forall s, from_expression_node Stub.none Stub.dots 100 101 102 Stub.evaluate Values.tables 20 false 7 fuel (Name $"l") Values.m [] <> Return s
              /\ from_statement_node Stub.none Stub.dots 100 101 102 Stub.evaluate Values.tables 20 false 7 fuel (Assign (Name $"l")) Values.m [] <> Return s)
    by now destruct (G s).
  clear. induction fuel as [|fuel IH]; [split; discriminate|]. intros s. split.
  - change (from_statement_node Stub.none Stub.dots 100 101 102 Stub.evaluate Values.tables 20 false 7 fuel (Assign (Name $"l")) Values.m [] <> Return s).
    apply IH.
  - cbn [from_statement_node]. apply IH.
Qed.

(** When the value is a class, the parameter [self] of [__call__] is removed twice: once
    as for builders (signatures.py:331) and once by [bind]. So the class [V] stubbed as
    [V: K] seems to take no arguments, although an instance of [K] takes one. *)
Theorem C79_class_values_refuted :
  from_expression_node Stub.none Stub.dots 100 101 102 Stub.evaluate Values.tables 20 true 7 20 (Name $"v") Values.m []
    = Return (Plain (mk_plain [] 50))
  /\ from_expression_node Stub.none Stub.dots 100 101 102 Stub.evaluate Values.tables 20 false 7 20 (Name $"v") Values.m []
    = Return (Plain (mk_plain [RequiredParameter 50 POSITIONAL_ONLY $"x"] 50)).
Proof. vm_compute. split; reflexivity. Qed.
Print Assumptions C79_class_values_refuted.
