(** Properties C23-C28: signatures of introspected functions, stub definitions
    and partial objects. *)
From Verif Require Import Base Models SpecCall ModelsProofs CallTheorems BindLaws ModelsMore OverloadLaws
  Ast Conversion Scoping SpecScoping Signatures SpecSignatures SignaturesProofs FunctionProofs P_Models.

(** ** Samples: values are numbers, 0 is the sentinel, 1 is [...]. *)
Module Stub.
Definition none (v : nat) : bool := v =? 0.
Definition dots (v : nat) : bool := v =? 1.
Definition any := 100.
Definition self := 101.
Definition type_self := 102.
Definition value (e : expr) : nat :=
  match e with
  | Constant CEllipsis => 1
  | Constant (CInt z) => Z.to_nat z
  | _ => 50
  end.
Definition evaluate (e : expr) (_ _ : path) : res nat := Ok (value e).
Definition x := mk_arg $"x" (Some (Name $"int")).
Definition y := mk_arg $"y" None.
Definition z := mk_arg $"z" None.
Definition five := Constant (CInt 5).
Definition no_arguments := mk_arguments [] [] None [] [] None [].

(** [m] has a function [f] and a class [K]; the builtins have [classmethod] and
    [staticmethod]. *)
Definition leaf := Scope [].
Definition db := mk_database
  [([$"m"], Scope [($"f", leaf); ($"K", leaf)]);
   ([$"builtins"], Scope [($"classmethod", leaf); ($"staticmethod", leaf); ($"object", leaf)])]
  [([$"m"], []); ([$"builtins"], [])] [] [].
Definition tables := mk_tables db [([$"m"], [([$"f"], FUNCTION); ([$"K"], CLASS)])] [].
Definition build := from_function_def none dots any self type_self evaluate tables 10.
Definition m := [$"m"].
Definition K := [$"K"].
End Stub.

(** ** C23 *)
Theorem C23_introspected_parameters_are_kept :
  forall (V : Type) (is_NONE : V -> bool) (Any : V) raws vs ret,
    Forall2 raw_view raws vs -> legal_parameters vs ->
    (forall raw d, In raw raws -> raw_default raw = Some d -> is_NONE d = false) ->
    exists s, from_raw_signature is_NONE Any (mk_raw_signature raws ret) = Ok (Plain s)
      /\ Forall2 (kept Any) raws (parameters s) /\ sviews s = vs
      /\ returns s = match ret with Some r => r | None => Any end
      /\ built_plain is_NONE s.
Proof. exact @from_raw_signature_ok. Qed.
Print Assumptions C23_introspected_parameters_are_kept.

(** The proviso about keywords is the one of C04. *)
Theorem C23_introspected_calls :
  forall (V : Type) (is_NONE : V -> bool) (Any : V) raws vs ret s args kwargs,
    Forall2 raw_view raws vs -> legal_parameters vs ->
    (forall raw d, In raw raws -> raw_default raw = Some d -> is_NONE d = false) ->
    from_raw_signature is_NONE Any (mk_raw_signature raws ret) = Ok (Plain s) ->
    (takes_extra_keywords vs -> ~ clash vs (length args) (dkeys kwargs)) ->
    plain_all_set s args kwargs = true <-> accepts vs (length args) (dkeys kwargs).
Proof.
  intros V is_NONE Any raws vs ret s args kwargs Hv Hl Hd E Hc.
  destruct (@from_raw_signature_ok V is_NONE Any raws vs ret Hv Hl Hd) as (s' & E' & _ & Hs & _ & Hb).
  rewrite E in E'. inversion E'; subst s'. rewrite <- Hs. apply (@all_set_exact V is_NONE); [exact Hb | now rewrite Hs].
Qed.
Print Assumptions C23_introspected_calls.

Theorem C23_introspected_calls_complete :
  forall (V : Type) (is_NONE : V -> bool) (Any : V) raws vs ret s args kwargs,
    Forall2 raw_view raws vs -> legal_parameters vs ->
    (forall raw d, In raw raws -> raw_default raw = Some d -> is_NONE d = false) ->
    from_raw_signature is_NONE Any (mk_raw_signature raws ret) = Ok (Plain s) ->
    accepts vs (length args) (dkeys kwargs) -> plain_all_set s args kwargs = true.
Proof.
  intros V is_NONE Any raws vs ret s args kwargs Hv Hl Hd E Ha.
  destruct (@from_raw_signature_ok V is_NONE Any raws vs ret Hv Hl Hd) as (s' & E' & _ & Hs & _ & Hb).
  rewrite E in E'. inversion E'; subst s'. rewrite <- Hs in Ha. now apply (@all_set_complete V is_NONE).
Qed.
Print Assumptions C23_introspected_calls_complete.

(** The samples [def k(x, **kw)] of C04 *)
Definition raw_k : list (raw_parameter nat) :=
  [mk_raw $"x" 1 None (Some 10); mk_raw $"kw" 4 None (Some 10)].
Lemma raw_k_views : Forall2 raw_view raw_k (sviews Sample.k).
Proof.
  repeat constructor; cbn; try easy; intros; try tauto.
  - intros [E|E]; discriminate E.
  - destruct H as [_ []]. now right.
Qed.
Theorem C23_without_proviso_refuted :
  exists (raws : list (raw_parameter nat)) vs s args kwargs,
    Forall2 raw_view raws vs /\ legal_parameters vs
    /\ (forall raw d, In raw raws -> raw_default raw = Some d -> Stub.none d = false)
    /\ from_raw_signature Stub.none 100 (mk_raw_signature raws (Some 20)) = Ok (Plain s)
    /\ legal_kwargs kwargs
    /\ plain_all_set s args kwargs = true /\ ~ accepts vs (length args) (dkeys kwargs).
Proof.
  exists raw_k, (sviews Sample.k), Sample.k, [1], [($"x", 2)].
  split; [exact raw_k_views|]. split.
  { destruct (new_plain_spec (parameters Sample.k) 20) as [[H _]|[_ H]]; [now apply good_list_legal in H | discriminate H]. }
  split; [intros raw d [<-|[<-|[]]]; discriminate|].
  repeat split; try (repeat constructor; easy).
  intros (_ & H & _). destruct (H $"x" (or_introl eq_refl)) as [(v & Hin & Hk & Hn & Hf)|[_ Hno]].
  - destruct Hin as [<-|[<-|[]]]; cbn in Hn; try discriminate. apply Hf. unfold filled. cbn. auto.
  - apply (Hno (view Sample.x)); [now left | now left | reflexivity].
Qed.
Print Assumptions C23_without_proviso_refuted.

(** Classes: the introspected signature returns [Self]. *)
Theorem C23_introspected_class :
  forall V O (H : Eqb O) is_NONE is_Ellipsis (Any Self TypeSelf : V) evaluate stubs limit
         sys_modules getattr qualified_path_from introspect is_type as_value table (o : O) raws vs ret,
    from_type_callable is_NONE is_Ellipsis Any Self TypeSelf evaluate stubs limit
      sys_modules getattr qualified_path_from is_type as_value table o = SignatureNotFound ->
    introspect o = Ok (mk_raw_signature raws ret) ->
    Forall2 raw_view raws vs -> legal_parameters vs ->
    (forall raw d, In raw raws -> raw_default raw = Some d -> is_NONE d = false) ->
    exists s, from_callable is_NONE is_Ellipsis Any Self TypeSelf evaluate stubs limit
        sys_modules getattr qualified_path_from introspect is_type as_value table (TypeCallable o) = Ok (Plain s)
      /\ Forall2 (kept Any) raws (parameters s) /\ sviews s = vs /\ returns s = Self.
Proof.
  intros V O HO is_NONE is_Ellipsis Any Self TypeSelf evaluate stubs limit sys_modules getattr qpf introspect
    is_type as_value table o raws vs ret Hn Hi Hv Hl Hd.
  destruct (@from_raw_signature_ok V is_NONE Any raws vs (Some Self) Hv Hl Hd) as (s & E & Hk & Hs & Hr & _).
  exists s. repeat split; auto. cbn [from_callable]. rewrite Hn, Hi. exact E.
Qed.
Print Assumptions C23_introspected_class.

Example C23_case :
  from_raw_signature Stub.none 100
    (mk_raw_signature [mk_raw $"a" 0 None None; mk_raw $"b" 1 (Some 7) (Some 8); mk_raw $"args" 2 None None;
                       mk_raw $"c" 3 None None; mk_raw $"kw" 4 None None] None)
  = Ok (Plain (mk_plain [RequiredParameter 100 POSITIONAL_ONLY $"a"; OptionalParameter 8 (Some 7) POSITIONAL_OR_KEYWORD $"b";
                         OptionalParameter 100 None VARIADIC_POSITIONAL $"args"; RequiredParameter 100 KEYWORD_ONLY $"c";
                         OptionalParameter 100 None VARIADIC_KEYWORD $"kw"] 100)).
Proof. reflexivity. Qed.

(** ** C24 *)
(** The parameters of a module function; [stored_kind] is the subject of C26. *)
Theorem C24_stub_parameters :
  forall (V : Type) (is_NONE is_Ellipsis : V -> bool) (Any Self TypeSelf : V) evaluate value_of stubs limit fd m parent,
    well_formed is_NONE evaluate value_of fd m parent ->
    Forall (other_decorator stubs limit m parent) (fd_decorators fd) ->
    has_kinds stubs m -> ~ is_class stubs m parent ->
    exists ps,
      Forall2 (fun w p => follows is_Ellipsis Any value_of (stored_kind (w_kind w)) w p) (written (fd_args fd)) ps
      /\ from_function_def is_NONE is_Ellipsis Any Self TypeSelf evaluate stubs limit fd false m parent
         = Return (Plain (mk_plain ps (return_value Any value_of fd))).
Proof. exact @build_function. Qed.
Print Assumptions C24_stub_parameters.

(** [def f(x: int, y=5, *z, ...)] *)
Definition sample_function : function_def :=
  mk_function_def $"f"
    (mk_arguments [] [Stub.x; Stub.y; Stub.z] (Some (mk_arg $"args" None)) [mk_arg $"u" None; mk_arg $"v" None]
       [None; Some (Constant CEllipsis)] (Some (mk_arg $"kw" None)) [Stub.five; Constant CEllipsis])
    [] (Some (Name $"str")).
Ltac nodup := repeat constructor; cbn; intuition discriminate.
Ltac not_class := let t := fresh in intros (t & Ht & Hc); cbn in Ht; inversion Ht; subst; discriminate Hc.
Ltac evaluated :=
  apply Forall_forall; let Hw := fresh in intros ? Hw; cbn in Hw;
  repeat (destruct Hw as [<-|Hw]; [split; cbn; intros ? E; inversion E; subst; try split; reflexivity|]); now destruct Hw.
Lemma sample_well_formed : well_formed Stub.none Stub.evaluate Stub.value sample_function Stub.m [].
Proof.
  split; [reflexivity|]. split; [split; [cbn; lia|]; split; [reflexivity | nodup]|]. split.
  - evaluated.
  - intros e E. reflexivity.
Qed.
Example C24_case :
  well_formed Stub.none Stub.evaluate Stub.value sample_function Stub.m []
  /\ ~ is_class Stub.tables Stub.m []
  /\ Stub.build sample_function false Stub.m []
     = Return (Plain (mk_plain
         [RequiredParameter 50 POSITIONAL_ONLY $"x"; OptionalParameter 100 (Some 5) POSITIONAL_ONLY $"y";
          OptionalParameter 100 None POSITIONAL_ONLY $"z"; OptionalParameter 100 None VARIADIC_POSITIONAL $"args";
          RequiredParameter 100 KEYWORD_ONLY $"u"; OptionalParameter 100 None KEYWORD_ONLY $"v";
          OptionalParameter 100 None VARIADIC_KEYWORD $"kw"] 50)).
Proof. split; [exact sample_well_formed|]. split; [not_class | reflexivity]. Qed.

(** ** C25 *)
Theorem C25_without_slash_partial :
  forall (V : Type) (is_NONE is_Ellipsis : V -> bool) (Any : V) evaluate value_of a m parent,
    posonlyargs a = [] -> legal_arguments a ->
    Forall (evaluates is_NONE value_of (fun e => evaluate e m parent)) (written a) ->
    exists ps, all_parameters is_NONE is_Ellipsis Any evaluate a m parent = Ok ps
      /\ Forall2 (fun w p => follows is_Ellipsis Any value_of (stored_kind (w_kind w)) w p) (written a) ps.
Proof. intros. now apply all_parameters_ok. Qed.
Print Assumptions C25_without_slash_partial.

(** No parameter before '/' ever occurs, for any definition. *)
Theorem C25_before_slash_refuted :
  forall (V : Type) (is_NONE is_Ellipsis : V -> bool) (Any : V) evaluate a m parent ps x,
    legal_arguments a -> all_parameters is_NONE is_Ellipsis Any evaluate a m parent = Ok ps ->
    In x (posonlyargs a) -> ~ exists p, In p ps /\ p_name p = arg_name x.
Proof. exact @posonly_lost. Qed.
Print Assumptions C25_before_slash_refuted.

(** A default before '/' even makes the construction raise. *)
Theorem C25_default_before_slash_refuted :
  forall (V : Type) (is_NONE is_Ellipsis : V -> bool) (Any : V) evaluate a m parent,
    length (args a) < length (defaults a) ->
    is_ok (all_parameters is_NONE is_Ellipsis Any evaluate a m parent) = false.
Proof. exact @posonly_default. Qed.
Print Assumptions C25_default_before_slash_refuted.

(** [def f(x, /, y)] and [def f(x=5, /)] *)
Example C25_case :
  legal_arguments (mk_arguments [Stub.x] [Stub.y] None [] [] None [])
  /\ all_parameters Stub.none Stub.dots 100 Stub.evaluate (mk_arguments [Stub.x] [Stub.y] None [] [] None []) Stub.m []
     = Ok [RequiredParameter 100 POSITIONAL_ONLY $"y"]
  /\ all_parameters Stub.none Stub.dots 100 Stub.evaluate (mk_arguments [Stub.x] [] None [] [] None [Stub.five]) Stub.m []
     = Err AttributeError.
Proof. split; [split; [cbn; lia|]; split; [reflexivity | nodup]|]. split; reflexivity. Qed.

(** ** C26 *)
(** Calls that pass no positional parameter by keyword *)
Theorem C26_stub_calls_partial :
  forall (V : Type) (is_NONE is_Ellipsis : V -> bool) (Any Self TypeSelf : V) evaluate value_of stubs limit fd m parent
         s args kwargs,
    well_formed is_NONE evaluate value_of fd m parent ->
    Forall (other_decorator stubs limit m parent) (fd_decorators fd) ->
    has_kinds stubs m -> ~ is_class stubs m parent ->
    from_function_def is_NONE is_Ellipsis Any Self TypeSelf evaluate stubs limit fd false m parent = Return s ->
    (forall x, In x (Ast.args (fd_args fd)) -> ~ In (arg_name x) (dkeys kwargs)) ->
    all_set s args kwargs = true
    <-> accepts (map written_view (written (fd_args fd))) (length args) (dkeys kwargs).
Proof.
  intros V is_NONE is_Ellipsis Any Self TypeSelf evaluate value_of stubs limit fd m parent s args kwargs
    Hw Hd Hk Hc E Hx.
  destruct (@build_function V is_NONE is_Ellipsis Any Self TypeSelf evaluate value_of stubs limit fd m parent Hw Hd Hk Hc)
    as (ps & Hf & E').
  rewrite E in E'. inversion E'; subst s. cbn [all_set].
  apply (@stub_calls V is_NONE is_Ellipsis Any value_of (fd_args fd)); auto; [apply Hw|].
  intros w e Hin He. destruct Hw as (_ & _ & Hg & _). rewrite Forall_forall in Hg. apply (Hg w Hin). exact He.
Qed.
Print Assumptions C26_stub_calls_partial.

(** [def f(y)] and the call [f(y=1)], which Python accepts *)
Definition keyword_function : function_def :=
  mk_function_def $"f" (mk_arguments [] [Stub.y] None [] [] None []) [] None.
Theorem C26_refuted :
  exists (fd : function_def) s (args : list nat) kwargs,
    well_formed Stub.none Stub.evaluate Stub.value fd Stub.m []
    /\ Stub.build fd false Stub.m [] = Return s
    /\ accepts (map written_view (written (fd_args fd))) (length args) (dkeys kwargs)
    /\ all_set s args kwargs = false /\ expects s args kwargs = false.
Proof.
  exists keyword_function. eexists. exists [], [($"y", 1)]. split.
  { split; [reflexivity|]. split; [split; [cbn; lia|]; split; [reflexivity | nodup]|]. split; [evaluated|].
    intros e E. discriminate E. }
  split; [reflexivity|]. split; [|split; reflexivity].
  split; [left; cbn; lia|]. split.
  - intros kw [<-|[]]. left. exists (mk_view POSITIONAL_OR_KEYWORD true $"y").
    split; [now left|]. split; [now left|]. split; [reflexivity|]. intros [].
  - intros p [<-|[]] _. right. split; [now left | now left].
Qed.
Print Assumptions C26_refuted.
Example C26_case :
  all_set (Plain (mk_plain [RequiredParameter 100 POSITIONAL_ONLY $"y"; OptionalParameter 100 None VARIADIC_KEYWORD $"kw"] 100))
    [7] [($"u", 8)] = true.
Proof. reflexivity. Qed.

(** ** C27 *)
Theorem C27_class_partial :
  forall (V : Type) (is_NONE is_Ellipsis : V -> bool) (Any Self TypeSelf : V) evaluate value_of stubs limit fd m parent,
    well_formed is_NONE evaluate value_of fd m parent -> written (fd_args fd) <> [] ->
    exists w ws ps, written (fd_args fd) = w :: ws
      /\ Forall2 (fun w p => follows is_Ellipsis Any value_of (stored_kind (w_kind w)) w p) ws ps
      /\ from_function_def is_NONE is_Ellipsis Any Self TypeSelf evaluate stubs limit fd true m parent
         = Return (Plain (mk_plain ps (if fd_name fd == $"__init__" then Self else return_value Any value_of fd))).
Proof. exact @build_class. Qed.
Print Assumptions C27_class_partial.

Theorem C27_classmethod_partial :
  forall (V : Type) (is_NONE is_Ellipsis : V -> bool) (Any Self TypeSelf : V) evaluate value_of stubs limit fd m parent
         before d after,
    well_formed is_NONE evaluate value_of fd m parent -> written (fd_args fd) <> [] ->
    fd_decorators fd = before ++ d :: after ->
    Forall (other_decorator stubs limit m parent) before -> denotes stubs limit m parent d the_classmethod ->
    exists w ws ps, written (fd_args fd) = w :: ws
      /\ Forall2 (fun w p => follows is_Ellipsis Any value_of (stored_kind (w_kind w)) w p) ws ps
      /\ from_function_def is_NONE is_Ellipsis Any Self TypeSelf evaluate stubs limit fd false m parent
         = Return (Plain (mk_plain (RequiredParameter TypeSelf POSITIONAL_ONLY (arg_name (w_arg w)) :: ps)
                                   (return_value Any value_of fd))).
Proof. exact @build_classmethod. Qed.
Print Assumptions C27_classmethod_partial.

Theorem C27_method_partial :
  forall (V : Type) (is_NONE is_Ellipsis : V -> bool) (Any Self TypeSelf : V) evaluate value_of stubs limit fd m parent,
    well_formed is_NONE evaluate value_of fd m parent -> written (fd_args fd) <> [] ->
    Forall (other_decorator stubs limit m parent) (fd_decorators fd) -> is_class stubs m parent ->
    exists w ws ps, written (fd_args fd) = w :: ws
      /\ Forall2 (fun w p => follows is_Ellipsis Any value_of (stored_kind (w_kind w)) w p) ws ps
      /\ from_function_def is_NONE is_Ellipsis Any Self TypeSelf evaluate stubs limit fd false m parent
         = Return (Plain (mk_plain (RequiredParameter Self POSITIONAL_ONLY (arg_name (w_arg w)) :: ps)
                                   (return_value Any value_of fd))).
Proof. exact @build_method. Qed.
Print Assumptions C27_method_partial.

(** Module functions keep all parameters: [C24_stub_parameters]. *)
Theorem C27_function :
  forall (V : Type) (is_NONE is_Ellipsis : V -> bool) (Any Self TypeSelf : V) evaluate value_of stubs limit fd m,
    well_formed is_NONE evaluate value_of fd m [] ->
    Forall (other_decorator stubs limit m []) (fd_decorators fd) ->
    has_kinds stubs m -> ~ is_class stubs m [] ->
    exists ps,
      Forall2 (fun w p => follows is_Ellipsis Any value_of (stored_kind (w_kind w)) w p) (written (fd_args fd)) ps
      /\ from_function_def is_NONE is_Ellipsis Any Self TypeSelf evaluate stubs limit fd false m []
         = Return (Plain (mk_plain ps (return_value Any value_of fd))).
Proof. intros. now apply build_function. Qed.
Print Assumptions C27_function.

(** [@staticmethod def s(x: int)] in a class: the parameter is taken for the
    instance; without parameters the construction raises IndexError. *)
Definition static (a : arguments) : function_def := mk_function_def $"s" a [Name $"staticmethod"] None.
Theorem C27_staticmethod_refuted :
  let a := mk_arguments [] [Stub.x] None [] [] None [] in
  denotes Stub.tables 10 Stub.m Stub.K (Name $"staticmethod") ([$"builtins"], [$"staticmethod"])
  /\ well_formed Stub.none Stub.evaluate Stub.value (static a) Stub.m Stub.K
  /\ well_formed Stub.none Stub.evaluate Stub.value (static Stub.no_arguments) Stub.m Stub.K
  /\ Stub.build (static a) false Stub.m Stub.K
     = Return (Plain (mk_plain [RequiredParameter Stub.self POSITIONAL_ONLY $"x"] 100))
  /\ Stub.build (static Stub.no_arguments) false Stub.m Stub.K = Throws IndexError.
Proof.
  cbv zeta. split; [exists [$"staticmethod"]; split; [constructor | reflexivity]|].
  split; [|split; [|split; reflexivity]].
  - split; [reflexivity|]. split; [split; [cbn; lia|]; split; [reflexivity | nodup]|]. split; [evaluated|].
    intros e E. discriminate E.
  - split; [reflexivity|]. split; [split; [cbn; lia|]; split; [reflexivity | nodup]|]. split; [constructor|].
    intros e E. discriminate E.
Qed.
Print Assumptions C27_staticmethod_refuted.

(** [def m( *args)] in a class: the variadic parameter is replaced, so the method
    takes no argument besides the instance; for [__init__] it is deleted. *)
Definition variadic_method (name : pystr) : function_def :=
  mk_function_def name (mk_arguments [] [] (Some (mk_arg $"args" None)) [] [] None []) [] None.
Theorem C27_variadic_refuted :
  Stub.build (variadic_method $"m") false Stub.m Stub.K
  = Return (Plain (mk_plain [RequiredParameter Stub.self POSITIONAL_ONLY $"args"] 100))
  /\ Stub.build (variadic_method $"__init__") true Stub.m Stub.K = Return (Plain (mk_plain [] Stub.self))
  /\ (forall name, accepts (map written_view (written (fd_args (variadic_method name)))) 2 [])
  /\ all_set (Plain (mk_plain [RequiredParameter Stub.self POSITIONAL_ONLY $"args"] 100)) [1; 2] [] = false
  /\ all_set (Plain (mk_plain [] Stub.self)) [1] [] = false.
Proof.
  split; [reflexivity|]. split; [reflexivity|]. split; [|split; reflexivity].
  intros name. split; [right; eexists; split; [now left | reflexivity]|]. split; [intros kw []|].
  intros p [<-|[]] Hp. discriminate Hp.
Qed.
Print Assumptions C27_variadic_refuted.

Definition some_method (name : pystr) (decorators : list expr) : function_def :=
  mk_function_def name (mk_arguments [] [Stub.y; Stub.x] None [] [] None []) decorators None.
Example C27_case :
  is_class Stub.tables Stub.m Stub.K
  /\ Stub.build (some_method $"m" []) false Stub.m Stub.K
     = Return (Plain (mk_plain [RequiredParameter 101 POSITIONAL_ONLY $"y"; RequiredParameter 50 POSITIONAL_ONLY $"x"] 100))
  /\ denotes Stub.tables 10 Stub.m Stub.K (Name $"classmethod") the_classmethod
  /\ Stub.build (some_method $"m" [Name $"classmethod"]) false Stub.m Stub.K
     = Return (Plain (mk_plain [RequiredParameter 102 POSITIONAL_ONLY $"y"; RequiredParameter 50 POSITIONAL_ONLY $"x"] 100))
  /\ Stub.build (some_method $"__init__" []) true Stub.m Stub.K
     = Return (Plain (mk_plain [RequiredParameter 50 POSITIONAL_ONLY $"x"] 101)).
Proof.
  split; [eexists; split; reflexivity|]. split; [reflexivity|].
  split; [exists [$"classmethod"]; split; [constructor | reflexivity]|]. split; reflexivity.
Qed.

(** ** C28 *)
Theorem C28_partial_layers :
  forall V O (H : Eqb O) is_NONE is_Ellipsis (Any Self TypeSelf : V) evaluate stubs limit
         sys_modules getattr qualified_path_from introspect is_type as_value table f calls,
    (forall a k, In (a, k) calls -> ~ In $"self" (dkeys k)) ->
    from_callable is_NONE is_Ellipsis Any Self TypeSelf evaluate stubs limit
      sys_modules getattr qualified_path_from introspect is_type as_value table (@layers V O f calls)
    = bind_all is_NONE
        (from_callable is_NONE is_Ellipsis Any Self TypeSelf evaluate stubs limit
           sys_modules getattr qualified_path_from introspect is_type as_value table f) calls.
Proof.
  intros V O H is_NONE is_Ellipsis Any Self TypeSelf evaluate stubs limit
    sys_modules getattr qpf introspect is_type as_value table f calls.
  revert f. induction calls as [|[a k] r IH]; intros f Hs; [reflexivity|]. cbn [layers bind_all].
  rewrite IH by (intros a' k' Hin; apply (Hs a' k'); now right). f_equal. cbn [from_callable].
  destruct (from_callable _ _ _ _ _ _ _ _ _ _ _ _ _ _ _ f) as [s|e]; [|reflexivity]. cbn [bind_res].
  unfold call_bind, call_method. replace (dmem $"self" k) with false; [reflexivity|].
  symmetry. apply dmem_not_In. apply (Hs a k). now left.
Qed.
Print Assumptions C28_partial_layers.

(** [functools.partial] merges nested partial objects itself; the merged object
    has the same signature (provisos of C13). *)
Theorem C28_partial_merged :
  forall V O (H : Eqb O) is_NONE is_Ellipsis (Any Self TypeSelf : V) evaluate stubs limit
         sys_modules getattr qualified_path_from introspect is_type as_value table f s a1 k1 a2 k2,
    from_callable is_NONE is_Ellipsis Any Self TypeSelf evaluate stubs limit
      sys_modules getattr qualified_path_from introspect is_type as_value table f = Ok s ->
    built is_NONE s -> legal_kwargs k2 ->
    (forall kw, In kw (dkeys k1) -> ~ In kw (dkeys k2)) ->
    ~ In $"self" (dkeys k1) -> ~ In $"self" (dkeys k2) ->
    (forall p, In p (flatten_signature s) -> takes_extra_keywords (sviews p) ->
     ~ names_filled (sviews p) (length a1 + length a2) (dkeys k1 ++ dkeys k2)) ->
    from_callable is_NONE is_Ellipsis Any Self TypeSelf evaluate stubs limit
      sys_modules getattr qualified_path_from introspect is_type as_value table
      (PartialCallable (PartialCallable f a1 k1) a2 k2)
    = from_callable is_NONE is_Ellipsis Any Self TypeSelf evaluate stubs limit
        sys_modules getattr qualified_path_from introspect is_type as_value table
        (@PartialCallable V O f (a1 ++ a2) (merge k1 k2)).
Proof.
  intros V O H is_NONE is_Ellipsis Any Self TypeSelf evaluate stubs limit
    sys_modules getattr qpf introspect is_type as_value table f s a1 k1 a2 k2 Ef Hb Hl Hd H1 H2 Hp.
  assert (Es : forall k : dict pystr V, ~ In $"self" (dkeys k) -> dmem $"self" k = false) by (intros k; apply dmem_not_In).
  cbn [from_callable]. rewrite Ef. cbn [bind_res]. unfold call_bind, call_method.
  rewrite (@dmem_merge V is_NONE), (Es k1 H1), (Es k2 H2). cbn [orb]. now apply C13_two_step_binding.
Qed.
Print Assumptions C28_partial_merged.

(** [partial(g, self=5)] for [def g(self)]: [bind] cannot take the keyword. *)
Theorem C28_self_keyword_refuted :
  exists (raw : raw_signature nat) (s : signature nat),
    let from := @from_callable nat Stub.none Stub.dots 100 101 102 Stub.evaluate Stub.tables 10 nat _
                  [] (fun _ _ => None) (fun _ => ([$"m"], [$"g"])) (fun _ => Ok raw) (fun _ => false) (fun o => o) [] in
    from (FunctionCallable 3) = Ok s
    /\ is_ok (bind Stub.none s [] [($"self", 5)]) = true
    /\ from (PartialCallable (FunctionCallable 3) [] [($"self", 5)]) = Err TypeError.
Proof.
  exists (mk_raw_signature [mk_raw $"self" 1 None None] None). eexists. split; [reflexivity|]. split; reflexivity.
Qed.
Print Assumptions C28_self_keyword_refuted.

Example C28_case :
  let from := @from_callable nat Stub.none Stub.dots 100 101 102 Stub.evaluate Stub.tables 10 nat _
                [] (fun _ _ => None) (fun _ => ([$"m"], [$"g"]))
                (fun _ => Ok (mk_raw_signature [mk_raw $"a" 1 None None; mk_raw $"b" 1 None None] None))
                (fun _ => false) (fun o => o) [] in
  from (layers (FunctionCallable 3) [([7], []); ([], [($"b", 8)])])
  = Ok (Plain (mk_plain [OptionalParameter 100 (Some 8) KEYWORD_ONLY $"b"] 100)).
Proof. reflexivity. Qed.
