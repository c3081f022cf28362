(** Specification only: which nodes of the [ast] module stand for which expressions and
    statements, by the attributes that [getattr] finds (the grammar of [ast], Python 3.9+). *)
From Verif Require Import Base Ast Stubs RawNodes SpecRaw.

(** The names (as strings) and constants in expressions and statements *)
Definition name_texts (n : option pystr) : list constant := match n with Some n => [CStr n] | None => [] end.
Fixpoint expr_texts (e : expr) : list constant :=
  match e with
  | Name n => [CStr n]
  | Attribute e n => expr_texts e ++ [CStr n]
  | Subscript e i => expr_texts e ++ expr_texts i
  | Tuple es | List es | OtherExpr es => flat_map expr_texts es
  | Dict items => flat_map (fun i => match fst i with Some k => expr_texts k | None => [] end ++ expr_texts (snd i)) items
  | Call f es ks => expr_texts f ++ flat_map expr_texts es ++ flat_map (fun k => name_texts (fst k) ++ expr_texts (snd k)) ks
  | BinOp e _ e' => expr_texts e ++ expr_texts e'
  | UnaryOp _ e => expr_texts e
  | Constant c => [c]
  end.
Definition optional_texts {A} (f : A -> list constant) (a : option A) : list constant := match a with Some a => f a | None => [] end.
Definition arg_texts (a : arg) : list constant := CStr (arg_name a) :: optional_texts expr_texts (arg_annotation a).
Definition arguments_texts (a : arguments) : list constant :=
  flat_map arg_texts (posonlyargs a) ++ flat_map arg_texts (args a) ++ optional_texts arg_texts (vararg a)
  ++ flat_map arg_texts (kwonlyargs a) ++ flat_map (optional_texts expr_texts) (kw_defaults a) ++ optional_texts arg_texts (kwarg a)
  ++ flat_map expr_texts (defaults a).
Definition function_texts (f : function_def) : list constant :=
  CStr (fd_name f) :: arguments_texts (fd_args f) ++ flat_map expr_texts (fd_decorators f) ++ optional_texts expr_texts (fd_returns f).
Definition alias_texts (a : alias) : list constant := CStr (alias_name a) :: name_texts (alias_asname a).
Fixpoint stmt_texts (s : stmt) : list constant :=
  match s with
  | SAnnAssign t a x => expr_texts t ++ expr_texts a ++ optional_texts expr_texts x
  | SAssign ts x => flat_map expr_texts ts ++ expr_texts x
  | SFunctionDef f | SAsyncFunctionDef f => function_texts f
  | SClassDef n bases body => CStr n :: flat_map expr_texts bases ++ flat_map stmt_texts body
  | SIf t body orelse => expr_texts t ++ flat_map stmt_texts body ++ flat_map stmt_texts orelse
  | SImport names => flat_map alias_texts names
  | SImportFrom module names _ => name_texts module ++ flat_map alias_texts names
  | SOther body => flat_map stmt_texts body
  end.

Section Nodes.
Variable node_classes : classes.
Fixpoint attribute_in (fields : list (pystr * bool)) (l : list (option value)) (name : pystr) : option value :=
  match fields, l with
  | (n, optional) :: fields, a :: l => if n == name then attribute optional a else attribute_in fields l name
  | _, _ => None
  end.
(** [v] is an instance of [class]; its attribute [name] is [w]. *)
Definition is_a (class : pystr) (v : value) : Prop := exists l, v = VNode class l.
Definition has (v : value) (name : pystr) (w : value) : Prop :=
  match v with VNode class l => attribute_in (fields_of node_classes class) l name = Some w | _ => False end.
Definition text (s : pystr) : value := VConst (Known (CStr s)).
Definition none : value := VConst (Known CNone).

Inductive is_operator : value -> operator -> Prop :=
| io_and l : is_operator (VNode $"BitAnd" l) BitAnd
| io_or l : is_operator (VNode $"BitOr" l) BitOr
| io_xor l : is_operator (VNode $"BitXor" l) BitXor
| io_other class l : In class [$"Add"; $"Sub"; $"Mult"; $"MatMult"; $"Div"; $"Mod"; $"Pow"; $"LShift"; $"RShift"; $"FloorDiv"] ->
    is_operator (VNode class l) OtherOperator.
Inductive is_unary : value -> unary_operator -> Prop :=
| iu_plus l : is_unary (VNode $"UAdd" l) UAdd
| iu_minus l : is_unary (VNode $"USub" l) USub
| iu_other class l : In class [$"Invert"; $"Not"] -> is_unary (VNode class l) OtherUnary.

(** The other classes of expressions, of which only the expressions in them matter, and
    all classes of expressions. ([comprehension] is a part of expressions.) *)
Definition further_expressions : list pystr :=
  [$"BoolOp"; $"NamedExpr"; $"Lambda"; $"IfExp"; $"Set"; $"ListComp"; $"SetComp"; $"DictComp"; $"GeneratorExp";
   $"Await"; $"Yield"; $"YieldFrom"; $"Compare"; $"FormattedValue"; $"JoinedStr"; $"Starred"; $"Slice"; $"comprehension"].
Definition expressions : list pystr :=
  [$"Name"; $"Attribute"; $"Subscript"; $"Tuple"; $"List"; $"Dict"; $"Call"; $"BinOp"; $"UnaryOp"; $"Constant"] ++ further_expressions.
Inductive no_expression : value -> Prop :=
| ne_constant c : no_expression (VConst c)
| ne_node class l : ~ In class expressions -> no_expression (VNode class l).

Inductive is_expr : value -> expr -> Prop :=
| ie_name v id : is_a $"Name" v -> has v $"id" (text id) -> is_expr v (Name id)
| ie_attribute v x e name : is_a $"Attribute" v -> has v $"value" x -> is_expr x e -> has v $"attr" (text name) ->
    is_expr v (Attribute e name)
| ie_subscript v x e y i : is_a $"Subscript" v -> has v $"value" x -> is_expr x e -> has v $"slice" y -> is_expr y i ->
    is_expr v (Subscript e i)
| ie_tuple v l es : is_a $"Tuple" v -> has v $"elts" (VList l) -> are_exprs l es -> is_expr v (Tuple es)
| ie_list v l es : is_a $"List" v -> has v $"elts" (VList l) -> are_exprs l es -> is_expr v (List es)
| ie_dict v l l' items : is_a $"Dict" v -> has v $"keys" (VList l) -> has v $"values" (VList l') -> are_items l l' items -> is_expr v (Dict items)
| ie_call v x f l es l' ks : is_a $"Call" v -> has v $"func" x -> is_expr x f -> has v $"args" (VList l) -> are_exprs l es ->
    has v $"keywords" (VList l') -> are_keywords l' ks -> is_expr v (Call f es ks)
| ie_binary v x e o op y e' : is_a $"BinOp" v -> has v $"left" x -> is_expr x e -> has v $"op" o -> is_operator o op ->
    has v $"right" y -> is_expr y e' -> is_expr v (BinOp e op e')
| ie_unary v o op x e : is_a $"UnaryOp" v -> has v $"op" o -> is_unary o op -> has v $"operand" x -> is_expr x e ->
    is_expr v (UnaryOp op e)
| ie_constant v c : is_a $"Constant" v -> has v $"value" (VConst (Known c)) -> is_expr v (Constant c)
| ie_other class l es : In class further_expressions -> expressions_in (fields_of node_classes class) l es ->
    is_expr (VNode class l) (OtherExpr es)
with are_exprs : list value -> list expr -> Prop :=
| ae_nil : are_exprs [] []
| ae_cons v e l es : is_expr v e -> are_exprs l es -> are_exprs (v :: l) (e :: es)
with are_items : list value -> list value -> list (option expr * expr) -> Prop :=
| ai_nil : are_items [] [] []
| ai_cons k e v e' l l' items : is_expr k e -> is_expr v e' -> are_items l l' items -> are_items (k :: l) (v :: l') ((Some e, e') :: items)
| ai_unpacked v e l l' items : is_expr v e -> are_items l l' items -> are_items (none :: l) (v :: l') ((None, e) :: items)
with are_keywords : list value -> list (option pystr * expr) -> Prop :=
| ak_nil : are_keywords [] []
| ak_cons v n x e l ks : is_a $"keyword" v -> has v $"arg" (match n with Some n => text n | None => none end) ->
    has v $"value" x -> is_expr x e -> are_keywords l ks -> are_keywords (v :: l) ((n, e) :: ks)
(** The expressions in a node, field by field *)
with expressions_in : list (pystr * bool) -> list (option value) -> list expr -> Prop :=
| ei_nil : expressions_in [] [] []
| ei_unset f fields l es : expressions_in fields l es -> expressions_in (f :: fields) (None :: l) es
| ei_one f v e fields l es : is_expr v e -> expressions_in fields l es -> expressions_in (f :: fields) (Some v :: l) (e :: es)
| ei_none f v fields l es : no_expression v -> expressions_in fields l es -> expressions_in (f :: fields) (Some v :: l) es
| ei_many f vs es' fields l es : expressions_of vs es' -> expressions_in fields l es ->
    expressions_in (f :: fields) (Some (VList vs) :: l) (es' ++ es)
with expressions_of : list value -> list expr -> Prop :=
| eo_nil : expressions_of [] []
| eo_one v e l es : is_expr v e -> expressions_of l es -> expressions_of (v :: l) (e :: es)
| eo_none v l es : no_expression v -> expressions_of l es -> expressions_of (v :: l) es.

Definition is_optional {A} (P : value -> A -> Prop) (v : value) (a : option A) : Prop :=
  match a with Some a => P v a | None => v = none end.
Definition is_arg (v : value) (a : arg) : Prop :=
  is_a $"arg" v /\ has v $"arg" (text (arg_name a))
  /\ exists x, has v $"annotation" x /\ is_optional is_expr x (arg_annotation a).
Definition has_list {A} (P : value -> A -> Prop) (v : value) (name : pystr) (l : list A) : Prop :=
  exists vs, has v name (VList vs) /\ Forall2 P vs l.
Definition has_one {A} (P : value -> A -> Prop) (v : value) (name : pystr) (a : A) : Prop := exists x, has v name x /\ P x a.
Definition is_arguments (v : value) (a : arguments) : Prop :=
  is_a $"arguments" v /\ has_list is_arg v $"posonlyargs" (posonlyargs a) /\ has_list is_arg v $"args" (args a)
  /\ has_one (is_optional is_arg) v $"vararg" (vararg a) /\ has_list is_arg v $"kwonlyargs" (kwonlyargs a)
  /\ has_list (is_optional is_expr) v $"kw_defaults" (kw_defaults a)
  /\ has_one (is_optional is_arg) v $"kwarg" (kwarg a) /\ has_list is_expr v $"defaults" (defaults a).
Definition is_function (v : value) (f : function_def) : Prop :=
  has v $"name" (text (fd_name f)) /\ has_one is_arguments v $"args" (fd_args f)
  /\ has_list is_expr v $"decorator_list" (fd_decorators f) /\ has_one (is_optional is_expr) v $"returns" (fd_returns f).
Definition is_alias (v : value) (a : alias) : Prop :=
  is_a $"alias" v /\ has v $"name" (text (alias_name a))
  /\ has_one (is_optional (fun x s => x = text s)) v $"asname" (alias_asname a).

(** Likewise for statements ([ExceptHandler] and [match_case] are parts of statements) *)
Definition further_statements : list pystr :=
  [$"Return"; $"Delete"; $"AugAssign"; $"For"; $"AsyncFor"; $"While"; $"With"; $"AsyncWith"; $"Match"; $"Raise"; $"Try"; $"TryStar";
   $"Assert"; $"Global"; $"Nonlocal"; $"Expr"; $"Pass"; $"Break"; $"Continue"; $"ExceptHandler"; $"match_case"].
Definition statements : list pystr :=
  [$"AnnAssign"; $"Assign"; $"FunctionDef"; $"AsyncFunctionDef"; $"ClassDef"; $"If"; $"Import"; $"ImportFrom"] ++ further_statements.
Inductive no_statement : value -> Prop :=
| ns_constant c : no_statement (VConst c)
| ns_node class l : ~ In class statements -> no_statement (VNode class l).
Inductive is_stmt : value -> stmt -> Prop :=
| is_annotated v t a x : is_a $"AnnAssign" v -> has_one is_expr v $"target" t -> has_one is_expr v $"annotation" a ->
    has_one (is_optional is_expr) v $"value" x -> is_stmt v (SAnnAssign t a x)
| is_assign v ts x : is_a $"Assign" v -> has_list is_expr v $"targets" ts -> has_one is_expr v $"value" x -> is_stmt v (SAssign ts x)
| is_def v f : is_a $"FunctionDef" v -> is_function v f -> is_stmt v (SFunctionDef f)
| is_async_def v f : is_a $"AsyncFunctionDef" v -> is_function v f -> is_stmt v (SAsyncFunctionDef f)
| is_class v n bases l body : is_a $"ClassDef" v -> has v $"name" (text n) -> has_list is_expr v $"bases" bases ->
    has v $"body" (VList l) -> are_stmts l body -> is_stmt v (SClassDef n bases body)
| is_if v t l body l' orelse : is_a $"If" v -> has_one is_expr v $"test" t -> has v $"body" (VList l) -> are_stmts l body ->
    has v $"orelse" (VList l') -> are_stmts l' orelse -> is_stmt v (SIf t body orelse)
| is_import v names : is_a $"Import" v -> has_list is_alias v $"names" names -> is_stmt v (SImport names)
| is_import_from v module names level : is_a $"ImportFrom" v -> has_one (is_optional (fun x s => x = text s)) v $"module" module ->
    has_list is_alias v $"names" names -> has v $"level" (VConst (Known (CInt (Z.of_nat level)))) ->
    is_stmt v (SImportFrom module names level)
| is_other class l body : In class further_statements -> statements_in (fields_of node_classes class) l body ->
    is_stmt (VNode class l) (SOther body)
with are_stmts : list value -> list stmt -> Prop :=
| as_nil : are_stmts [] []
| as_cons v s l body : is_stmt v s -> are_stmts l body -> are_stmts (v :: l) (s :: body)
with statements_in : list (pystr * bool) -> list (option value) -> list stmt -> Prop :=
| si_nil : statements_in [] [] []
| si_unset f fields l body : statements_in fields l body -> statements_in (f :: fields) (None :: l) body
| si_one f v s fields l body : is_stmt v s -> statements_in fields l body -> statements_in (f :: fields) (Some v :: l) (s :: body)
| si_none f v fields l body : no_statement v -> statements_in fields l body -> statements_in (f :: fields) (Some v :: l) body
| si_many f vs body' fields l body : statements_of vs body' -> statements_in fields l body ->
    statements_in (f :: fields) (Some (VList vs) :: l) (body' ++ body)
with statements_of : list value -> list stmt -> Prop :=
| so_nil : statements_of [] []
| so_one v s l body : is_stmt v s -> statements_of l body -> statements_of (v :: l) (s :: body)
| so_none v l body : no_statement v -> statements_of l body -> statements_of (v :: l) body.
End Nodes.
