(** Between stored texts and the nodes that signatures.py and evaluation.py look at:
    [_statement_node_from_raw] (signatures.py:456-459; likewise evaluation.py:344, 361),
    [modules_raw_ast_nodes] (stubs.py:689-696). What code sees of a node are its class and its
    attributes; [see] puts that in the form of Ast.v and Stubs.v, as far as these go.
    Constants that Ast.v does not have, and nodes that contain them, are [Unseen]. *)
From Verif Require Import Base Ast Scoping Stubs RawNodes.
From Verif Require StoredTables.

Inductive seen :=
| SeenConstant (c : literal)
| SeenList (l : list seen)
| SeenExpr (e : expr)
| SeenStmt (s : stmt)
| SeenArg (a : arg)
| SeenArguments (a : arguments)
| SeenKeyword (name : option pystr) (value : expr)
| SeenAlias (a : alias)
| SeenOther (class : pystr)
| Unseen.

Definition seen_string (s : seen) : option pystr :=
  match s with SeenConstant (Known (CStr x)) => Some x | _ => None end.
Definition seen_level (s : seen) : option nat :=
  match s with SeenConstant (Known (CInt z)) => if (0 <=? z)%Z then Some (Z.to_nat z) else None | _ => None end.
Definition seen_expr (s : seen) : option expr := match s with SeenExpr e => Some e | _ => None end.
Definition seen_stmt (s : seen) : option stmt := match s with SeenStmt x => Some x | _ => None end.
Definition seen_arg (s : seen) : option arg := match s with SeenArg a => Some a | _ => None end.
Definition seen_arguments (s : seen) : option arguments := match s with SeenArguments a => Some a | _ => None end.
Definition seen_keyword (s : seen) : option (option pystr * expr) :=
  match s with SeenKeyword n e => Some (n, e) | _ => None end.
Definition seen_alias (s : seen) : option alias := match s with SeenAlias a => Some a | _ => None end.
Definition seen_operator (s : seen) : option operator :=
  match s with
  | SeenOther c => Some (if c == $"BitAnd" then BitAnd else if c == $"BitOr" then BitOr
                         else if c == $"BitXor" then BitXor else OtherOperator)
  | _ => None
  end.
Definition seen_unary (s : seen) : option unary_operator :=
  match s with
  | SeenOther c => Some (if c == $"UAdd" then UAdd else if c == $"USub" then USub else OtherUnary)
  | _ => None
  end.
Fixpoint all_seen {A} (f : seen -> option A) (l : list seen) : option (list A) :=
  match l with
  | [] => Some []
  | s :: r => match f s, all_seen f r with Some a, Some b => Some (a :: b) | _, _ => None end
  end.
Definition seen_list {A} (f : seen -> option A) (s : seen) : option (list A) :=
  match s with SeenList l => all_seen f l | _ => None end.
Definition seen_optional {A} (f : seen -> option A) (s : seen) : option (option A) :=
  match s with SeenConstant (Known CNone) => Some None | _ => option_map Some (f s) end.
(** Expressions and statements directly below, in the order of the fields *)
Definition below {A} (f : seen -> option A) (s : seen) : list A :=
  match s with
  | SeenList l => flat_map (fun s => match f s with Some a => [a] | None => [] end) l
  | _ => match f s with Some a => [a] | None => [] end
  end.

(** Classes of expressions and statements the code has no case for *)
Definition other_expressions : list pystr :=
  [$"BoolOp"; $"NamedExpr"; $"Lambda"; $"IfExp"; $"Set"; $"ListComp"; $"SetComp"; $"DictComp"; $"GeneratorExp";
   $"Await"; $"Yield"; $"YieldFrom"; $"Compare"; $"FormattedValue"; $"JoinedStr"; $"Starred"; $"Slice"; $"comprehension"].
Definition other_statements : list pystr :=
  [$"Return"; $"Delete"; $"AugAssign"; $"For"; $"AsyncFor"; $"While"; $"With"; $"AsyncWith"; $"Match"; $"Raise"; $"Try"; $"TryStar";
   $"Assert"; $"Global"; $"Nonlocal"; $"Expr"; $"Pass"; $"Break"; $"Continue"; $"ExceptHandler"; $"match_case"].

Notation "'get' x <- a ; b" := (match a with Some x => b | None => Unseen end)
  (at level 200, x name, a at level 100, b at level 200).
Section Interpret.
Variables (class : pystr) (attributes : list (pystr * option seen)).
Definition field {A} (f : seen -> option A) (name : pystr) : option A :=
  match dget name attributes with Some (Some s) => f s | _ => None end.
Definition interpret_function (make : function_def -> stmt) : seen :=
  get name <- field seen_string $"name";
  get args <- field seen_arguments $"args";
  get decorators <- field (seen_list seen_expr) $"decorator_list";
  get returns <- field (seen_optional seen_expr) $"returns";
  SeenStmt (make (mk_function_def name args decorators returns)).
Definition interpret : seen :=
  if class == $"Name" then get id <- field seen_string $"id"; SeenExpr (Name id)
  else if class == $"Attribute" then
    get value <- field seen_expr $"value"; get attr <- field seen_string $"attr"; SeenExpr (Attribute value attr)
  else if class == $"Subscript" then
    get value <- field seen_expr $"value"; get slice <- field seen_expr $"slice"; SeenExpr (Subscript value slice)
  else if class == $"Tuple" then get elts <- field (seen_list seen_expr) $"elts"; SeenExpr (Tuple elts)
  else if class == $"List" then get elts <- field (seen_list seen_expr) $"elts"; SeenExpr (List elts)
  else if class == $"Dict" then
    get keys <- field (seen_list (seen_optional seen_expr)) $"keys"; get values <- field (seen_list seen_expr) $"values";
    if Nat.eqb (length keys) (length values) then SeenExpr (Dict (combine keys values)) else Unseen
  else if class == $"Call" then
    get func <- field seen_expr $"func"; get args <- field (seen_list seen_expr) $"args";
    get keywords <- field (seen_list seen_keyword) $"keywords"; SeenExpr (Call func args keywords)
  else if class == $"BinOp" then
    get left <- field seen_expr $"left"; get op <- field seen_operator $"op"; get right <- field seen_expr $"right";
    SeenExpr (BinOp left op right)
  else if class == $"UnaryOp" then
    get op <- field seen_unary $"op"; get operand <- field seen_expr $"operand"; SeenExpr (UnaryOp op operand)
  else if class == $"Constant" then
    get c <- field (fun s => match s with SeenConstant (Known c) => Some c | _ => None end) $"value"; SeenExpr (Constant c)
  else if class == $"keyword" then
    get name <- field (seen_optional seen_string) $"arg"; get value <- field seen_expr $"value"; SeenKeyword name value
  else if class == $"arg" then
    get name <- field seen_string $"arg"; get annotation <- field (seen_optional seen_expr) $"annotation";
    SeenArg (mk_arg name annotation)
  else if class == $"arguments" then
    get posonlyargs <- field (seen_list seen_arg) $"posonlyargs"; get args <- field (seen_list seen_arg) $"args";
    get vararg <- field (seen_optional seen_arg) $"vararg"; get kwonlyargs <- field (seen_list seen_arg) $"kwonlyargs";
    get kw_defaults <- field (seen_list (seen_optional seen_expr)) $"kw_defaults";
    get kwarg <- field (seen_optional seen_arg) $"kwarg"; get defaults <- field (seen_list seen_expr) $"defaults";
    SeenArguments (mk_arguments posonlyargs args vararg kwonlyargs kw_defaults kwarg defaults)
  else if class == $"alias" then
    get name <- field seen_string $"name"; get asname <- field (seen_optional seen_string) $"asname"; SeenAlias (mk_alias name asname)
  else if class == $"AnnAssign" then
    get target <- field seen_expr $"target"; get annotation <- field seen_expr $"annotation";
    get value <- field (seen_optional seen_expr) $"value"; SeenStmt (SAnnAssign target annotation value)
  else if class == $"Assign" then
    get targets <- field (seen_list seen_expr) $"targets"; get value <- field seen_expr $"value"; SeenStmt (SAssign targets value)
  else if class == $"FunctionDef" then interpret_function SFunctionDef
  else if class == $"AsyncFunctionDef" then interpret_function SAsyncFunctionDef
  else if class == $"ClassDef" then
    get name <- field seen_string $"name"; get bases <- field (seen_list seen_expr) $"bases";
    get body <- field (seen_list seen_stmt) $"body"; SeenStmt (SClassDef name bases body)
  else if class == $"If" then
    get test <- field seen_expr $"test"; get body <- field (seen_list seen_stmt) $"body";
    get orelse <- field (seen_list seen_stmt) $"orelse"; SeenStmt (SIf test body orelse)
  else if class == $"Import" then get names <- field (seen_list seen_alias) $"names"; SeenStmt (SImport names)
  else if class == $"ImportFrom" then
    get module <- field (seen_optional seen_string) $"module"; get names <- field (seen_list seen_alias) $"names";
    get level <- field seen_level $"level"; SeenStmt (SImportFrom module names level)
  else
    let all {A} (f : seen -> option A) := flat_map (fun a => match snd a with Some s => below f s | None => [] end) attributes in
    if mem class other_expressions then SeenExpr (OtherExpr (all seen_expr))
    else if mem class other_statements then SeenStmt (SOther (all seen_stmt))
    else SeenOther class.
End Interpret.

Section See.
Variable node_classes : classes.
(** What code sees of a value in a tree; attributes of optional fields that were not set are [None]. *)
Fixpoint see (v : value) : seen :=
  let fix attributes (fields : list (pystr * bool)) (l : list (option value)) {struct l} : list (pystr * option seen) :=
    match fields, l with
    | (name, optional) :: fields, a :: l =>
        (name, match a with
               | Some v => Some (see v)
               | None => if optional : bool then Some (SeenConstant (Known CNone)) else None
               end) :: attributes fields l
    | _, _ => []
    end in
  match v with
  | VConst c => SeenConstant c
  | VList l => SeenList (map see l)
  | VNode class l => interpret class (attributes (fields_of node_classes class) l)
  | VClass _ => Unseen
  end.

(** [_statement_node_from_raw] (signatures.py:456-459) *)
Definition statement_from_raw (fuel : nat) (raw : pystr) : option stmt :=
  match from_raw node_classes fuel raw with Some v => seen_stmt (see v) | None => None end.

Variable printable : N -> bool.
(** What [_parse_stubs_state] returns for the nodes [trees] (stubs.py:689-700) *)
Definition tables_of (st : state) (trees : dict path (dict path (list value))) : StoredTables.tables :=
  StoredTables.mk_tables (db st) (kinds st)
    (map (fun m => (fst m, map (fun o => (fst o, map (to_raw printable node_classes) (snd o))) (snd m))) trees).
End See.
