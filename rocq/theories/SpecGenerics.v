(** Independent descriptions: the type arguments of a subscript in order of
    appearance, and substitution of arguments for parameters. *)
From Verif Require Import Base Ast SpecSignatures.

(** What a subscript [C[...]] lists between the brackets. *)
Inductive listed_items : expr -> list expr -> Prop :=
| items_tuple es : listed_items (Tuple es) es
| items_single e : (forall es, e <> Tuple es) -> listed_items e [e].

(** The innermost arguments of [e], left to right: an argument that is itself a
    subscript stands for its own arguments. *)
Inductive innermost : expr -> list expr -> Prop :=
| innermost_leaf e : (forall v s, e <> Subscript v s) -> innermost e [e]
| innermost_subscript v s items found :
    listed_items s items -> Forall2 innermost items found ->
    innermost (Subscript v s) (concat found).

(** At every nesting level the only argument that may itself be a subscript is
    the first one. *)
Inductive head_nested : expr -> Prop :=
| head_leaf e : (forall v s, e <> Subscript v s) -> head_nested e
| head_subscript v s first rest :
    listed_items s (first :: rest) -> head_nested first ->
    Forall (fun e => forall v s, e <> Subscript v s) rest ->
    head_nested (Subscript v s)
| head_empty v : head_nested (Subscript v (Tuple [])).

(** [instance table e e']: [e'] is [e] with every dotted name that is a parameter
    in [table] replaced by the argument for it, and nothing else changed. *)
Inductive instance (table : dict path expr) : expr -> expr -> Prop :=
| i_parameter e p argument :
    dotted e p -> dget p table = Some argument -> instance table e argument
| i_dotted e p : dotted e p -> dget p table = None -> instance table e e
| i_attribute v v' a :
    (forall p, ~ dotted (Attribute v a) p) -> instance table v v' ->
    instance table (Attribute v a) (Attribute v' a)
| i_subscript v v' s s' :
    instance table v v' -> instance table s s' -> instance table (Subscript v s) (Subscript v' s')
| i_tuple es es' : Forall2 (instance table) es es' -> instance table (Tuple es) (Tuple es')
| i_list es es' : Forall2 (instance table) es es' -> instance table (List es) (List es')
| i_dict items items' :
    Forall2 (fun i i' => (fst i = None /\ fst i' = None \/ exists k k', fst i = Some k /\ fst i' = Some k' /\ instance table k k')
                         /\ instance table (snd i) (snd i')) items items' ->
    instance table (Dict items) (Dict items')
| i_call f f' es es' ks ks' :
    instance table f f' -> Forall2 (instance table) es es' ->
    Forall2 (fun k k' => fst k = fst k' /\ instance table (snd k) (snd k')) ks ks' ->
    instance table (Call f es ks) (Call f' es' ks')
| i_binop l l' o r r' :
    instance table l l' -> instance table r r' -> instance table (BinOp l o r) (BinOp l' o r')
| i_unaryop o e e' : instance table e e' -> instance table (UnaryOp o e) (UnaryOp o e')
| i_constant c : instance table (Constant c) (Constant c)
| i_other es es' : Forall2 (instance table) es es' -> instance table (OtherExpr es) (OtherExpr es').

(** ... for the parts of a function definition *)
Inductive opt_instance (table : dict path expr) : option expr -> option expr -> Prop :=
| oi_none : opt_instance table None None
| oi_some e e' : instance table e e' -> opt_instance table (Some e) (Some e').
Definition arg_instance (table : dict path expr) (a a' : arg) : Prop :=
  arg_name a = arg_name a' /\ opt_instance table (arg_annotation a) (arg_annotation a').
Inductive opt_arg_instance (table : dict path expr) : option arg -> option arg -> Prop :=
| oai_none : opt_arg_instance table None None
| oai_some a a' : arg_instance table a a' -> opt_arg_instance table (Some a) (Some a').
Definition function_instance (table : dict path expr) (f f' : function_def) : Prop :=
  let a := fd_args f in let a' := fd_args f' in
  fd_name f = fd_name f' /\
  Forall2 (arg_instance table) (posonlyargs a) (posonlyargs a') /\
  Forall2 (arg_instance table) (args a) (args a') /\
  opt_arg_instance table (vararg a) (vararg a') /\
  Forall2 (arg_instance table) (kwonlyargs a) (kwonlyargs a') /\
  Forall2 (opt_instance table) (kw_defaults a) (kw_defaults a') /\
  opt_arg_instance table (kwarg a) (kwarg a') /\
  Forall2 (instance table) (defaults a) (defaults a') /\
  Forall2 (instance table) (fd_decorators f) (fd_decorators f') /\
  opt_instance table (fd_returns f) (fd_returns f').

(** Every attribute access in [e] is part of a dotted name. *)
Inductive only_dotted : expr -> Prop :=
| od_dotted e p : dotted e p -> only_dotted e
| od_subscript v s : only_dotted v -> only_dotted s -> only_dotted (Subscript v s)
| od_tuple es : Forall only_dotted es -> only_dotted (Tuple es)
| od_list es : Forall only_dotted es -> only_dotted (List es)
| od_dict items : Forall (fun i => (forall k, fst i = Some k -> only_dotted k) /\ only_dotted (snd i)) items -> only_dotted (Dict items)
| od_call f es ks :
    only_dotted f -> Forall only_dotted es -> Forall (fun k => only_dotted (snd k)) ks ->
    only_dotted (Call f es ks)
| od_binop l o r : only_dotted l -> only_dotted r -> only_dotted (BinOp l o r)
| od_unaryop o e : only_dotted e -> only_dotted (UnaryOp o e)
| od_constant c : only_dotted (Constant c)
| od_other es : Forall only_dotted es -> only_dotted (OtherExpr es).

(** The plainest specialisations: a class named by a single name applied to single
    names. *)
Inductive plain_specialisation : expr -> pystr -> list pystr -> Prop :=
| plain_one v a : plain_specialisation (Subscript (Name v) (Name a)) v [a]
| plain_more v a b rest :
    plain_specialisation (Subscript (Name v) (Tuple (map Name (a :: b :: rest)))) v (a :: b :: rest).
