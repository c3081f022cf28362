(** Syntax trees of stubs as far as the modelled code looks at them (the [ast]
    module of Python 3.9+, where a subscript's index is the expression itself).

    Simplifications: positions are dropped; contexts are implicit (expressions are
    loaded, assignment targets are separate); comprehensions, comparisons and all
    other expressions the code has no case for are [OtherExpr] with their child
    expressions. *)
From Verif Require Import Base PyNumbers.

Inductive constant :=
| CNone | CTrue | CFalse | CEllipsis
| CInt (z : Z)
| CStr (s : pystr)
| CBytes (bs : pystr)
| CFloat (x : decimal)        (* literals have no sign *)
| CImaginary (x : decimal).

Inductive operator := BitAnd | BitOr | BitXor | OtherOperator.
Inductive unary_operator := UAdd | USub | OtherUnary.

Inductive expr :=
| Name (id : pystr)
| Attribute (value : expr) (attr : pystr)
| Subscript (value slice : expr)
| Tuple (elts : list expr)
| List (elts : list expr)
| Dict (items : list (option expr * expr))     (* keys and values; no key: **value *)
| Call (func : expr) (args : list expr) (keywords : list (option pystr * expr))
| BinOp (left : expr) (op : operator) (right : expr)
| UnaryOp (op : unary_operator) (operand : expr)
| Constant (c : constant)
| OtherExpr (children : list expr).

(** [ast.arg] and [ast.arguments] *)
Record arg := mk_arg { arg_name : pystr; arg_annotation : option expr }.
Record arguments := mk_arguments {
  posonlyargs : list arg;
  args : list arg;
  vararg : option arg;
  kwonlyargs : list arg;
  kw_defaults : list (option expr);
  kwarg : option arg;
  defaults : list expr
}.

(** [ast.FunctionDef], [ast.AsyncFunctionDef] *)
Record function_def := mk_function_def {
  fd_name : pystr;
  fd_args : arguments;
  fd_decorators : list expr;
  fd_returns : option expr
}.

Section Induction.
Variable P : expr -> Prop.
Hypotheses
  (HName : forall id, P (Name id))
  (HAttribute : forall v a, P v -> P (Attribute v a))
  (HSubscript : forall v s, P v -> P s -> P (Subscript v s))
  (HTuple : forall es, Forall P es -> P (Tuple es))
  (HList : forall es, Forall P es -> P (List es))
  (HDict : forall items, Forall (fun i => (forall k, fst i = Some k -> P k) /\ P (snd i)) items -> P (Dict items))
  (HCall : forall f es ks, P f -> Forall P es -> Forall (fun k => P (snd k)) ks -> P (Call f es ks))
  (HBinOp : forall l o r, P l -> P r -> P (BinOp l o r))
  (HUnaryOp : forall o e, P e -> P (UnaryOp o e))
  (HConstant : forall c, P (Constant c))
  (HOther : forall es, Forall P es -> P (OtherExpr es)).
Fixpoint expr_ind' (e : expr) : P e :=
  let all := fix all es : Forall P es :=
    match es with [] => Forall_nil P | x :: r => Forall_cons x (expr_ind' x) (all r) end in
  match e with
  | Name id => HName id
  | Attribute v a => HAttribute v a (expr_ind' v)
  | Subscript v s => HSubscript v s (expr_ind' v) (expr_ind' s)
  | Tuple es => HTuple es (all es)
  | List es => HList es (all es)
  | Dict items =>
      HDict items
        ((fix alls items : Forall (fun i => (forall k, fst i = Some k -> P k) /\ P (snd i)) items :=
            match items with
            | [] => Forall_nil _
            | (key, value) :: r =>
                Forall_cons (key, value)
                  (conj (match key return forall k, key = Some k -> P k with
                         | Some k' => fun k E => match E in _ = o return match o with Some k => P k | None => True end with eq_refl => expr_ind' k' end
                         | None => fun k E => match E in _ = o return match o with Some _ => P k | None => True end with eq_refl => I end
                         end) (expr_ind' value)) (alls r)
            end) items)
  | Call f es ks =>
      HCall f es ks (expr_ind' f) (all es)
        ((fix alls ks : Forall (fun k => P (snd k)) ks :=
            match ks with
            | [] => Forall_nil _
            | k :: r => Forall_cons k (expr_ind' (snd k)) (alls r)
            end) ks)
  | BinOp l o r => HBinOp l o r (expr_ind' l) (expr_ind' r)
  | UnaryOp o e => HUnaryOp o e (expr_ind' e)
  | Constant c => HConstant c
  | OtherExpr es => HOther es (all es)
  end.
End Induction.
