(** Model of [to_str] (paradigm/_core/arboreal/conversion.py:118-205) and of
    [_LazyEvaluator] (paradigm/_core/arboreal/evaluation.py:135-160): annotations of a
    function are replaced by their texts before the function is executed.

    Simplifications: the branch for Python 3.10 and later of [to_str] for binary
    operators; [str] of integers with more than 4300 digits, which fails, is not
    told apart; constants are those of [Ast.v]; bodies of functions and type comments
    are dropped as in [Ast.v]. *)
From Verif Require Import Base PyText PyNumbers Ast.

(** [str(value)] of a constant (conversion.py:158-160) *)
Definition constant_str (c : constant) : pystr :=
  match c with
  | CNone => $"None"
  | CTrue => $"True"
  | CFalse => $"False"
  | CEllipsis => $"Ellipsis"
  | CInt z => repr_int z
  | CStr s => s
  | CBytes bs => repr_bytes bs
  | CFloat x => repr_float x
  | CImaginary x => repr_imaginary x
  end.
(** conversion.py:128-140; other operators have no case *)
Definition operator_str (op : operator) : res pystr :=
  match op with
  | BitOr => Ok $"|"
  | BitAnd => Ok $"&"
  | BitXor => Ok $"^"
  | OtherOperator => Err TypeError
  end.
(** conversion.py:143-150 *)
Definition unary_str (op : unary_operator) : res pystr :=
  match op with
  | UAdd => Ok $"+"
  | USub => Ok $"-"
  | OtherUnary => Err TypeError
  end.

(** conversion.py:118-205 *)
Fixpoint to_str (e : expr) : res pystr :=
  match e with
  | Name id => Ok id
  | UnaryOp op operand =>                                              (* 153-155 *)
      let* o := unary_str op in
      let* x := to_str operand in
      Ok (o ++ $"(" ++ x ++ $")")
  | Constant c => Ok (constant_str c)
  | Attribute value attr =>                                            (* 163-165 *)
      let* v := to_str value in
      Ok (v ++ $"." ++ attr)
  | Subscript value slice =>                                           (* 168-171 *)
      let* v := to_str value in
      let* s := to_str slice in
      Ok (v ++ $"[" ++ s ++ $"]")
  | Tuple elts =>                                                      (* 174-180 *)
      let* xs := map_m to_str elts in
      Ok (match xs with
          | [x] => $"(" ++ x ++ $",)"
          | _ => $"(" ++ join $", " xs ++ $")"
          end)
  | List elts =>                                                       (* 183-187 *)
      let* xs := map_m to_str elts in
      Ok ($"[" ++ join $", " xs ++ $"]")
  | BinOp lhs op rhs =>                                                (* 200-205 *)
      let* l := to_str lhs in
      let* r := to_str rhs in
      let* o := operator_str op in
      Ok (l ++ $" " ++ o ++ $" " ++ r)
  | Dict _ | Call _ _ _ | OtherExpr _ => Err TypeError
  end.

(** evaluation.py:150-155 *)
Definition lazy_annotation (annotation : option expr) : res (option expr) :=
  match annotation with
  | None => Ok None
  | Some e => let* text := to_str e in Ok (Some (Constant (CStr text)))
  end.
Definition lazy_arg (a : arg) : res arg :=
  let* annotation := lazy_annotation (arg_annotation a) in
  Ok (mk_arg (arg_name a) annotation).
Definition lazy_opt_arg (a : option arg) : res (option arg) :=
  match a with
  | None => Ok None
  | Some a => let* a := lazy_arg a in Ok (Some a)
  end.
(** [generic_visit] of [ast.arguments], in the order of its fields; expressions
    (defaults) contain no [arg] (lambdas are [OtherExpr]) *)
Definition lazy_arguments (a : arguments) : res arguments :=
  let* po := map_m lazy_arg (posonlyargs a) in
  let* ar := map_m lazy_arg (args a) in
  let* va := lazy_opt_arg (vararg a) in
  let* ko := map_m lazy_arg (kwonlyargs a) in
  let* kw := lazy_opt_arg (kwarg a) in
  Ok (mk_arguments po ar va ko (kw_defaults a) kw (defaults a)).
(** evaluation.py:136-148 *)
Definition lazy_function (f : function_def) : res function_def :=
  let* returns := lazy_annotation (fd_returns f) in
  let* a := lazy_arguments (fd_args f) in
  Ok (mk_function_def (fd_name f) a (fd_decorators f) returns).
