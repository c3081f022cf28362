(** Model of paradigm/_core/arboreal/conversion.py ([to_path], [to_maybe_path],
    [to_identifier]; [to_str] is in LazyText.v and [to_raw] in RawNodes.v). *)
From Verif Require Import Base PyText PyNumbers Ast.

(** [to_path] (conversion.py:211-223) *)
Fixpoint to_path (e : expr) : res path :=
  match e with
  | Name id => Ok [id]
  | Attribute value attr => let* p := to_path value in Ok (p ++ [attr])
  | _ => Err TypeError
  end.

(** [to_maybe_path] (conversion.py:226-241) *)
Fixpoint to_maybe_path (e : expr) : option path :=
  match e with
  | Name id => Some [id]
  | Attribute value attr =>
      match to_maybe_path value with
      | None => None
      | Some p => Some (p ++ [attr])
      end
  | _ => None
  end.

Section Identifier.
(** [str.isprintable], which [repr] of a string constant depends on *)
Variable printable : N -> bool.

(** [repr(value)] of a constant (conversion.py:57-66) *)
Definition constant_repr (c : constant) : pystr :=
  match c with
  | CNone => $"None"
  | CTrue => $"True"
  | CFalse => $"False"
  | CEllipsis => $"Ellipsis"
  | CInt z => repr_int z
  | CStr s => repr_str printable s
  | CBytes bs => repr_bytes bs
  | CFloat x => repr_float x
  | CImaginary x => repr_imaginary x
  end.

(** conversion.py:69-81; other operators have no case *)
Definition operator_identifier (op : operator) : res pystr :=
  match op with
  | BitAnd => Ok $"bitand"
  | BitOr => Ok $"bitor"
  | BitXor => Ok $"bitxor"
  | OtherOperator => Err TypeError
  end.

(** [to_identifier] (conversion.py:43-110) *)
Fixpoint to_identifier (e : expr) : res pystr :=
  match e with
  | Subscript value slice =>
      let* v := to_identifier value in
      let* s := to_identifier slice in
      Ok (v ++ $"_getitem_" ++ s)
  | Constant c => Ok (constant_repr c)
  | BinOp lhs op rhs =>
      let* l := to_identifier lhs in
      let* o := operator_identifier op in
      let* r := to_identifier rhs in
      Ok (l ++ $"_" ++ o ++ $"_" ++ r)
  | Tuple elts =>
      let* parts := map_m to_identifier elts in
      Ok (join $"_" parts)
  | Name id => Ok id
  | Attribute value attr =>
      let* v := to_identifier value in
      Ok (v ++ $"_" ++ attr)
  | List _ | Dict _ | Call _ _ _ | UnaryOp _ _ | OtherExpr _ => Err TypeError
  end.
End Identifier.
