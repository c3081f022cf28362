(** Specification only: which syntax trees there are, and when two are the same to
    code that looks at their attributes. *)
From Verif Require Import Base PyText PyNumbers PyExpr RawNodes.
From Verif Require Ast.

(** What any version's [ast] module satisfies: names of classes and fields are
    identifiers, fields of a class are distinct, keywords and [Ellipsis] are not
    classes. *)
Definition proper_classes (node_classes : classes) : Prop :=
  forall class fields, dget class node_classes = Some fields ->
    is_identifier class = true /\ ~ In class [$"None"; $"True"; $"False"; $"Ellipsis"]
    /\ NoDup (map fst fields) /\ forall name optional, In (name, optional) fields -> is_identifier name = true.

(** Constants: code points, bytes, finite floats *)
Definition proper_constant (c : Ast.constant) : Prop :=
  match c with
  | Ast.CStr s => valid_str s
  | Ast.CBytes bs => valid_bytes bs
  | Ast.CFloat x | Ast.CImaginary x => proper_decimal x
  | _ => True
  end.
(** Trees: constants but for infinite numbers, and nodes of known classes *)
Inductive tree (node_classes : classes) : value -> Prop :=
| t_constant c : proper_constant c -> tree node_classes (VConst (Known c))
| t_list l : (forall v, In v l -> tree node_classes v) -> tree node_classes (VList l)
| t_node class fields attributes :
    dget class node_classes = Some fields -> length attributes = length fields ->
    (forall v, In (Some v) attributes -> tree node_classes v) ->
    tree node_classes (VNode class attributes).

(** What [getattr] finds: [None] is AttributeError. *)
Definition attribute (optional : bool) (a : option value) : option value :=
  match a with
  | Some v => Some v
  | None => if optional then Some (VConst (Known Ast.CNone)) else None
  end.
Inductive same (node_classes : classes) : value -> value -> Prop :=
| s_constant c : same node_classes (VConst c) (VConst c)
| s_list l l' : Forall2 (same node_classes) l l' -> same node_classes (VList l) (VList l')
| s_node class fields l l' :
    dget class node_classes = Some fields -> same_attributes node_classes fields l l' ->
    same node_classes (VNode class l) (VNode class l')
with same_attributes (node_classes : classes) : list (pystr * bool) -> list (option value) -> list (option value) -> Prop :=
| sa_nil : same_attributes node_classes [] [] []
| sa_neither name optional a a' fields l l' :
    attribute optional a = None -> attribute optional a' = None ->
    same_attributes node_classes fields l l' ->
    same_attributes node_classes ((name, optional) :: fields) (a :: l) (a' :: l')
| sa_both name optional a a' v v' fields l l' :
    attribute optional a = Some v -> attribute optional a' = Some v' -> same node_classes v v' ->
    same_attributes node_classes fields l l' ->
    same_attributes node_classes ((name, optional) :: fields) (a :: l) (a' :: l').
