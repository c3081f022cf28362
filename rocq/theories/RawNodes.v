(** Model of the text form of syntax trees: [to_raw] (arboreal/conversion.py:115-117),
    [from_raw] (arboreal/construction.py:8-23), [_statement_node_from_raw]
    (signatures.py:456-459), with [ast.dump] and the constructors of node classes as in
    CPython 3.9-3.12.

    Simplifications: positions are not written by [ast.dump] and not modelled; interpreter
    limits (digits of integers, depth of nesting) are ignored. *)
From Verif Require Import Base PyText PyExpr.
From Verif Require Ast Conversion.

(** Constants; [Infinity] is the value of a float literal that is too large, [ImaginaryInfinity]
    of an imaginary one. *)
Inductive literal :=
| Known (c : Ast.constant)
| Infinity
| ImaginaryInfinity.

(** The values in syntax trees. A node has one entry per field of its class:
    [None] if the attribute was never set. [VClass] is a class of the [ast] module,
    which does not occur in trees. *)
Inductive value :=
| VConst (c : literal)
| VList (elements : list value)
| VNode (class : pystr) (attributes : list (option value))
| VClass (class : pystr).

(** The classes of the [ast] module: their fields ([_fields]), and whether the class
    has [None] for an attribute that was not set (optional fields have). The
    deprecated class [Ellipsis] is not among them. *)
Definition classes := dict pystr (list (pystr * bool)).

Section Raw.
Variable printable : N -> bool.
Variable node_classes : classes.

Definition fields_of (class : pystr) : list (pystr * bool) :=
  match dget class node_classes with Some fields => fields | None => [] end.

(** ** [ast.dump] *)
Definition is_none (v : value) : bool := match v with VConst (Known Ast.CNone) => true | _ => false end.
Definition repr_literal (c : literal) : pystr :=
  match c with
  | Known c => Conversion.constant_repr printable c
  | Infinity => $"inf"
  | ImaginaryInfinity => $"infj"
  end.
Fixpoint dump (annotate_fields : bool) (v : value) : pystr :=
  let fix arguments (keywords : bool) (fields : list (pystr * bool)) (attributes : list (option value)) {struct attributes} : list pystr :=
    match fields, attributes with
    | (name, optional) :: fields, attribute :: attributes =>
        match attribute with
        | None => arguments true fields attributes
        | Some v =>
            if is_none v && optional then arguments true fields attributes
            else (if keywords then name ++ $"=" ++ dump annotate_fields v else dump annotate_fields v)
                 :: arguments keywords fields attributes
        end
    | _, _ => []
    end in
  match v with
  | VConst c => repr_literal c
  | VList elements => $"[" ++ join $", " (map (dump annotate_fields) elements) ++ $"]"
  | VNode class attributes =>
      class ++ $"(" ++ join $", " (arguments annotate_fields (fields_of class) attributes) ++ $")"
  | VClass class => $"<class 'ast." ++ class ++ $"'>"
  end.

(** [to_raw] *)
Definition to_raw (node : value) : pystr := dump false node.

(** ** [eval] *)
(** [_AST_NAMESPACE] (construction.py:8-9): the classes of the module but for
    [Ellipsis]; of the builtins only [Ellipsis] matters. *)
Definition namespace : list pystr := filter (fun n => negb (n == $"Ellipsis")) ($"Ellipsis" :: dkeys node_classes).
Definition name_value (n : pystr) : option value :=
  if n == $"None" then Some (VConst (Known Ast.CNone))
  else if n == $"True" then Some (VConst (Known Ast.CTrue))
  else if n == $"False" then Some (VConst (Known Ast.CFalse))
  else if mem n namespace then Some (VClass n)
  else if n == $"Ellipsis" then Some (VConst (Known Ast.CEllipsis))
  else None.

(** [cls( *args, **kwargs)]: positional arguments set the fields in order, keywords the
    fields of that name; [None]: TypeError. (Keywords that are no fields are
    accepted by Python, not here.) *)
Fixpoint keyword (name : pystr) (args : list (option pystr * value)) : option value :=
  match args with
  | [] => None
  | (Some n, v) :: r => if n == name then Some v else keyword name r
  | (None, _) :: r => keyword name r
  end.
Definition keyword_names (args : list (option pystr * value)) : list pystr :=
  flat_map (fun a => match fst a with Some n => [n] | None => [] end) args.
Fixpoint distinct_names (l : list pystr) : bool :=
  match l with
  | [] => true
  | x :: r => negb (mem x r) && distinct_names r
  end.
Fixpoint construct (fields : list (pystr * bool)) (args : list (option pystr * value)) : option (list (option value)) :=
  match args, fields with
  | (None, v) :: args, _ :: fields => option_map (cons (Some v)) (construct fields args)
  | (None, _) :: _, [] => None
  | _, _ =>
      if forallb (fun a => match fst a with Some n => mem n (map fst fields) | None => false end) args
         && distinct_names (keyword_names args)
      then Some (map (fun f => keyword (fst f) args) fields)
      else None
  end.
Fixpoint eval_node (e : expr) : option value :=
  let fix all (es : list expr) : option (list value) :=
    match es with
    | [] => Some []
    | e :: r => match eval_node e, all r with Some v, Some vs => Some (v :: vs) | _, _ => None end
    end in
  let fix all_arguments (es : list (option pystr * expr)) : option (list (option pystr * value)) :=
    match es with
    | [] => Some []
    | (k, e) :: r => match eval_node e, all_arguments r with Some v, Some vs => Some ((k, v) :: vs) | _, _ => None end
    end in
  match e with
  | EName n => name_value n
  | EString s => Some (VConst (Known (Ast.CStr s)))
  | EInt z => Some (VConst (Known (Ast.CInt z)))
  | EFloat x => Some (VConst (Known (Ast.CFloat x)))
  | EImaginary x => Some (VConst (Known (Ast.CImaginary x)))
  | EBytes bs => Some (VConst (Known (Ast.CBytes bs)))
  | EList es => option_map VList (all es)
  | ECall (EName class) args =>
      match name_value class, all_arguments args with
      | Some (VClass class), Some args =>
          option_map (VNode class) (construct (fields_of class) args)
      | _, _ => None
      end
  | _ => None
  end.

(** [from_raw]; [None]: an exception (SyntaxError, NameError, TypeError,
    AssertionError). [fuel] as in [read]. *)
Definition from_raw (fuel : nat) (raw : pystr) : option value :=
  match read fuel raw with
  | Some (e, []) =>
      match eval_node e with
      | Some (VNode class attributes) => Some (VNode class attributes)
      | _ => None
      end
  | _ => None
  end.
End Raw.
