(** Model of [annotated.to_repr] (paradigm/_core/annotated.py:124-184) for CPython 3.11, on the
    values of Annotated.v. Tuples and lists are exactly of these types (no named tuples).
    Not modelled: [typing.Annotated] aliases whose arguments are typing forms in disguise
    (their arguments are listed like those of any other alias). *)
From Verif Require Import Base PyText Annotated.

(** Identities used by the code and by typing *)
Definition NONE_TYPE : N := 1.             (* type(None) *)
Definition ELLIPSIS_TYPE : N := 2.
Definition NOT_IMPLEMENTED_TYPE : N := 3.
Definition TYPE_VAR : N := 4.              (* typing.TypeVar *)
Definition NONE : value := PObject 2.
Definition OPTIONAL : value := PObject 3.  (* typing.Optional *)

Section ToRepr.
(** [str.isprintable] *)
Variable printable : N -> bool.
(** [f'{value.__module__}.{value.__qualname__}'] of classes *)
Variable class_text : N -> pystr.
(** [f'{value.__module__}.{value._name}'] of aliases with this origin; [None] if [_name] is [None] *)
Variable alias_text : ident -> option pystr.
(** Python's [repr] of objects compared by identity and of aliases without arguments *)
Variables (object_text : N -> pystr) (bare_alias_text : N -> pystr).
(** Python's [repr] of everything else *)
Variable python_repr : value -> pystr.

(** [repr] *)
Definition default_repr (v : value) : pystr :=
  match v with
  | PString s => repr_str printable s
  | PNumber TInt z => repr_int z
  | PNumber TBool z => if z == 0%Z then $"False" else $"True"
  | PObject i => object_text i
  | PBareAlias i _ => bare_alias_text i
  | _ => python_repr v
  end.

(** [to_repr] of a class (annotated.py:141-150); [to_arguments] of a class is empty *)
Definition class_repr (i : N) : pystr :=
  if i == NONE_TYPE then $"type(None)"
  else if i == ELLIPSIS_TYPE then $"type(Ellipsis)"
  else if i == NOT_IMPLEMENTED_TYPE then $"type(NotImplemented)"
  else class_text i.
(** [to_repr(origin)]: origins are classes or special forms *)
Definition origin_repr (o : ident) : pystr :=
  match o with CId i => class_repr i | OId i => object_text i end.

Definition is_none_type (v : value) : bool :=
  match v with PClass i => i == NONE_TYPE | _ => false end.
Definition is_none (v : value) : bool :=
  match v with PObject i => i == 2%N | _ => false end.
Definition bracketed (head : pystr) (arguments : list pystr) : pystr :=
  head ++ $"[" ++ (if is_nil arguments then $"()" else join $", " arguments) ++ $"]".

Fixpoint to_repr (v : value) : pystr :=
  match v with
  | PSequence TList xs => $"[" ++ join $", " (map to_repr xs) ++ $"]"                   (* 129-131 *)
  | PSequence TTuple xs =>                                                              (* 134-138 *)
      match xs with
      | [x] => $"(" ++ to_repr x ++ $",)"
      | _ => $"(" ++ join $", " (map to_repr xs) ++ $")"
      end
  | PClass i => class_repr i
  | PAlias o args =>                                                                    (* 153-171 *)
      if o == UNION then
        match args with
        | [a; b] =>
            if is_none_type a then bracketed (default_repr OPTIONAL) [to_repr b]
            else if is_none_type b then bracketed (default_repr OPTIONAL) [to_repr a]
            else origin_repr o ++ $"[" ++ join $", " [to_repr a; to_repr b] ++ $"]"
        | _ => origin_repr o ++ $"[" ++ join $", " (map to_repr args) ++ $"]"
        end
      else
        match alias_text o with
        | None => bracketed (origin_repr o) (map to_repr args)
        | Some text => bracketed text (map to_repr args)
        end
  | PTypeVar _ name bound contravariant covariant constraints =>                       (* 174-184 *)
      class_repr TYPE_VAR ++ $"("
      ++ join $", " ([repr_str printable name] ++ map to_repr constraints
                     ++ (if is_none bound then [] else [$"bound=" ++ to_repr bound])
                     ++ (if contravariant then [$"contravariant=True"] else [])
                     ++ (if covariant then [$"covariant=True"] else [])) ++ $")"
  | _ => default_repr v                                                                 (* 124-126 *)
  end.
End ToRepr.
