(** Model of paradigm/_core/catalog.py.

    The run-time objects [qualified_path_from] dispatches on are the constructors
    of [value]; each carries exactly the attributes the code reads. CPython only
    (the [_decorate_if] conditions of catalog.py:31-32, 58-69 on "pypy" are
    resolved that way). [assert isinstance(value, str)] (catalog.py:14) is a type. *)
From Verif Require Import Base.

(** [value.split(c)] for a one-character separator: scans left to right with the
    part read so far; the result is never empty. *)
Fixpoint split_from (c : N) (part : pystr) (s : pystr) : list pystr :=
  match s with
  | [] => [part]
  | x :: r => if N.eqb x c then part :: split_from c [] r else split_from c (part ++ [x]) r
  end.
Definition split_on (c : N) (s : pystr) : list pystr := split_from c [] s.

(** [SEPARATOR] (catalog.py:10) *)
Definition dot : N := 46.

(** [path_from_string] (catalog.py:13-15) *)
Definition path_from_string (value : pystr) : path := split_on dot value.
(** [path_to_parent] (catalog.py:18-19) *)
Definition path_to_parent (value : path) : path := removelast value.
(** [path_to_string] (catalog.py:22-23) *)
Definition path_to_string (value : path) : pystr := join [dot] value.

(** [__name__] and [__spec__.name] of a module *)
Record module_object := mk_module { module_name : pystr; module_spec : option pystr }.
(** [__module__] and [__qualname__] of a class *)
Record type_object := mk_type { type_module : pystr; type_qualname : pystr }.

(** [__self__] of a built-in function *)
Inductive owner :=
| OwnerType (t : type_object)
| OwnerModule (m : module_object)
| OwnerNone
| OwnerInstance.

Inductive value :=
| BuiltinFunction (self : owner) (qualname : pystr)
| PythonFunction (module : option pystr) (qualname : pystr)
| Descriptor (objclass : type_object) (qualname : pystr) (* method descriptors, method wrappers and wrapper descriptors *)
| TypeValue (t : type_object)
| OtherValue.

(** [module_path_from_module] (catalog.py:97-100) *)
Definition module_path_from_module (m : module_object) : path :=
  path_from_string (match module_spec m with None => module_name m | Some n => n end).

(** [qualified_path_from] (catalog.py:26-90) *)
Definition qualified_path_from (v : value) : qualified_path :=
  match v with
  | BuiltinFunction self qualname =>
      match self with
      | OwnerType t => (path_from_string (type_module t), path_from_string qualname)
      | OwnerModule m => (module_path_from_module m, path_from_string qualname)
      | OwnerNone => ([], path_from_string qualname)
      | OwnerInstance => ([], [])
      end
  | PythonFunction module qualname =>
      (match module with None => [] | Some m => path_from_string m end, path_from_string qualname)
  | Descriptor objclass qualname => (path_from_string (type_module objclass), path_from_string qualname)
  | TypeValue t => (path_from_string (type_module t), path_from_string (type_qualname t))
  | OtherValue => ([], [])
  end.

(** [is_attribute] (catalog.py:93-94) *)
Definition is_attribute (p : path) : bool := (1 <? length p)%nat.

(** [object_path_from_callable] (catalog.py:103-105) *)
Definition object_path_from_callable (v : value) : path := snd (qualified_path_from v).
