(** Model of dispatch on types: [functools.singledispatch] as used by
    [catalog.qualified_path_from] (catalog.py:26-90) and [signatures.from_callable]
    (signatures.py:34-133), with [utils.decorate_if] (utils.py:13-17).

    Classes are objects of a type [C]; an object is given by the [__mro__] of its class.
    None of the classes registered is an abstract base class, so that [_compose_mro] of
    functools.py gives [__mro__]. *)
From Verif Require Import Base.

(** Classes of the module [types], [type] and [functools.partial] *)
Inductive type_name :=
| BuiltinFunctionType | BuiltinMethodType | FunctionType | MethodType
| MethodWrapperType | MethodDescriptorType | WrapperDescriptorType | MemberDescriptorType
| type_ | partial_.

Section Registry.
Context {C H : Type} `{Eqb C}.
(** [_find_impl] (functools.py): the registry always has [object] *)
Fixpoint dispatch (registry : dict C H) (mro : list C) : option H :=
  match mro with
  | [] => None
  | c :: mro => match dget c registry with
                | Some f => Some f
                | None => dispatch registry mro
                end
  end.
(** [function.register(cls)(implementation)], which returns the implementation *)
Definition register (cls : C) (implementation : H) (registry : dict C H) : dict C H := dset cls implementation registry.
(** [decorate_if(decorator, condition)(implementation)] (utils.py:13-17) *)
Definition decorate_if (decorator : H -> dict C H -> dict C H) (condition : bool) (implementation : H) (registry : dict C H) : dict C H :=
  if condition then decorator implementation registry else registry.
End Registry.

(** The implementations of [from_callable], by what their bodies do
    (signatures.py:39-57, 60-65, 68-77, 80-89, 92-106, 109-127, 130-133, 34-36) *)
Inductive builder := BuildBuiltin | BuildFunction | BuildMethod | BuildMethodWrapper | BuildDescriptor | BuildType | BuildPartial | RaiseTypeError.
(** ... and those of [qualified_path_from] (catalog.py:31-48, 51-56, 59-76, 79-84, 87-90, 26-28) *)
Inductive namer := NameBuiltin | NameFunction | NameDescriptor | NameMember | NameType | NoName.

Section Modules.
Context {C : Type} `{Eqb C}.
(** The classes, [object], and whether [sys.implementation.name == 'pypy'] *)
Variable types : type_name -> C.
Variable object_ : C.
Variable pypy : bool.

(** The registry of [from_callable]; of several decorators the last one written is applied
    first. *)
Definition builders : dict C builder :=
  let r := [(object_, RaiseTypeError)] in
  let r := decorate_if (register (types BuiltinMethodType)) (negb pypy) BuildBuiltin r in
  let r := register (types BuiltinFunctionType) BuildBuiltin r in
  let r := register (types FunctionType) BuildFunction r in
  let r := register (types MethodType) BuildMethod r in
  let r := decorate_if (register (types MethodWrapperType)) (negb pypy) BuildMethodWrapper r in
  let r := decorate_if (register (types WrapperDescriptorType)) (negb pypy) BuildDescriptor r in
  let r := decorate_if (register (types MethodDescriptorType)) (negb pypy) BuildDescriptor r in
  let r := register (types type_) BuildType r in
  register (types partial_) BuildPartial r.

(** The registry of [qualified_path_from] *)
Definition namers : dict C namer :=
  let r := [(object_, NoName)] in
  let r := decorate_if (register (types BuiltinMethodType)) (negb pypy) NameBuiltin r in
  let r := register (types BuiltinFunctionType) NameBuiltin r in
  let r := register (types FunctionType) NameFunction r in
  let r := decorate_if (register (types WrapperDescriptorType)) (negb pypy) NameDescriptor r in
  let r := decorate_if (register (types MethodWrapperType)) (negb pypy) NameDescriptor r in
  let r := decorate_if (register (types MethodDescriptorType)) (negb pypy) NameDescriptor r in
  let r := decorate_if (register (types MemberDescriptorType)) pypy NameDescriptor r in
  let r := decorate_if (register (types MemberDescriptorType)) pypy NameMember r in
  register (types type_) NameType r.
End Modules.
