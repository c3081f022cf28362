(** Specification only: which implementation is for objects of which class. *)
From Verif Require Import Base Registering.

(** CPython has classes of its own for descriptors and wrappers; on PyPy those are functions
    and methods, and what is registered for them would be taken for functions and methods. *)
Definition builder_for (pypy : bool) (n : type_name) (b : builder) : Prop :=
  match n with
  | BuiltinFunctionType => b = BuildBuiltin
  | BuiltinMethodType => pypy = false /\ b = BuildBuiltin
  | FunctionType => b = BuildFunction
  | MethodType => b = BuildMethod
  | MethodWrapperType => pypy = false /\ b = BuildMethodWrapper
  | MethodDescriptorType | WrapperDescriptorType => pypy = false /\ b = BuildDescriptor
  | MemberDescriptorType => False
  | type_ => b = BuildType
  | partial_ => b = BuildPartial
  end.
Definition namer_for (pypy : bool) (n : type_name) (f : namer) : Prop :=
  match n with
  | BuiltinFunctionType => f = NameBuiltin
  | BuiltinMethodType => pypy = false /\ f = NameBuiltin
  | FunctionType => f = NameFunction
  | MethodType | partial_ => False
  | MethodWrapperType | MethodDescriptorType | WrapperDescriptorType => pypy = false /\ f = NameDescriptor
  | MemberDescriptorType => pypy = true /\ f = NameMember
  | type_ => f = NameType
  end.

Section Chosen.
Context {C H : Type}.
Variables (types : type_name -> C) (object_ : C) (written : type_name -> H -> Prop) (default : H).
(** Classes with different implementations are different, and none is [object]. *)
Definition told_apart : Prop :=
  (forall a b f g, written a f -> written b g -> types a = types b -> f = g)
  /\ (forall a f, written a f -> types a <> object_).
(** The implementation for the first class of the [__mro__] that has one; [default] is for
    objects without. *)
Definition chosen (mro : list C) (f : H) : Prop :=
  exists before c after, mro = before ++ c :: after
    /\ (forall n g, written n g -> ~ In (types n) before) /\ ~ In object_ before
    /\ ((exists n, types n = c /\ written n f) \/ (c = object_ /\ f = default)).
End Chosen.
