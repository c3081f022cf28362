(** Specification only: which annotation values the positive equality theorems
    speak about. *)
From Verif Require Import Base Models Annotated.

(** No NaN anywhere. *)
Fixpoint without_nan (v : value) : bool :=
  match v with
  | PNaN _ => false
  | PClass _ | PObject _ | PBareAlias _ _ | PString _ | PBytes _ | PNumber _ _ => true
  | PAlias _ args | PBuiltinAlias _ args | PUnionType args => forallb without_nan args
  | PSequence _ xs => forallb without_nan xs
  | PTypeVar _ _ b _ _ cs => without_nan b && forallb without_nan cs
  | PParamSpec _ _ b _ _ => without_nan b
  | PParamSpecArgs o | PParamSpecKwargs o => without_nan o
  | PNewType _ _ s => without_nan s
  end.

(** Values on which comparison is well behaved: no NaN, no [typing.List]-like
    alias without arguments, no [list[int]]-like alias, no [bytearray], no
    [Literal[()]]. *)
Fixpoint tame (v : value) : bool :=
  match v with
  | PClass _ | PObject _ | PString _ | PBytes _ | PNumber _ _ => true
  | PAlias o args =>
      forallb tame args
      && match o, args with OId _, [] => false | _, _ => true end
  | PUnionType args => forallb tame args
  | PSequence TBytearray _ => false
  | PSequence _ xs => forallb tame xs
  | PTypeVar _ _ b _ _ cs => tame b && forallb tame cs
  | PParamSpec _ _ b _ _ => tame b
  | PParamSpecArgs o | PParamSpecKwargs o => tame o
  | PNewType _ _ s => tame s
  | PNaN _ | PBareAlias _ _ | PBuiltinAlias _ _ => false
  end.

(** Values on which comparison coincides with Python's [==]: tame, and without
    type variables, parameter specifications, [NewType]s (compared by structure
    but hashed by identity), [Literal]s (which also compare types) and empty
    subscripts such as [Tuple[()]] (which compare equal to the bare class). *)
Fixpoint plain_value (v : value) : bool :=
  match v with
  | PClass _ | PObject _ | PString _ | PBytes _ | PNumber _ _ => true
  | PAlias o args => negb (o == LITERAL) && negb (o == UNION_TYPE) && negb (is_nil args) && forallb plain_value args
  | PUnionType args => negb (is_nil args) && forallb plain_value args
  | PSequence TBytearray _ => false
  | PSequence _ xs => forallb plain_value xs
  | PTypeVar _ _ _ _ _ _ | PParamSpec _ _ _ _ _ | PParamSpecArgs _ | PParamSpecKwargs _
  | PNewType _ _ _ | PNaN _ | PBareAlias _ _ | PBuiltinAlias _ _ => false
  end.

(** The annotations, defaults and return annotation held by an object *)
Definition parameter_values {V} (p : parameter V) : list V :=
  match p with
  | RequiredParameter a _ _ => [a]
  | OptionalParameter a None _ _ => [a]
  | OptionalParameter a (Some d) _ _ => [a; d]
  end.
Definition plain_values {V} (s : plain_signature V) : list V :=
  flat_map parameter_values (parameters s) ++ [returns s].
Definition signature_values {V} (s : signature V) : list V :=
  match s with
  | Plain p => plain_values p
  | Overloaded ps => flat_map plain_values ps
  end.

(** A hash function as Python requires it of its own objects: equal by [==]
    gives equal hashes. [None]: unhashable. *)
Definition python_hash (hash : value -> option Z) : Prop :=
  forall v w h h', py_eq v w = true -> hash v = Some h -> hash w = Some h' -> h = h'.
