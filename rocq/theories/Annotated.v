(** Model of paradigm/_core/annotated.py (equality part, lines 17-121), for
    CPython 3.11 (the [else] branch of line 75; typing aliases as in that
    release). Objects are finite trees; an object compared by identity carries an
    identity number. Not modelled: objects whose [==] does not return a [bool]
    (the assertions at 20 and 117), user classes overriding [__eq__], floats other
    than integral ones and NaN, mutable objects changing between comparisons. *)
From Verif Require Import Base.

(** Numeric types with integral values, see [PNumber]. *)
Inductive number_type := TInt | TBool | TFloat.
(** Concrete [collections.abc.Sequence] types other than [str]/[bytes]. *)
Inductive sequence_type := TList | TTuple | TBytearray.

Definition sequence_type_eqb (x y : sequence_type) : bool :=
  match x, y with
  | TList, TList | TTuple, TTuple | TBytearray, TBytearray => true
  | _, _ => false
  end.

(** Identity of a class, or of another object. *)
Inductive ident := CId (n : N) | OId (n : N).
Definition ident_eqb (x y : ident) : bool :=
  match x, y with
  | CId n, CId m | OId n, OId m => n == m
  | _, _ => false
  end.
Lemma ident_eqb_eq x y : ident_eqb x y = true <-> x = y.
Proof. destruct x, y; cbn; rewrite ?eqb_eq; split; congruence. Qed.
#[export] Instance Eqb_ident : Eqb ident := { eqb := ident_eqb; eqb_eq := ident_eqb_eq }.

Inductive value :=
| PClass (id : N)                          (* a class: [int], [type(None)], ... *)
| PObject (id : N)                         (* an object compared by identity: [None], [...], [t.Union], functions *)
| PBareAlias (id : N) (origin : ident)        (* [typing.List], [typing.Tuple], ... without arguments *)
| PAlias (origin : ident) (args : list value)  (* [typing._GenericAlias]: [typing.List[int]], [Union[..]], [Literal[..]], [Callable[[..], ..]] *)
| PBuiltinAlias (origin : ident) (args : list value) (* [types.GenericAlias]: [list[int]] *)
| PUnionType (args : list value)           (* [int | str] *)
| PSequence (ty : sequence_type) (elements : list value)
| PString (s : pystr)
| PBytes (s : list N)
| PNumber (ty : number_type) (z : Z)
| PNaN (id : N)
| PTypeVar (id : N) (name : pystr) (bound : value) (contravariant covariant : bool) (constraints : list value)
| PParamSpec (id : N) (name : pystr) (bound : value) (contravariant covariant : bool)
| PParamSpecArgs (origin : value)
| PParamSpecKwargs (origin : value)
| PNewType (id : N) (qualname : pystr) (supertype : value).

(** Identities of [typing.Union], [typing.Literal], [types.UnionType]. *)
Definition UNION : ident := OId 0.
Definition LITERAL : ident := OId 1.
Definition UNION_TYPE : ident := CId 0.

(** [to_arguments] = [typing.get_args] (annotated.py:120) *)
Definition to_arguments (v : value) : list value :=
  match v with
  | PAlias _ args | PBuiltinAlias _ args | PUnionType args => args
  | _ => []
  end.

(** Identity of [to_origin(v) or v] (annotated.py:29-30, 121); [None]: an
    object that is no class, special form or origin of an alias. *)
Definition origin_or_self (v : value) : option ident :=
  match v with
  | PClass i => Some (CId i)
  | PObject i => Some (OId i)
  | PBareAlias _ o | PAlias o _ | PBuiltinAlias o _ => Some o
  | PUnionType _ => Some UNION_TYPE
  | _ => None
  end.

(** [all(map(f, xs, ys))] *)
Section Zip.
Context {A : Type} (f : A -> A -> bool).
Fixpoint all_map2 (xs ys : list A) : bool :=
  match xs, ys with
  | x :: xs', y :: ys' => f x y && all_map2 xs' ys'
  | _, _ => true
  end.
End Zip.

(** [type(x) is type(y)] as far as [Literal] needs it
    (typing._value_and_type_iter): objects of one constructor but different
    classes are never [==] here, except numbers. *)
Definition type_tag (v : value) : N :=
  match v with
  | PClass _ => 0 | PObject _ => 1 | PBareAlias _ _ => 2 | PAlias _ _ => 3
  | PBuiltinAlias _ _ => 4 | PUnionType _ => 5
  | PSequence TList _ => 6 | PSequence TTuple _ => 7 | PSequence TBytearray _ => 8
  | PString _ => 9 | PBytes _ => 10
  | PNumber TInt _ => 11 | PNumber TBool _ => 12 | PNumber TFloat _ => 13 | PNaN _ => 13
  | PTypeVar _ _ _ _ _ _ => 14 | PParamSpec _ _ _ _ _ => 15
  | PParamSpecArgs _ => 16 | PParamSpecKwargs _ => 17 | PNewType _ _ _ => 18
  end%N.
Definition same_type (v w : value) : bool := type_tag v == type_tag w.

(** Identity of NaN objects: the only objects here for which [is] is not implied
    to give [==]. *)
Definition same_nan (v w : value) : bool :=
  match v, w with PNaN i, PNaN j => i == j | _, _ => false end.

(** Python's own [==] (not part of paradigm; typing.py and the data model).
    Inside containers [is] is tried before [==]. *)
Fixpoint py_eq (l r : value) : bool :=
  let same_length (xs ys : list value) := length xs =? length ys in
  match l, r with
  | PClass i, PClass j | PObject i, PObject j => i == j
  | PBareAlias i _, PBareAlias j _ => i == j
  | PAlias o args, PAlias o' args' =>
      (o == o') &&
      (if o == UNION then
         forallb (fun a => existsb (fun b => same_nan a b || py_eq a b) args') args
         && forallb (fun b => existsb (fun a => same_nan a b || py_eq a b) args) args'
       else if o == LITERAL then
         forallb (fun a => existsb (fun b => same_type a b && (same_nan a b || py_eq a b)) args') args
         && forallb (fun b => existsb (fun a => same_type a b && (same_nan a b || py_eq a b)) args) args'
       else same_length args args' && all_map2 (fun a b => same_nan a b || py_eq a b) args args')
  | PAlias o args, PUnionType args' =>
      (o == UNION)
      && (forallb (fun a => existsb (fun b => same_nan a b || py_eq a b) args') args
          && forallb (fun b => existsb (fun a => same_nan a b || py_eq a b) args) args')
  | PUnionType args, PAlias o args' =>
      (o == UNION)
      && (forallb (fun a => existsb (fun b => same_nan a b || py_eq a b) args') args
          && forallb (fun b => existsb (fun a => same_nan a b || py_eq a b) args) args')
  | PUnionType args, PUnionType args' =>
      forallb (fun a => existsb (fun b => same_nan a b || py_eq a b) args') args
      && forallb (fun b => existsb (fun a => same_nan a b || py_eq a b) args) args'
  | PBuiltinAlias o args, PBuiltinAlias o' args' =>
      (o == o') && (same_length args args' && all_map2 (fun a b => same_nan a b || py_eq a b) args args')
  | PSequence t xs, PSequence t' ys =>
      sequence_type_eqb t t'
      && (same_length xs ys && all_map2 (fun a b => same_nan a b || py_eq a b) xs ys)
  | PSequence TBytearray xs, PBytes s =>
      same_length xs (map (fun c => PNumber TInt (Z.of_N c)) s)
      && all_map2 (fun a b => same_nan a b || py_eq a b) xs (map (fun c => PNumber TInt (Z.of_N c)) s)
  | PBytes s, PSequence TBytearray ys =>
      (length s =? length ys)
      && all_map2 (fun a b => match a, b with
                              | PNumber _ x, PNumber _ y => x == y
                              | _, _ => false
                              end)
                  (map (fun c => PNumber TInt (Z.of_N c)) s) ys
  | PString s, PString s' => s == s'
  | PBytes s, PBytes s' => s == s'
  | PNumber _ z, PNumber _ z' => z == z'
  | PTypeVar i _ _ _ _ _, PTypeVar j _ _ _ _ _ => i == j
  | PParamSpec i _ _ _ _, PParamSpec j _ _ _ _ => i == j
  | PParamSpecArgs o, PParamSpecArgs o' | PParamSpecKwargs o, PParamSpecKwargs o' => py_eq o o'
  | PNewType i _ _, PNewType j _ _ => i == j
  | _, _ => false
  end.

(** [are_equal] (annotated.py:17-117), dispatched on the type of [left]:
    - [PClass], [PAlias], [PUnionType]: lines 24-40 with 76;
    - [PSequence]: 43-47; [PParamSpec]: 50-56; [PParamSpecArgs]: 59-62;
    - [PNewType]: 79-87; [PParamSpecKwargs]: 90-93; [PTypeVar]: 96-109;
    - [PString], [PBytes]: 112-117; everything else: 17-21.
    [types.GenericAlias] ([list[int]]) and bare typing aliases ([typing.List]) are
    instances of none of the registered classes on 3.11. *)
Fixpoint are_equal (left right : value) : bool :=
  match left with
  | PClass i =>
      match origin_or_self right with
      | Some j => (CId i == j) && (0 =? length (to_arguments right))
      | None => false
      end
  | PAlias o args =>
      match origin_or_self right with
      | Some o' =>
          (o == o') && (length args =? length (to_arguments right))
          && (if (o == UNION) || (o == LITERAL) then
                forallb (fun a => existsb (fun b => are_equal a b) (to_arguments right)) args
                && forallb (fun b => existsb (fun a => are_equal a b) args) (to_arguments right)
              else all_map2 are_equal args (to_arguments right))
      | None => false
      end
  | PUnionType args =>
      match origin_or_self right with
      | Some o' =>
          (UNION_TYPE == o') && (length args =? length (to_arguments right))
          && all_map2 are_equal args (to_arguments right)
      | None => false
      end
  | PSequence t xs =>
      match right with
      | PSequence t' ys =>
          sequence_type_eqb t t' && (length xs =? length ys) && all_map2 are_equal xs ys
      | _ => false
      end
  | PParamSpec _ name bound contra co =>
      match right with
      | PParamSpec _ name' bound' contra' co' =>
          (name == name') && are_equal bound bound' && (contra == contra') && (co == co')
      | _ => false
      end
  | PParamSpecArgs o =>
      match right with PParamSpecArgs o' => are_equal o o' | _ => false end
  | PParamSpecKwargs o =>
      match right with PParamSpecKwargs o' => are_equal o o' | _ => false end
  | PNewType _ name super =>
      match right with
      | PNewType _ name' super' => (name == name') && are_equal super super'
      | _ => false
      end
  | PTypeVar _ name bound contra co constraints =>
      match right with
      | PTypeVar _ name' bound' contra' co' constraints' =>
          (name == name') && are_equal bound bound' && (contra == contra') && (co == co')
          && (length constraints =? length constraints') && all_map2 are_equal constraints constraints'
      | _ => false
      end
  | PString _ | PBytes _ | PObject _ | PBareAlias _ _ | PBuiltinAlias _ _ | PNumber _ _ | PNaN _ =>
      py_eq left right
  end.
