(** Specification only: evaluating expressions of annotations as Python does, with the
    subscription rules of typing (CPython 3.11, typing.py: [_type_convert], [Union],
    [Optional], [Literal], [_remove_dups_flatten], [_deduplicate], [_flatten_literal_params], [TypeVar.__init__]).
    Written without [to_repr]. Simplified: typing's caches may return an earlier equal object;
    strings in place of types (which become [ForwardRef]s), [Annotated] and parameter
    specifications in subscripts are left out ([None]: not modelled or an exception). *)
From Verif Require Import Base PyText PyExpr Annotated AnnotationText.

(** [type] *)
Definition TYPE : N := 5.

(** [None] stands for its type; lists of parameters of [Callable] element by element *)
Fixpoint convert (v : value) : option value :=
  match v with
  | PObject i => if i == 2%N then Some (PClass NONE_TYPE) else Some v
  | PString _ | PBytes _ | PNumber _ _ | PNaN _ | PSequence TTuple _ | PSequence TBytearray _ => None
  | PSequence TList xs =>
      option_map (PSequence TList)
        ((fix all (vs : list value) : option (list value) :=
            match vs with
            | [] => Some []
            | x :: r => match convert x, all r with Some y, Some ys => Some (y :: ys) | _, _ => None end
            end) xs)
  | _ => Some v
  end.
Fixpoint convert_all (vs : list value) : option (list value) :=
  match vs with
  | [] => Some []
  | x :: r => match convert x, convert_all r with Some y, Some ys => Some (y :: ys) | _, _ => None end
  end.

(** Unions in unions are flattened. *)
Definition union_members (v : value) : list value :=
  match v with
  | PAlias o args => if o == UNION then args else [v]
  | PUnionType args => args
  | _ => [v]
  end.
Definition literal_members (v : value) : list value :=
  match v with
  | PAlias o args => if o == LITERAL then args else [v]
  | _ => [v]
  end.
(** The first of each kind *)
Fixpoint distinct (same : value -> value -> bool) (seen vs : list value) : list value :=
  match vs with
  | [] => []
  | v :: r => if existsb (fun s => same s v) seen then distinct same seen r
              else v :: distinct same (seen ++ [v]) r
  end.
Fixpoint hashable (v : value) : bool :=
  match v with
  | PSequence TTuple xs => forallb hashable xs
  | PSequence _ _ => false
  | PAlias _ args | PBuiltinAlias _ args | PUnionType args => forallb hashable args
  | _ => true
  end.

Definition union_of (vs : list value) : option value :=
  match distinct py_eq [] (flat_map union_members vs) with
  | [] => None
  | [v] => Some v
  | us => Some (PAlias UNION us)
  end.
Definition literal_of (vs : list value) : value :=
  let members := flat_map literal_members vs in
  PAlias LITERAL
    (if forallb hashable members then distinct (fun a b => same_type a b && py_eq a b) [] members else members).

Section Evaluate.
(** What a dotted name stands for *)
Variable namespace : path -> option value.
(** Objects whose subscription makes an alias with this origin and the arguments as they are *)
Variable generic : value -> option ident.
(** Which numbers and types of arguments they take *)
Variable takes : value -> list N -> bool.

Definition subscript (f : value) (args : list value) : option value :=
  if py_eq f (PObject 0) then
    match convert_all args with Some vs => union_of vs | None => None end
  else if py_eq f OPTIONAL then
    match args with
    | [a] => match convert a with Some v => union_of [v; PClass NONE_TYPE] | None => None end
    | _ => None
    end
  else if py_eq f (PObject 1) then Some (literal_of args)
  else
    match generic f, convert_all args with
    | Some o, Some vs => if takes f (map type_tag vs) then Some (PAlias o vs) else None
    | _, _ => None
    end.
(** [f[x]] with a tuple [x] passes several arguments. *)
Definition index_arguments (v : value) : list value :=
  match v with PSequence TTuple xs => xs | _ => [v] end.

(** [type(x)] *)
Definition type_of (v : value) : option value :=
  match v with
  | PObject i => if i == 2%N then Some (PClass NONE_TYPE)
                 else if i == 4%N then Some (PClass ELLIPSIS_TYPE)
                 else if i == 5%N then Some (PClass NOT_IMPLEMENTED_TYPE) else None
  | _ => None
  end.
Definition flag (v : option value) : option bool :=
  match v with
  | None => Some false
  | Some (PNumber TBool z) => Some (negb (z == 0%Z))
  | Some _ => None
  end.
(** [typing.TypeVar(...)]; the identity is the [n]-th made *)
Definition type_var (n : N) (args : list value) (keywords : list (pystr * value)) : option value :=
  match args with
  | PString name :: constraints =>
      match convert_all constraints,
            match dget $"bound" keywords with None => Some NONE | Some b => if is_none b then Some NONE else convert b end,
            flag (dget $"contravariant" keywords), flag (dget $"covariant" keywords) with
      | Some cs, Some b, Some contravariant, Some covariant =>
          if (contravariant && covariant) || (length cs =? 1) || (negb (is_nil cs) && negb (is_none b)) then None
          else Some (PTypeVar n name b contravariant covariant cs)
      | _, _, _, _ => None
      end
  | _ => None
  end.

(** Names and attributes *)
Fixpoint dotted (e : expr) : option path :=
  match e with
  | EName n => Some [n]
  | EAttribute e n => option_map (fun p => p ++ [n]) (dotted e)
  | _ => None
  end.
Definition positional_values (args : list (option pystr * value)) : list value :=
  flat_map (fun a => match fst a with None => [snd a] | Some _ => [] end) args.
Definition keyword_values (args : list (option pystr * value)) : list (pystr * value) :=
  flat_map (fun a => match fst a with None => [] | Some k => [(k, snd a)] end) args.

(** [n] counts the type variables made so far. *)
Fixpoint evaluate (e : expr) (n : N) : option (value * N) :=
  match e with
  | EName _ | EAttribute _ _ =>
      match dotted e with
      | Some p => match namespace p with Some v => Some (v, n) | None => None end
      | None => None
      end
  | EString s => Some (PString s, n)
  | EInt z => Some (PNumber TInt z, n)
  | EFloat _ | EImaginary _ | EBytes _ => None      (* not covered *)
  | ETuple es =>
      match
        (fix all (es : list expr) (n : N) : option (list value * N) :=
           match es with
           | [] => Some ([], n)
           | e :: r => match evaluate e n with
                       | Some (v, n1) => match all r n1 with Some (vs, n2) => Some (v :: vs, n2) | None => None end
                       | None => None
                       end
           end) es n
      with Some (vs, n') => Some (PSequence TTuple vs, n') | None => None end
  | EList es =>
      match
        (fix all (es : list expr) (n : N) : option (list value * N) :=
           match es with
           | [] => Some ([], n)
           | e :: r => match evaluate e n with
                       | Some (v, n1) => match all r n1 with Some (vs, n2) => Some (v :: vs, n2) | None => None end
                       | None => None
                       end
           end) es n
      with Some (vs, n') => Some (PSequence TList vs, n') | None => None end
  | ESubscript f i =>
      match evaluate f n with
      | None => None
      | Some (fv, n1) =>
          match evaluate i n1 with
          | None => None
          | Some (iv, n2) => option_map (fun v => (v, n2)) (subscript fv (index_arguments iv))
          end
      end
  | ECall f args =>
      match evaluate f n with
      | None => None
      | Some (fv, n1) =>
          match
            (fix all (args : list (option pystr * expr)) (n : N) : option (list (option pystr * value) * N) :=
               match args with
               | [] => Some ([], n)
               | (k, e) :: r =>
                   match evaluate e n with
                   | Some (v, n1) => match all r n1 with Some (vs, n2) => Some ((k, v) :: vs, n2) | None => None end
                   | None => None
                   end
               end) args n1
          with
          | None => None
          | Some (vs, n2) =>
              if py_eq fv (PClass TYPE) then
                match vs with
                | [(None, v)] => option_map (fun v => (v, n2)) (type_of v)
                | _ => None
                end
              else if py_eq fv (PClass TYPE_VAR) then
                option_map (fun v => (v, N.succ n2)) (type_var n2 (positional_values vs) (keyword_values vs))
              else None
          end
      end
  | EDict _ | ESet _ => None
  end.
End Evaluate.

(** ** Annotations whose text can be read *)
Section Annotation.
Variables (class_text : N -> pystr) (alias_text : ident -> option pystr) (object_text bare_alias_text : N -> pystr).
Variable namespace : path -> option value.
Variables (generic : value -> option ident) (takes : value -> list N -> bool).

(** [text] is a dotted name that stands for [v]. *)
Definition names (text : pystr) (v : value) : Prop :=
  exists p, p <> [] /\ Forall (fun n => is_identifier n = true) p /\ text = join $"." p /\ namespace p = Some v.

(** What is written before the brackets of an alias *)
Definition alias_head (o : ident) : pystr :=
  match alias_text o with
  | Some text => text
  | None => match o with CId i => class_text i | OId i => object_text i end
  end.
(** The names of builtins and typing mean what they mean. *)
Record standard_names : Prop := {
  sn_none : namespace [$"None"] = Some NONE;
  sn_ellipsis : namespace [$"Ellipsis"] = Some (PObject 4);
  sn_not_implemented : namespace [$"NotImplemented"] = Some (PObject 5);
  sn_true : namespace [$"True"] = Some (PNumber TBool 1);
  sn_false : namespace [$"False"] = Some (PNumber TBool 0);
  sn_type : namespace [$"type"] = Some (PClass TYPE);
  sn_type_var : names (class_text TYPE_VAR) (PClass TYPE_VAR);
  sn_union : names (object_text 0) (PObject 0);
  sn_optional : names (object_text 3) OPTIONAL;
  sn_literal : names (alias_head LITERAL) (PObject 1)
}.

Definition each_differs (same : value -> value -> bool) (vs : list value) : Prop :=
  ForallOrdPairs (fun a b => same a b = false) vs.
Definition special_type (i : N) : Prop := i = NONE_TYPE \/ i = ELLIPSIS_TYPE \/ i = NOT_IMPLEMENTED_TYPE.

(** Values as typing makes them, all parts of which have names; with [strict] a [Literal] of a
    single tuple is excluded. *)
Variable strict : bool.
Inductive annotation : value -> Prop :=
| an_special i : special_type i -> annotation (PClass i)
| an_class i : names (class_text i) (PClass i) -> annotation (PClass i)
| an_object i : names (object_text i) (PObject i) -> annotation (PObject i)
| an_bare i o : names (bare_alias_text i) (PBareAlias i o) -> annotation (PBareAlias i o)
| an_string s : valid_str s -> annotation (PString s)
| an_int z : annotation (PNumber TInt z)
| an_bool z : z = 0%Z \/ z = 1%Z -> annotation (PNumber TBool z)
| an_list xs : Forall annotation xs -> annotation (PSequence TList xs)
| an_tuple xs : Forall annotation xs -> annotation (PSequence TTuple xs)
| an_type_var i name bound contravariant covariant constraints :
    valid_str name -> bound = NONE \/ annotation bound /\ convert bound = Some bound ->
    Forall annotation constraints -> convert_all constraints = Some constraints ->
    contravariant && covariant = false -> length constraints <> 1 -> constraints = [] \/ bound = NONE ->
    annotation (PTypeVar i name bound contravariant covariant constraints)
| an_union args :
    Forall annotation args -> convert_all args = Some args -> Forall (fun a => union_members a = [a]) args ->
    each_differs py_eq args -> 2 <= length args -> annotation (PAlias UNION args)
| an_literal args :
    Forall annotation args -> Forall (fun a => literal_members a = [a]) args ->
    (forallb hashable args = true -> each_differs (fun a b => same_type a b && py_eq a b) args) ->
    (strict = true -> forall xs, args <> [PSequence TTuple xs]) -> annotation (PAlias LITERAL args)
| an_alias f o args :
    generic f = Some o -> o <> UNION -> o <> LITERAL -> (forall i, o = CId i -> ~ special_type i) -> names (alias_head o) f ->
    py_eq f (PObject 0) = false -> py_eq f OPTIONAL = false -> py_eq f (PObject 1) = false ->
    Forall annotation args -> convert_all args = Some args -> takes f (map type_tag args) = true ->
    annotation (PAlias o args).
End Annotation.

(** A [Literal] of a single tuple occurs in the value. *)
Fixpoint tuple_literal (v : value) : bool :=
  match v with
  | PAlias o args =>
      ((o == LITERAL) && match args with [PSequence TTuple _] => true | _ => false end) || existsb tuple_literal args
  | PSequence _ xs => existsb tuple_literal xs
  | PTypeVar _ _ bound _ _ constraints => tuple_literal bound || existsb tuple_literal constraints
  | _ => false
  end.
(** The strings an expression contains *)
Fixpoint strings (e : expr) : list pystr :=
  match e with
  | EString s => [s]
  | EName _ | EInt _ | EFloat _ | EImaginary _ | EBytes _ => []
  | EAttribute e _ => strings e
  | ECall f args => strings f ++ flat_map (fun a => strings (snd a)) args
  | ESubscript f i => strings f ++ strings i
  | ETuple es | EList es | ESet es => flat_map strings es
  | EDict items => flat_map (fun i => strings (fst i) ++ strings (snd i)) items
  end.
