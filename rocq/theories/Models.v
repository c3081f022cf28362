(** Model of paradigm/_core/models.py.

    Conventions.
    - Values that the code only stores, compares or prints (annotations,
      defaults, arguments, return annotations) are elements of an arbitrary
      type [V]; operations on them are Section variables.
    - A Python exception is [Err e]; the message text is not modelled, only the
      class (every [TypeError]/[ValueError] below carries just a message).
    - A [dict] is an association list in insertion order; a set of names is a
      list, and nothing below depends on its order.
    - Typing aids ([@overload], [TypeGuard], [abc] bookkeeping) are not
      modelled. [BaseParameter]/[BaseSignature] (models.py:41-55, 275-291) have
      no behaviour of their own. *)
From Verif Require Import Base.

(** ** [ParameterKind] (models.py:26-38): an [IntEnum] with values 0..4. *)
Inductive kind :=
| POSITIONAL_ONLY
| POSITIONAL_OR_KEYWORD
| VARIADIC_POSITIONAL
| KEYWORD_ONLY
| VARIADIC_KEYWORD.

(** models.py:28-32 *)
Definition kind_value (k : kind) : nat :=
  match k with
  | POSITIONAL_ONLY => 0
  | POSITIONAL_OR_KEYWORD => 1
  | VARIADIC_POSITIONAL => 2
  | KEYWORD_ONLY => 3
  | VARIADIC_KEYWORD => 4
  end.

(** [is] / [==] on enum members *)
Definition kind_eqb (x y : kind) : bool :=
  match x, y with
  | POSITIONAL_ONLY, POSITIONAL_ONLY
  | POSITIONAL_OR_KEYWORD, POSITIONAL_OR_KEYWORD
  | VARIADIC_POSITIONAL, VARIADIC_POSITIONAL
  | KEYWORD_ONLY, KEYWORD_ONLY
  | VARIADIC_KEYWORD, VARIADIC_KEYWORD => true
  | _, _ => false
  end.

Lemma kind_eqb_eq x y : kind_eqb x y = true <-> x = y.
Proof. destruct x, y; cbn; split; congruence. Qed.

#[export] Instance Eqb_kind : Eqb kind := { eqb := kind_eqb; eqb_eq := kind_eqb_eq }.

(** [kind < prior.kind] on [IntEnum] members (used at models.py:409) *)
Definition kind_ltb (x y : kind) : bool := Nat.ltb (kind_value x) (kind_value y).

(** The member's [name] (models.py:28-32) *)
Definition kind_name (k : kind) : pystr :=
  match k with
  | POSITIONAL_ONLY => $"POSITIONAL_ONLY"
  | POSITIONAL_OR_KEYWORD => $"POSITIONAL_OR_KEYWORD"
  | VARIADIC_POSITIONAL => $"VARIADIC_POSITIONAL"
  | KEYWORD_ONLY => $"KEYWORD_ONLY"
  | VARIADIC_KEYWORD => $"VARIADIC_KEYWORD"
  end.

(** [ParameterKind.__repr__] (models.py:34-35) *)
Definition kind_repr (k : kind) : pystr := $"ParameterKind" ++ $"." ++ kind_name k.

(** The [kind] argument of the parameter constructors can be any object;
    [NotAKind] is an object that is not a [ParameterKind] (models.py:656-659). *)
Inductive kind_arg :=
| IsKind (k : kind)
| NotAKind.

Section Models.
Context {V : Type}.

(** [default is _NONE] for the sentinel [_NONE] (models.py:18-23, 177). *)
Variable is_NONE : V -> bool.

(** ** Parameters
    [RequiredParameter] (models.py:65-137) and [OptionalParameter]
    (models.py:140-243). The slots [_has_default]/[_default] of the latter are
    one [option]: [_default] is assigned exactly when [_has_default] is true
    (models.py:184-188). *)
Inductive parameter :=
| RequiredParameter (annotation : V) (k : kind) (name : pystr)
| OptionalParameter (annotation : V) (default : option V) (k : kind) (name : pystr).

Definition p_annotation (p : parameter) : V :=
  match p with
  | RequiredParameter a _ _ => a
  | OptionalParameter a _ _ _ => a
  end.
Definition p_kind (p : parameter) : kind :=
  match p with
  | RequiredParameter _ k _ => k
  | OptionalParameter _ _ k _ => k
  end.
Definition p_name (p : parameter) : pystr :=
  match p with
  | RequiredParameter _ _ n => n
  | OptionalParameter _ _ _ n => n
  end.
(** [isinstance(parameter, OptionalParameter)] *)
Definition is_optional (p : parameter) : bool :=
  match p with
  | RequiredParameter _ _ _ => false
  | OptionalParameter _ _ _ _ => true
  end.
(** [isinstance(parameter, RequiredParameter)] *)
Definition is_required (p : parameter) : bool := negb (is_optional p).
(** [parameter.default] guarded by [isinstance(..., OptionalParameter) and
    parameter.has_default] *)
Definition p_default (p : parameter) : option V :=
  match p with
  | RequiredParameter _ _ _ => None
  | OptionalParameter _ d _ _ => d
  end.

(** [_REQUIRED_PARAMETERS_KINDS] (models.py:58-62) *)
Definition _REQUIRED_PARAMETERS_KINDS : list kind :=
  [POSITIONAL_ONLY; POSITIONAL_OR_KEYWORD; KEYWORD_ONLY].

(** [RequiredParameter.__new__] (models.py:85-103) with [_validate_kind]
    (models.py:656-659) *)
Definition new_required (annotation : V) (kd : kind_arg) (name : pystr) : res parameter :=
  match kd with
  | NotAKind => Err TypeError
  | IsKind k =>
      if negb (mem k _REQUIRED_PARAMETERS_KINDS) then Err ValueError
      else Ok (RequiredParameter annotation k name)
  end.

(** [OptionalParameter.__new__] (models.py:170-189); [default = None] is a call
    without that argument, i.e. with [_NONE]. *)
Definition new_optional (annotation : V) (default : option V) (kd : kind_arg) (name : pystr)
  : res parameter :=
  match kd with
  | NotAKind => Err TypeError
  | IsKind k =>
      let has_default :=
        match default with
        | Some d => negb (is_NONE d)
        | None => false
        end in
      if ((k == VARIADIC_POSITIONAL) || (k == VARIADIC_KEYWORD)) && has_default
      then Err ValueError
      else Ok (OptionalParameter annotation (if has_default then default else None) k name)
  end.

(** [to_parameters_by_kind] (models.py:249-255); reading the [defaultdict] at a
    missing key gives []. *)
Definition at_kind (k : kind) (d : dict kind (list parameter)) : list parameter :=
  match dget k d with
  | Some ps => ps
  | None => []
  end.
Definition to_parameters_by_kind (ps : list parameter) : dict kind (list parameter) :=
  fold_left (fun d p => dset (p_kind p) (at_kind (p_kind p) d ++ [p]) d) ps [].

(** [to_parameters_by_name] (models.py:258-261) *)
Definition to_parameters_by_name (ps : list parameter) : dict pystr parameter :=
  dict_of (map (fun p => (p_name p, p)) ps).

(** [all_parameters_are_optional] (models.py:264-268) *)
Definition all_parameters_are_optional (ps : list parameter) : bool :=
  forallb is_optional ps.

(** ** Plain signatures (models.py:294-490) *)
Record plain_signature := mk_plain {
  parameters : list parameter;
  returns : V
}.

(** The loop of [PlainSignature.__new__] over [rest] (models.py:400-434). The
    [elif] at 425-431 is reached only when the kind is neither positional one. *)
Fixpoint check_parameters (prior : parameter) (visited_names : list pystr)
  (visited_kinds : list kind) (rest : list parameter) : res unit :=
  match rest with
  | [] => Ok tt
  | parameter :: rest' =>
      let name := p_name parameter in
      if mem name visited_names then Err ValueError
      else
        let k := p_kind parameter in
        if kind_ltb k (p_kind prior) then Err ValueError
        else if (k == POSITIONAL_OR_KEYWORD) || (k == POSITIONAL_ONLY) then
          if is_required parameter && is_optional prior then Err ValueError
          else check_parameters parameter (name :: visited_names) (k :: visited_kinds) rest'
        else if (k == VARIADIC_POSITIONAL) || (k == VARIADIC_KEYWORD) then
          if mem k visited_kinds then Err ValueError
          else check_parameters parameter (name :: visited_names) (k :: visited_kinds) rest'
        else check_parameters parameter (name :: visited_names) (k :: visited_kinds) rest'
  end.

(** [PlainSignature.__new__] (models.py:394-437) *)
Definition new_plain (ps : list parameter) (ret : V) : res plain_signature :=
  match ps with
  | [] => Ok (mk_plain ps ret)
  | prior :: rest =>
      let* _ := check_parameters prior [p_name prior] [p_kind prior] rest in
      Ok (mk_plain ps ret)
  end.

(** [kwargs.keys() - names] is non-empty *)
Definition has_key_outside (kwargs : dict pystr V) (names : list pystr) : bool :=
  negb (is_nil (filter (fun n => negb (mem n names)) (dkeys kwargs))).

(** [PlainSignature.all_set] (models.py:307-342) *)
Definition plain_all_set (s : plain_signature) (args : list V) (kwargs : dict pystr V) : bool :=
  let parameters_by_kind := to_parameters_by_kind (parameters s) in
  let positionals :=
    at_kind POSITIONAL_ONLY parameters_by_kind
    ++ at_kind POSITIONAL_OR_KEYWORD parameters_by_kind in
  let unexpected_positional_arguments_found :=
    is_nil (at_kind VARIADIC_POSITIONAL parameters_by_kind)
    && Nat.ltb (length positionals) (length args) in
  if unexpected_positional_arguments_found then false
  else
    let rest_positionals := skipn (length args) positionals in
    let rest_positionals_by_kind := to_parameters_by_kind rest_positionals in
    let rest_keywords :=
      at_kind POSITIONAL_OR_KEYWORD rest_positionals_by_kind
      ++ at_kind KEYWORD_ONLY parameters_by_kind in
    let rest_keywords_by_name := to_parameters_by_name rest_keywords in
    let unexpected_keyword_arguments_found :=
      is_nil (at_kind VARIADIC_KEYWORD parameters_by_kind)
      && has_key_outside kwargs (dkeys rest_keywords_by_name) in
    if unexpected_keyword_arguments_found then false
    else
      let rest_keywords_by_name' :=
        filter (fun np => negb (dmem (fst np) kwargs)) rest_keywords_by_name in
      let rest_positionals_only := at_kind POSITIONAL_ONLY rest_positionals_by_kind in
      all_parameters_are_optional rest_positionals_only
      && all_parameters_are_optional (map snd rest_keywords_by_name').

(** [PlainSignature.expects] (models.py:344-367) *)
Definition plain_expects (s : plain_signature) (args : list V) (kwargs : dict pystr V) : bool :=
  let parameters_by_kind := to_parameters_by_kind (parameters s) in
  let positionals :=
    at_kind POSITIONAL_ONLY parameters_by_kind
    ++ at_kind POSITIONAL_OR_KEYWORD parameters_by_kind in
  let unexpected_positional_arguments_found :=
    is_nil (at_kind VARIADIC_POSITIONAL parameters_by_kind)
    && Nat.ltb (length positionals) (length args) in
  if unexpected_positional_arguments_found then false
  else
    let rest_positionals := skipn (length args) positionals in
    let rest_positionals_by_kind := to_parameters_by_kind rest_positionals in
    let rest_keywords :=
      at_kind POSITIONAL_OR_KEYWORD rest_positionals_by_kind
      ++ at_kind KEYWORD_ONLY parameters_by_kind in
    let rest_keywords_by_name := to_parameters_by_name rest_keywords in
    let unexpected_keyword_arguments_found :=
      is_nil (at_kind VARIADIC_KEYWORD parameters_by_kind)
      && has_key_outside kwargs (dkeys rest_keywords_by_name) in
    negb unexpected_keyword_arguments_found.

(** [is_positionable] (models.py:583-585) *)
Definition is_positionable (p : parameter) : bool :=
  (p_kind p == POSITIONAL_OR_KEYWORD) || (p_kind p == POSITIONAL_ONLY).

(** the test repeated at models.py:615-616 and 648-649 *)
Definition is_keywordable (p : parameter) : bool :=
  (p_kind p == POSITIONAL_OR_KEYWORD) || (p_kind p == KEYWORD_ONLY).

(** [_bind_positionals] (models.py:578-603). Both branches of the loop body
    (596-602) raise [TypeError], with different messages. *)
Definition bind_positionals (ps : list parameter) (args : list V) (kwargs : dict pystr V)
  (has_variadic : bool) : res (list parameter) :=
  let positionals := take_while is_positionable ps in
  if Nat.ltb (length positionals) (length args) && negb has_variadic then Err TypeError
  else if existsb (fun positional => dmem (p_name positional) kwargs)
                  (firstn (length args) positionals) then Err TypeError
  else Ok (skipn (length args) positionals ++ skipn (length positionals) ps).

(** The conditional expression applied to each parameter from the first
    keyword-bound one on (models.py:630-650). *)
Definition rebuild_keyword (kwargs : dict pystr V) (kwargs_names : list pystr) (p : parameter)
  : res parameter :=
  if is_keywordable p then
    if is_optional p || mem (p_name p) kwargs_names then
      match p_default p with
      | Some d => new_optional (p_annotation p) (Some d) (IsKind KEYWORD_ONLY) (p_name p)
      | None =>
          if mem (p_name p) kwargs_names then
            match dget (p_name p) kwargs with
            | Some v => new_optional (p_annotation p) (Some v) (IsKind KEYWORD_ONLY) (p_name p)
            | None => Err KeyError
            end
          else new_optional (p_annotation p) None (IsKind KEYWORD_ONLY) (p_name p)
      end
    else new_required (p_annotation p) (IsKind KEYWORD_ONLY) (p_name p)
  else Ok p.

(** [_bind_keywords] (models.py:606-653) *)
Definition bind_keywords (ps : list parameter) (kwargs : dict pystr V) (has_variadic : bool)
  : res (list parameter) :=
  let kwargs_names := dkeys kwargs in
  let extra_kwargs_names :=
    filter (fun n => negb (mem n (map p_name (filter is_keywordable ps)))) kwargs_names in
  if negb (is_nil extra_kwargs_names) && negb has_variadic then Err TypeError
  else
    let kwargs_names' := filter (fun n => negb (mem n extra_kwargs_names)) kwargs_names in
    if is_nil kwargs_names' then Ok ps
    else
      match find_index (fun p => mem (p_name p) kwargs_names') ps with
      | None => Err StopIteration
      | Some first_kwarg_index =>
          let* tail :=
            map_m (rebuild_keyword kwargs kwargs_names')
                  (filter (fun p => negb (p_kind p == VARIADIC_POSITIONAL))
                          (skipn first_kwarg_index ps)) in
          Ok (firstn first_kwarg_index ps ++ tail)
      end.

(** [PlainSignature.bind] (models.py:369-387) *)
Definition plain_bind (s : plain_signature) (args : list V) (kwargs : dict pystr V)
  : res plain_signature :=
  let parameters_by_kind := to_parameters_by_kind (parameters s) in
  let* ps :=
    bind_positionals (parameters s) args kwargs
      (negb (is_nil (at_kind VARIADIC_POSITIONAL parameters_by_kind))) in
  let* ps' :=
    bind_keywords ps kwargs
      (negb (is_nil (at_kind VARIADIC_KEYWORD parameters_by_kind))) in
  new_plain ps' (returns s).

(** ** Overloaded signatures (models.py:493-557) and [Signature] (models.py:560) *)
Inductive signature :=
| Plain (s : plain_signature)
| Overloaded (ss : list plain_signature).

(** [OverloadedSignature.__new__] (models.py:519-538) with
    [_MIN_SUB_SIGNATURES_COUNT] (models.py:15) *)
Definition _MIN_SUB_SIGNATURES_COUNT : nat := 2.
Fixpoint as_plains (ss : list signature) : option (list plain_signature) :=
  match ss with
  | [] => Some []
  | Plain s :: ss' => option_map (cons s) (as_plains ss')
  | Overloaded _ :: _ => None
  end.
Definition new_overloaded (ss : list signature) : res signature :=
  match as_plains ss with
  | None => Err TypeError
  | Some ps =>
      if Nat.ltb (length ss) _MIN_SUB_SIGNATURES_COUNT then Err ValueError
      else Ok (Overloaded ps)
  end.

(** [flatten_signature] (models.py:563-567) *)
Definition flatten_signature (s : signature) : list plain_signature :=
  match s with
  | Plain p => [p]
  | Overloaded ps => ps
  end.

(** [from_signatures] (models.py:570-575) *)
Definition from_signatures (ss : list signature) : res signature :=
  let plain_signatures := flat_map flatten_signature ss in
  match plain_signatures with
  | [p] => Ok (Plain p)
  | _ => new_overloaded (map Plain plain_signatures)
  end.

(** [OverloadedSignature.all_set] (models.py:499-501) and the plain case *)
Definition all_set (s : signature) (args : list V) (kwargs : dict pystr V) : bool :=
  match s with
  | Plain p => plain_all_set p args kwargs
  | Overloaded ps => existsb (fun p => plain_all_set p args kwargs) ps
  end.

(** [OverloadedSignature.expects] (models.py:503-505) and the plain case *)
Definition expects (s : signature) (args : list V) (kwargs : dict pystr V) : bool :=
  match s with
  | Plain p => plain_expects p args kwargs
  | Overloaded ps => existsb (fun p => plain_expects p args kwargs) ps
  end.

(** [OverloadedSignature.bind] (models.py:507-513) and the plain case *)
Definition bind (s : signature) (args : list V) (kwargs : dict pystr V) : res signature :=
  match s with
  | Plain p => map_res Plain (plain_bind p args kwargs)
  | Overloaded ps =>
      let* signatures :=
        map_m (fun p => plain_bind p args kwargs)
              (filter (fun p => plain_expects p args kwargs) ps) in
      match signatures with
      | [] => Err TypeError
      | _ => from_signatures (map Plain signatures)
      end
  end.

(** ** The methods as they are called.
    [all_set], [expects], [bind] are declared [(self, *args, **kwargs)]
    (models.py:279, 286, 290, 307, 344, 369, 499, 503, 507): a keyword argument
    called [self] collides with the receiver and Python itself raises
    [TypeError] before the body runs. *)
Definition call_method {A} (method : list V -> dict pystr V -> res A)
  (args : list V) (kwargs : dict pystr V) : res A :=
  if dmem $"self" kwargs then Err TypeError else method args kwargs.
Definition call_all_set (s : signature) := call_method (fun a k => Ok (all_set s a k)).
Definition call_expects (s : signature) := call_method (fun a k => Ok (expects s a k)).
Definition call_bind (s : signature) := call_method (bind s).

(** ** Equality. [are_equal] is [annotated.are_equal] on stored values. *)
Section Equality.
Variable are_equal : V -> V -> bool.

(** [RequiredParameter.__eq__] (models.py:113-119) and
    [OptionalParameter.__eq__] (models.py:199-208), both operands parameters.
    [type(self) is type(other)] is implied by the constructor match. *)
Definition parameter_eq (p q : parameter) : bool :=
  match p, q with
  | RequiredParameter a k n, RequiredParameter a' k' n' =>
      (n == n') && (k == k') && are_equal a a'
  | OptionalParameter a d k n, OptionalParameter a' d' k' n' =>
      (n == n') && (k == k')
      && match d, d' with
         | Some v, Some v' => are_equal v v'
         | None, None => true
         | _, _ => false
         end
      && are_equal a a'
  | _, _ => false
  end.

(** [==] on tuples: same length, element-wise. (CPython first tries identity of
    the elements; identity of stored objects is not modelled.) *)
Fixpoint tuple_eq {A} (eq : A -> A -> bool) (xs ys : list A) : bool :=
  match xs, ys with
  | [], [] => true
  | x :: xs', y :: ys' => eq x y && tuple_eq eq xs' ys'
  | _, _ => false
  end.

(** [PlainSignature.__eq__] (models.py:447-452) *)
Definition plain_eq (s t : plain_signature) : bool :=
  tuple_eq parameter_eq (parameters s) (parameters t)
  && are_equal (returns s) (returns t).

(** [OverloadedSignature.__eq__] (models.py:540-544) and the mixed cases *)
Definition signature_eq (s t : signature) : bool :=
  match s, t with
  | Plain p, Plain q => plain_eq p q
  | Overloaded ps, Overloaded qs => tuple_eq plain_eq ps qs
  | _, _ => false
  end.
End Equality.

(** ** Hashing: [None] is an unhashable value ([TypeError]). [hash_value],
    [hash_str], [hash_kind] and the tuple combiner [hash_tuple] are Python's. *)
Section Hashing.
Variable hash_value : V -> option Z.
Variable hash_str : pystr -> Z.
Variable hash_kind : kind -> Z.
Variable hash_tuple : list Z -> Z.

Fixpoint hash_all {A} (hash : A -> option Z) (xs : list A) : option (list Z) :=
  match xs with
  | [] => Some []
  | x :: xs' =>
      match hash x, hash_all hash xs' with
      | Some h, Some hs => Some (h :: hs)
      | _, _ => None
      end
  end.

(** models.py:126-127 and 218-221 *)
Definition parameter_hash (p : parameter) : option Z :=
  match p with
  | RequiredParameter a k n =>
      match hash_value a with
      | Some h => Some (hash_tuple [h; hash_kind k; hash_str n])
      | None => None
      end
  | OptionalParameter a d k n =>
      match hash_value a, d with
      | Some h, Some v =>
          match hash_value v with
          | Some h' => Some (hash_tuple [h; h'; hash_kind k; hash_str n])
          | None => None
          end
      | Some h, None => Some (hash_tuple [h; hash_kind k; hash_str n])
      | None, _ => None
      end
  end.

(** models.py:459-460 *)
Definition plain_hash (s : plain_signature) : option Z :=
  match hash_all parameter_hash (parameters s), hash_value (returns s) with
  | Some hs, Some h => Some (hash_tuple [hash_tuple hs; h])
  | _, _ => None
  end.

(** models.py:549-550 *)
Definition signature_hash (s : signature) : option Z :=
  match s with
  | Plain p => plain_hash p
  | Overloaded ps => option_map hash_tuple (hash_all plain_hash ps)
  end.
End Hashing.

(** ** Pickling: the arguments offered to [cls.__new__] and the call that
    unpickling makes with them. *)

(** [__getnewargs_ex__] (models.py:121-124, 210-216) *)
Inductive parameter_newargs :=
| RequiredArgs (annotation : V) (k : kind) (name : pystr)
| OptionalArgs (annotation : V) (default : option V) (k : kind) (name : pystr).
Definition parameter_getnewargs (p : parameter) : parameter_newargs :=
  match p with
  | RequiredParameter a k n => RequiredArgs a k n
  | OptionalParameter a d k n => OptionalArgs a d k n
  end.
Definition parameter_rebuild (args : parameter_newargs) : res parameter :=
  match args with
  | RequiredArgs a k n => new_required a (IsKind k) n
  | OptionalArgs a d k n => new_optional a d (IsKind k) n
  end.

(** [PlainSignature.__getnewargs_ex__] (models.py:454-457) and
    [OverloadedSignature.__getnewargs__] (models.py:546-547). *)
Inductive signature_newargs :=
| PlainArgs (ps : list parameter) (returns : V)
| OverloadedArgs (ss : list signature).
Definition signature_getnewargs (s : signature) : signature_newargs :=
  match s with
  | Plain p => PlainArgs (parameters p) (returns p)
  | Overloaded ps => OverloadedArgs (map Plain ps)
  end.
Definition signature_rebuild (args : signature_newargs) : res signature :=
  match args with
  | PlainArgs ps r => map_res Plain (new_plain ps r)
  | OverloadedArgs ss => new_overloaded ss
  end.

(** ** Text. [to_repr] is [annotated.to_repr], [repr_str] is [repr] on [str]. *)
Section Text.
Variable to_repr : V -> pystr.
Variable repr_str : pystr -> pystr.

(** [RequiredParameter.__repr__] (models.py:129-134),
    [OptionalParameter.__repr__] (models.py:223-231) *)
Definition parameter_repr (p : parameter) : pystr :=
  match p with
  | RequiredParameter a k n =>
      $"RequiredParameter" ++ $"(" ++ $"annotation=" ++ to_repr a ++ $", "
      ++ $"kind=" ++ kind_repr k ++ $", " ++ $"name=" ++ repr_str n ++ $")"
  | OptionalParameter a d k n =>
      $"OptionalParameter" ++ $"(" ++ $"annotation=" ++ to_repr a ++ $", "
      ++ match d with
         | Some v => $"default=" ++ to_repr v ++ $", "
         | None => []
         end
      ++ $"kind=" ++ kind_repr k ++ $", " ++ $"name=" ++ repr_str n ++ $")"
  end.

(** [RequiredParameter.__str__] (models.py:136-137),
    [OptionalParameter.__str__] (models.py:233-243) *)
Definition parameter_str (p : parameter) : pystr :=
  match p with
  | RequiredParameter a _ n => n ++ $": " ++ to_repr a
  | OptionalParameter a d k n =>
      (if k == VARIADIC_POSITIONAL then $"*"
       else if k == VARIADIC_KEYWORD then $"**" else [])
      ++ n ++ ($": " ++ to_repr a)
      ++ match d with
         | Some v => $" = " ++ to_repr v
         | None => []
         end
  end.

(** [PlainSignature.__repr__] (models.py:462-467) *)
Definition plain_repr (s : plain_signature) : pystr :=
  $"PlainSignature" ++ $"("
  ++ (if is_nil (parameters s) then []
      else join $", " (map parameter_repr (parameters s)) ++ $", ")
  ++ $"returns=" ++ to_repr (returns s) ++ $")".

(** The list [parts] of [PlainSignature.__str__] (models.py:470-488) with
    [POSITIONAL_ONLY_SEPARATOR], [KEYWORD_ONLY_SEPARATOR] (models.py:296-297) *)
Definition POSITIONAL_ONLY_SEPARATOR : pystr := $"/".
Definition KEYWORD_ONLY_SEPARATOR : pystr := $"*".
Definition plain_str_parts (s : plain_signature) : list pystr :=
  let parameters_by_kind := to_parameters_by_kind (parameters s) in
  let positionals_only := at_kind POSITIONAL_ONLY parameters_by_kind in
  let variadic_positionals := at_kind VARIADIC_POSITIONAL parameters_by_kind in
  let keywords_only := at_kind KEYWORD_ONLY parameters_by_kind in
  map parameter_str positionals_only
  ++ (if is_nil positionals_only then [] else [POSITIONAL_ONLY_SEPARATOR])
  ++ map parameter_str (at_kind POSITIONAL_OR_KEYWORD parameters_by_kind)
  ++ map parameter_str variadic_positionals
  ++ (if negb (is_nil keywords_only) && is_nil variadic_positionals
      then [KEYWORD_ONLY_SEPARATOR] else [])
  ++ map parameter_str keywords_only
  ++ map parameter_str (at_kind VARIADIC_KEYWORD parameters_by_kind).

(** [PlainSignature.__str__] (models.py:469-490) *)
Definition plain_str (s : plain_signature) : pystr :=
  $"(" ++ join $", " (plain_str_parts s) ++ $") -> " ++ to_repr (returns s).

(** [OverloadedSignature.__repr__] (models.py:552-554), [__str__] (556-557) *)
Definition signature_repr (s : signature) : pystr :=
  match s with
  | Plain p => plain_repr p
  | Overloaded ps => $"OverloadedSignature" ++ $"(" ++ join $", " (map plain_repr ps) ++ $")"
  end.
Definition signature_str (s : signature) : pystr :=
  match s with
  | Plain p => plain_str p
  | Overloaded ps => join $" | " (map plain_str ps)
  end.
End Text.

End Models.

Arguments parameter : clear implicits.
Arguments plain_signature : clear implicits.
Arguments signature : clear implicits.
