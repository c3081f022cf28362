(** C80: the texts of annotations. *)
From Verif Require Import Base Models SpecCall PyText PyExpr PyExprProofs SpecText TextProofs Annotated AnnotationText SpecAnnotationText AnnotationTextProofs.

(** The text of an annotation is an expression. Wherever builtins, typing and the parts of
    the annotation have their names, its value is equal to the annotation and has the same text. *)
Theorem C80_text_evaluates :
  forall printable class_text alias_text object_text bare_alias_text python_repr namespace generic takes v,
    let text := to_repr printable class_text alias_text object_text bare_alias_text python_repr in
    standard_names class_text alias_text object_text namespace ->
    annotation class_text alias_text object_text bare_alias_text namespace generic takes true v ->
    exists e, reads (text v) e
      /\ (forall e', reads (text v) e' -> e' = e)
      /\ forall n, exists v' n', evaluate namespace generic takes e n = Some (v', n')
           /\ are_equal v v' = true /\ text v' = text v.
Proof.
  intros printable class_text alias_text object_text bare_alias_text python_repr namespace generic takes v text S A.
  destruct (annotation_evaluates printable python_repr S A) as (e & Sh & E). pose proof (shows_reads Sh) as R. exists e.
  split; [exact R|]. split; [intros e' R'; exact (reads_unique R' R)|]. intros n. destruct (E n) as (v' & n' & E1 & _ & C & _).
  exists v', n'. split; [exact E1|]. split; [now apply copy_equal|]. now apply copy_text.
Qed.
Print Assumptions C80_text_evaluates.

(** What [annotation] covers: every value an expression can have, if each name stands for
    such a value and the aliases are named by what makes them; except for values with a
    [Literal] of a single tuple. *)
Theorem C80_values_covered :
  forall class_text alias_text object_text bare_alias_text namespace generic takes,
    (forall p v, namespace p = Some v ->
       annotation class_text alias_text object_text bare_alias_text namespace generic takes true v) ->
    (forall f o, generic f = Some o ->
       o <> UNION /\ o <> LITERAL /\ (forall i, o = CId i -> ~ special_type i)
       /\ names namespace (alias_head class_text alias_text object_text o) f) ->
    forall e n v n', Forall valid_str (strings e) -> evaluate namespace generic takes e n = Some (v, n') ->
      tuple_literal v = false ->
      annotation class_text alias_text object_text bare_alias_text namespace generic takes true v.
Proof.
  intros class_text alias_text object_text bare_alias_text namespace generic takes N G e n v n' S E T. apply strict_annotation; [|exact T].
  refine (value_annotation _ G e n S E). intros p w H. apply loose_annotation. exact (N p w H).
Qed.
Print Assumptions C80_values_covered.

(** [repr] of a signature over annotations evaluates to an equal signature; each annotation and
    default may be evaluated after any number [made] of type variables. *)
Theorem C80_signatures :
  forall printable class_text alias_text object_text bare_alias_text python_repr namespace generic takes
         (sentinel : N) (made : expr -> N) (s : signature value),
    let annotated := annotation class_text alias_text object_text bare_alias_text namespace generic takes true in
    standard_names class_text alias_text object_text namespace ->
    built (fun v => py_eq v (PObject sentinel)) s ->
    Forall (fun p => Forall (fun q => annotated (p_annotation q) /\ (forall d, p_default q = Some d -> annotated d)
                                      /\ valid_str (p_name q)) (parameters p)
                     /\ annotated (returns p)) (flatten_signature s) ->
    exists e s',
      reads (signature_repr (to_repr printable class_text alias_text object_text bare_alias_text python_repr) (repr_str printable) s) e
      /\ evaluate_signature (fun v => py_eq v (PObject sentinel))
           (fun e => option_map fst (evaluate namespace generic takes e (made e))) e = Some s'
      /\ signature_eq are_equal s s' = true.
Proof.
  intros printable class_text alias_text object_text bare_alias_text python_repr namespace generic takes sentinel made s annotated S B A.
  exact (signature_round_trip printable python_repr S sentinel made s B A).
Qed.
Print Assumptions C80_signatures.

(** A [Literal] of a single tuple is written like one of the elements:
    [typing.Literal[(1, 2)]]. *)
Theorem C80_literal_of_tuple_refuted :
  forall printable class_text alias_text object_text bare_alias_text python_repr namespace generic takes,
    standard_names class_text alias_text object_text namespace ->
    let v := PAlias LITERAL [PSequence TTuple [PNumber TInt 1; PNumber TInt 2]] in
    let v' := PAlias LITERAL [PNumber TInt 1; PNumber TInt 2] in
    exists e, reads (to_repr printable class_text alias_text object_text bare_alias_text python_repr v) e
      /\ (forall n, evaluate namespace generic takes e n = Some (v', n))
      /\ are_equal v v' = false.
Proof.
  intros printable class_text alias_text object_text bare_alias_text python_repr namespace generic takes S v v'.
  destruct (names_shows printable generic takes (sn_literal _ _ _ _ S)) as (el & Sl & El).
  exists (ESubscript el (ETuple [EInt 1; EInt 2])). split; [|split; [|reflexivity]].
  - apply (@shows_reads printable).
    replace (to_repr printable class_text alias_text object_text bare_alias_text python_repr v)
      with (alias_head class_text alias_text object_text LITERAL ++ 91%N :: ([] ++ (40%N :: $"1, 2" ++ [41%N]) ++ []) ++ [93%N]).
    + apply (@sh_subscript printable el _ [mk_item None (ETuple [EInt 1; EInt 2]) None] false); [exact Sl| |reflexivity].
      apply si_one; try reflexivity. apply si_value.
      apply (@sh_parentheses printable [mk_item None (EInt 1) None; mk_item None (EInt 2) None] true); [|reflexivity].
      change ($"1, 2") with ([] ++ repr_int 1 ++ [] ++ 44%N :: ([32%N] ++ repr_int 2 ++ [])).
      apply si_comma with (b := false); try reflexivity; [now apply si_value, sh_int|]. apply si_one; try reflexivity. now apply si_value, sh_int.
    + cbn [to_repr v]. change (LITERAL == UNION) with false. cbn iota. unfold alias_head, bracketed.
      destruct (alias_text LITERAL); reflexivity.
  - intros n. cbn [evaluate]. rewrite El. reflexivity.
Qed.
Print Assumptions C80_literal_of_tuple_refuted.

(** Parameter specifications are written by Python's own [repr], e.g. [~P]: no expression. *)
Theorem C80_parameter_specification_refuted :
  forall printable class_text alias_text object_text bare_alias_text python_repr i name bound contravariant covariant,
    let v := PParamSpec i name bound contravariant covariant in
    python_repr v = $"~" ++ name ->
    forall e, ~ reads (to_repr printable class_text alias_text object_text bare_alias_text python_repr v) e.
Proof.
  intros printable class_text alias_text object_text bare_alias_text python_repr i name bound contravariant covariant v P e (fuel & R).
  change (to_repr printable class_text alias_text object_text bare_alias_text python_repr v) with (python_repr v) in R. rewrite P in R. specialize (R fuel (le_n _)). destruct fuel; discriminate R.
Qed.
Print Assumptions C80_parameter_specification_refuted.

(** ** A small world *)
Module Small_text.
Definition ascii (c : N) : bool := (32 <=? c)%N && (c <? 127)%N.
Definition class_text (i : N) : pystr := if i == TYPE_VAR then $"typing.TypeVar" else if i == 10%N then $"builtins.int" else $"builtins.list".
Definition alias_text (o : ident) : option pystr := if o == CId 11 then Some $"typing.List" else None.
Definition object_text (i : N) : pystr :=
  if i == 0%N then $"typing.Union" else if i == 1%N then $"typing.Literal" else if i == 3%N then $"typing.Optional" else $"None".
Definition bare_alias_text (i : N) : pystr := $"typing.List".
Definition python_repr (v : value) : pystr := $"?".
Definition LIST : value := PBareAlias 20 (CId 11).
Definition int : value := PClass 10.
Definition table : list (path * value) :=
  [([$"None"], NONE); ([$"Ellipsis"], PObject 4); ([$"NotImplemented"], PObject 5); ([$"True"], PNumber TBool 1); ([$"False"], PNumber TBool 0);
   ([$"type"], PClass TYPE); ([$"typing"; $"TypeVar"], PClass TYPE_VAR); ([$"typing"; $"Union"], PObject 0); ([$"typing"; $"Literal"], PObject 1);
   ([$"typing"; $"Optional"], OPTIONAL); ([$"typing"; $"List"], LIST); ([$"builtins"; $"int"], int)].
Definition namespace (p : path) : option value := dget p table.
Definition generic (v : value) : option ident := match v with PBareAlias i o => Some o | _ => None end.
Definition takes (v : value) (tags : list N) : bool := length tags =? 1.
Notation text := (to_repr ascii class_text alias_text object_text bare_alias_text python_repr).

Lemma standard : standard_names class_text alias_text object_text namespace.
Proof.
  split; try reflexivity; [exists [$"typing"; $"TypeVar"]|exists [$"typing"; $"Union"]|exists [$"typing"; $"Optional"]|exists [$"typing"; $"Literal"]];
    (split; [discriminate|]; split; [now repeat constructor|]; split; reflexivity).
Qed.
(** [Optional[List[T]]] *)
Definition variable : value := PTypeVar 7 $"T" int false true [].
Definition optional : value := PAlias UNION [PClass NONE_TYPE; PAlias (CId 11) [variable]].
Lemma int_annotation : annotation class_text alias_text object_text bare_alias_text namespace generic takes true int.
Proof. apply an_class. exists [$"builtins"; $"int"]. split; [discriminate|]. split; [now repeat constructor|]. split; reflexivity. Qed.
Lemma variable_annotation : annotation class_text alias_text object_text bare_alias_text namespace generic takes true variable.
Proof.
  apply an_type_var; try reflexivity; [now repeat constructor|right; split; [apply int_annotation|reflexivity]|constructor|discriminate|now left].
Qed.
Lemma optional_annotation : annotation class_text alias_text object_text bare_alias_text namespace generic takes true optional.
Proof.
  apply an_union; try reflexivity; [|apply Forall_cons; [reflexivity|apply Forall_cons; [reflexivity|apply Forall_nil]]
    |apply FOP_cons; [apply Forall_cons; [reflexivity|apply Forall_nil]|apply FOP_cons; [apply Forall_nil|apply FOP_nil]]].
  constructor; [apply an_special; now left|]. constructor; [|constructor].
  apply (an_alias _ _ _ _ _ _ _ _ LIST); try reflexivity; try discriminate.
  - intros i E. injection E as <-. intros [H|[H|H]]; discriminate H.
  - exists [$"typing"; $"List"]. split; [discriminate|]. split; [now repeat constructor|]. split; reflexivity.
  - constructor; [apply variable_annotation|constructor].
Qed.
End Small_text.
Import Small_text.

Example C80_text : text optional = $"typing.Optional[typing.List[typing.TypeVar('T', bound=builtins.int, covariant=True)]]".
Proof. reflexivity. Qed.
Example C80_optional_evaluates : exists e, reads (text optional) e
  /\ forall n, exists v' n', evaluate namespace generic takes e n = Some (v', n') /\ are_equal optional v' = true.
Proof.
  destruct (C80_text_evaluates ascii class_text alias_text object_text bare_alias_text python_repr namespace generic takes optional standard optional_annotation) as (e & R & _ & E).
  exists e. split; [exact R|]. intros n. destruct (E n) as (v' & n' & E1 & E2 & _). eauto.
Qed.
(** The order of the members changes, the type variable is another one. *)
Example C80_optional_value :
  evaluate namespace generic takes
    (ESubscript (EAttribute (EName $"typing") $"Optional")
       (ESubscript (EAttribute (EName $"typing") $"List")
          (ECall (EAttribute (EName $"typing") $"TypeVar")
             [(None, EString $"T"); (Some $"bound", EAttribute (EName $"builtins") $"int"); (Some $"covariant", EName $"True")]))) 3
  = Some (PAlias UNION [PAlias (CId 11) [PTypeVar 3 $"T" int false true []]; PClass NONE_TYPE], 4%N).
Proof. reflexivity. Qed.
Example C80_special_texts :
  map text [PClass NONE_TYPE; PClass ELLIPSIS_TYPE; PSequence TTuple [int]; PSequence TTuple []; PSequence TList [int; PNumber TBool 1];
            PAlias LITERAL [PString $"it's"; PNumber TInt (-1)]; PAlias (CId 11) []; PAlias UNION [int; variable]]
  = [$"type(None)"; $"type(Ellipsis)"; $"(builtins.int,)"; $"()"; $"[builtins.int, True]"; $"typing.Literal[""it's"", -1]"; $"typing.List[()]";
     $"typing.Union[builtins.int, typing.TypeVar('T', bound=builtins.int, covariant=True)]"].
Proof. reflexivity. Qed.
(** A signature over them *)
Example C80_signature : exists e s',
  let s := Plain (mk_plain [OptionalParameter optional (Some (PNumber TInt 1)) KEYWORD_ONLY $"x"] variable) in
  reads (signature_repr text (repr_str ascii) s) e
  /\ evaluate_signature (fun v => py_eq v (PObject 9)) (fun e => option_map fst (evaluate namespace generic takes e 0)) e = Some s'
  /\ signature_eq are_equal s s' = true.
Proof.
  apply (C80_signatures ascii class_text alias_text object_text bare_alias_text python_repr namespace generic takes 9 (fun _ => 0%N)
           (Plain (mk_plain [OptionalParameter optional (Some (PNumber TInt 1)) KEYWORD_ONLY $"x"] variable)) standard).
  - exists [OptionalParameter optional (Some (PNumber TInt 1)) KEYWORD_ONLY $"x"], variable. split; [|reflexivity]. constructor; [|constructor].
    right. exists optional, (Some (PNumber TInt 1)), (IsKind KEYWORD_ONLY), $"x". reflexivity.
  - constructor; [|constructor]. split; [|apply variable_annotation]. constructor; [|constructor].
    split; [apply optional_annotation|]. split; [|now repeat constructor]. intros d E. injection E as <-. constructor.
Qed.
