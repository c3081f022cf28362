(** Properties C18, C19, C64 of comparison and hashing, with annotations and
    defaults being the Python values of [Annotated]. *)
From Verif Require Import Base Models SpecCall ModelsProofs ModelsMore Annotated SpecValue AnnotatedProofs.
From Coq Require Import Permutation.

(** Some annotations; class 1 is [int], 2 [str], 3 [list], 4 [tuple]. *)
Module Values.
Definition int := PClass 1.
Definition str := PClass 2.
Definition list_ := PClass 3.
Definition tuple_ := PClass 4.
Definition List_ := PBareAlias 1 (CId 3).                      (* typing.List *)
Definition List_of v := PAlias (CId 3) [v].                    (* typing.List[v] *)
Definition list_of v := PBuiltinAlias (CId 3) [v].             (* list[v] *)
Definition int_or_str := PUnionType [int; str].                (* int | str *)
Definition str_or_int := PUnionType [str; int].
Definition Union_int_str := PAlias UNION [int; str].
Definition Union_str_int := PAlias UNION [str; int].
Definition empty_tuple := PAlias (CId 4) [].                   (* typing.Tuple[()] *)
Definition T1 := PTypeVar 1 $"T" (PObject 9) false false [].
Definition T2 := PTypeVar 2 $"T" (PObject 9) false false [].
Definition one := PNumber TInt 1.
(** [(x: annotation) -> returns] *)
Definition sig (annotation returns : value) :=
  Plain (mk_plain [RequiredParameter annotation POSITIONAL_OR_KEYWORD $"x"] returns).
(** [x: annotation = default] *)
Definition opt (annotation default : value) :=
  OptionalParameter annotation (Some default) POSITIONAL_OR_KEYWORD $"x".
End Values.

(** ** C18 *)
Theorem C18_reflexive_partial :
  forall s : signature value,
    Forall (fun v => without_nan v = true) (signature_values s) -> signature_eq are_equal s s = true.
Proof. exact signature_values_refl. Qed.
Theorem C18_symmetric_partial :
  forall s t : signature value,
    Forall (fun v => tame v = true) (signature_values s) ->
    Forall (fun v => tame v = true) (signature_values t) ->
    signature_eq are_equal s t = signature_eq are_equal t s.
Proof. exact signature_values_sym. Qed.
Theorem C18_transitive_partial :
  forall r s t : signature value,
    Forall (fun v => tame v = true) (signature_values r) ->
    Forall (fun v => tame v = true) (signature_values s) ->
    Forall (fun v => tame v = true) (signature_values t) ->
    signature_eq are_equal r s = true -> signature_eq are_equal s t = true ->
    signature_eq are_equal r t = true.
Proof. exact signature_values_trans. Qed.
Theorem C18_parameters_partial :
  (forall p : parameter value,
     Forall (fun v => without_nan v = true) (parameter_values p) -> parameter_eq are_equal p p = true)
  /\ (forall p q : parameter value,
     Forall (fun v => tame v = true) (parameter_values p) ->
     Forall (fun v => tame v = true) (parameter_values q) ->
     parameter_eq are_equal p q = parameter_eq are_equal q p)
  /\ (forall p q r : parameter value,
     Forall (fun v => tame v = true) (parameter_values p) ->
     Forall (fun v => tame v = true) (parameter_values q) ->
     Forall (fun v => tame v = true) (parameter_values r) ->
     parameter_eq are_equal p q = true -> parameter_eq are_equal q r = true ->
     parameter_eq are_equal p r = true).
Proof. exact (conj parameter_values_refl (conj parameter_values_sym parameter_values_trans)). Qed.

(** The full statement fails in each of its three parts: a NaN default;
    [list] against [typing.List] (similarly [List[int]] against [list[int]]);
    [List[int | str]], [list[int | str]], [list[str | int]]. *)
Theorem C18_reflexive_refuted :
  exists p : parameter value, parameter_eq are_equal p p = false.
Proof. now exists (Values.opt Values.int (PNaN 1)). Qed.
Theorem C18_symmetric_refuted :
  exists s t : signature value, signature_eq are_equal s t = true /\ signature_eq are_equal t s = false.
Proof. now exists (Values.sig Values.list_ Values.int), (Values.sig Values.List_ Values.int). Qed.
Theorem C18_transitive_refuted :
  exists r s t : signature value,
    signature_eq are_equal r s = true /\ signature_eq are_equal s t = true
    /\ signature_eq are_equal r t = false.
Proof.
  now exists (Values.sig (Values.List_of Values.int_or_str) Values.int),
    (Values.sig (Values.list_of Values.int_or_str) Values.int),
    (Values.sig (Values.list_of Values.str_or_int) Values.int).
Qed.
Print Assumptions C18_reflexive_partial.
Print Assumptions C18_symmetric_partial.
Print Assumptions C18_transitive_partial.
Print Assumptions C18_parameters_partial.
Print Assumptions C18_reflexive_refuted.
Print Assumptions C18_symmetric_refuted.
Print Assumptions C18_transitive_refuted.

Example C18_subscripted_alias_asymmetric :
  are_equal (Values.List_of Values.int) (Values.list_of Values.int) = true
  /\ are_equal (Values.list_of Values.int) (Values.List_of Values.int) = false.
Proof. split; reflexivity. Qed.
Example C18_tame :
  let s := Values.sig (PAlias UNION [Values.List_of Values.int; Values.T1]) Values.one in
  let t := Values.sig (PAlias UNION [Values.T2; Values.List_of Values.int]) (PNumber TBool 1) in
  Forall (fun v => tame v = true) (signature_values s)
  /\ Forall (fun v => tame v = true) (signature_values t)
  /\ signature_eq are_equal s t = true /\ signature_eq are_equal t s = true
  /\ signature_eq are_equal s (Values.sig Values.int Values.int) = false.
Proof. cbn [signature_values]. repeat split; repeat constructor. Qed.

(** ** C19 *)
Theorem C19_hash_consistent_partial :
  forall (hash_value : value -> option Z) (hash_str : pystr -> Z) (hash_kind : kind -> Z)
         (hash_tuple : list Z -> Z) (s t : signature value) (h h' : Z),
    python_hash hash_value ->
    Forall (fun v => plain_value v = true) (signature_values s) ->
    Forall (fun v => plain_value v = true) (signature_values t) ->
    signature_eq are_equal s t = true ->
    signature_hash hash_value hash_str hash_kind hash_tuple s = Some h ->
    signature_hash hash_value hash_str hash_kind hash_tuple t = Some h' -> h = h'.
Proof. exact signature_values_hash. Qed.
Theorem C19_parameter_hash_consistent_partial :
  forall (hash_value : value -> option Z) (hash_str : pystr -> Z) (hash_kind : kind -> Z)
         (hash_tuple : list Z -> Z) (p q : parameter value) (h h' : Z),
    python_hash hash_value ->
    Forall (fun v => plain_value v = true) (parameter_values p) ->
    Forall (fun v => plain_value v = true) (parameter_values q) ->
    parameter_eq are_equal p q = true ->
    parameter_hash hash_value hash_str hash_kind hash_tuple p = Some h ->
    parameter_hash hash_value hash_str hash_kind hash_tuple q = Some h' -> h = h'.
Proof. exact parameter_values_hash. Qed.

(** Two structurally equal type variables are equal annotations, but they are
    hashed by identity: a legal hash function tells the signatures apart. *)
Module Identity.
Definition hash_value (v : value) : option Z :=
  match v with PTypeVar i _ _ _ _ _ => Some (Z.of_N i) | _ => Some 0%Z end.
Lemma legal : python_hash hash_value.
Proof.
  intros v w h h' E Hv Hw. destruct v; cbn in Hv; destruct w; cbn in Hw; try congruence; cbn in E.
  all: try discriminate E; try (apply eqb_to_eq in E; congruence); destruct ty; discriminate E.
Qed.
Definition hash_tuple (zs : list Z) : Z := fold_right Z.add 0%Z zs.
End Identity.
Theorem C19_hash_consistent_refuted :
  exists (hash_value : value -> option Z) (hash_str : pystr -> Z) (hash_kind : kind -> Z)
         (hash_tuple : list Z -> Z) (s t : signature value) (h h' : Z),
    python_hash hash_value
    /\ signature_eq are_equal s t = true
    /\ signature_hash hash_value hash_str hash_kind hash_tuple s = Some h
    /\ signature_hash hash_value hash_str hash_kind hash_tuple t = Some h'
    /\ h <> h'.
Proof.
  exists Identity.hash_value, (fun _ => 0%Z), (fun _ => 0%Z), Identity.hash_tuple,
    (Values.sig Values.T1 Values.int), (Values.sig Values.T2 Values.int), 1%Z, 2%Z.
  repeat split; try reflexivity; [exact Identity.legal | discriminate].
Qed.
Print Assumptions C19_hash_consistent_partial.
Print Assumptions C19_parameter_hash_consistent_partial.
Print Assumptions C19_hash_consistent_refuted.

Example C19_plain :
  let s := Values.sig (PAlias UNION [Values.List_of Values.int; Values.str]) Values.one in
  let t := Values.sig (PAlias UNION [Values.str; Values.List_of Values.int]) (PNumber TBool 1) in
  Forall (fun v => plain_value v = true) (signature_values s)
  /\ Forall (fun v => plain_value v = true) (signature_values t)
  /\ signature_eq are_equal s t = true.
Proof. cbn [signature_values]. repeat split; repeat constructor. Qed.
(** Other annotations that compare equal though Python's [==] tells them apart. *)
Example C19_not_plain :
  are_equal (PAlias LITERAL [Values.one]) (PAlias LITERAL [PNumber TBool 1]) = true
  /\ py_eq (PAlias LITERAL [Values.one]) (PAlias LITERAL [PNumber TBool 1]) = false
  /\ are_equal Values.tuple_ Values.empty_tuple = true
  /\ py_eq Values.tuple_ Values.empty_tuple = false.
Proof. repeat split. Qed.
(** A list equals itself although NaN, which it contains, does not. *)
Example C19_nan :
  py_eq (PSequence TList [PNaN 1]) (PSequence TList [PNaN 1]) = true
  /\ py_eq (PSequence TList [PNaN 1]) (PSequence TList [PNaN 2]) = false
  /\ py_eq (PNaN 1) (PNaN 1) = false.
Proof. repeat split. Qed.

(** ** C64: members of unions and literals are compared irrespective of order *)
Theorem C64_union_order_partial :
  forall (o : ident) (xs ys : list value),
    o = UNION \/ o = LITERAL -> Permutation xs ys -> Forall (fun v => without_nan v = true) xs ->
    are_equal (PAlias o xs) (PAlias o ys) = true.
Proof.
  intros o xs ys Ho. apply union_permutation. now destruct Ho; subst.
Qed.
(** ... they match member by member ... *)
Theorem C64_union_members :
  forall (o : ident) (xs ys : list value),
    o = UNION \/ o = LITERAL -> are_equal (PAlias o xs) (PAlias o ys) = true ->
    length xs = length ys
    /\ (forall x, In x xs -> exists y, In y ys /\ are_equal x y = true)
    /\ (forall y, In y ys -> exists x, In x xs /\ are_equal x y = true).
Proof. intros o xs ys Ho. apply union_members. now destruct Ho; subst. Qed.
(** ... every other generic is compared argument by argument ... *)
Theorem C64_other_generics :
  forall (o : ident) (xs ys : list value),
    o <> UNION -> o <> LITERAL ->
    are_equal (PAlias o xs) (PAlias o ys) = true <-> Forall2 (fun a b => are_equal a b = true) xs ys.
Proof.
  intros o xs ys H1 H2. apply alias_members. apply eqb_neq in H1, H2. unfold set_like. now rewrite H1, H2.
Qed.
(** ... but the order of [int | str] matters, although Python's [==] ignores it. *)
Theorem C64_pipe_union_order_refuted :
  exists xs ys : list value,
    Permutation xs ys /\ py_eq (PUnionType xs) (PUnionType ys) = true
    /\ are_equal (PUnionType xs) (PUnionType ys) = false.
Proof.
  exists [Values.int; Values.str], [Values.str; Values.int]. repeat split. constructor.
Qed.
Print Assumptions C64_union_order_partial.
Print Assumptions C64_union_members.
Print Assumptions C64_other_generics.
Print Assumptions C64_pipe_union_order_refuted.

Example C64_example :
  are_equal Values.Union_int_str Values.Union_str_int = true
  /\ are_equal (PAlias (CId 5) [Values.int; Values.str]) (PAlias (CId 5) [Values.str; Values.int]) = false.
Proof. split; reflexivity. Qed.
