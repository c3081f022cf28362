(** Properties C91, C92: what is recorded for the objects of stubs, and which generic
    classes can be specialised. *)
From Verif Require Import Base Ast Conversion Generics Scoping SpecScoping Stubs SpecStubs StubsProofs SpecRecords RecordsProofs P_Stubs.
From Verif Require Signatures Whole WholeProofs.
Import P_Stubs.Samples.

(** ** C91 *)
(** After a run there are no empty entries; every entry consists of assignments,
    annotations and functions; the last of them is of the kind recorded for the
    object, unless that is a class. *)
Theorem C91_definitions_fit_kinds :
  forall source is_package condition printable limit fuel modules st,
    parse_stubs_state source is_package condition printable limit fuel modules = Ok st -> well_recorded st.
Proof. exact @stubs_records. Qed.
Print Assumptions C91_definitions_fit_kinds.
(** Also when the bases of classes have not been dealt with yet *)
Theorem C91_parsed_definitions_fit_kinds :
  forall source is_package condition fuel modules st u,
    parse_modules source is_package condition fuel modules = Done st u -> well_recorded st.
Proof. exact @parse_modules_records. Qed.
Print Assumptions C91_parsed_definitions_fit_kinds.
(** Hence the assertion of [_load_ast_nodes] never fails, and no node is of a class
    that [_from_statement_node] does not know. *)
Theorem C91_nodes_can_be_loaded :
  forall source is_package condition printable limit fuel modules st m o,
    parse_stubs_state source is_package condition printable limit fuel modules = Ok st ->
    match Signatures.load_ast_nodes (Whole.signature_tables st) m o with
    | Signatures.Return nodes => nodes <> [] /\ ~ In Signatures.OtherStatement nodes
    | Signatures.SignatureNotFound => nodes_of_object st m o = []
    | Signatures.Throws _ => False
    end.
Proof.
  intros so ip co pr li fu mo st m o H. destruct (@stubs_records so ip co pr li fu mo st H) as [W _]. specialize (W m).
  unfold Signatures.load_ast_nodes. cbn [Whole.signature_tables Signatures.raw_ast_nodes].
  rewrite WholeProofs.values_get. unfold nodes_of_object. destruct (dget m (nodes st)) as [t|]; cbn [option_map]; [|reflexivity].
  rewrite WholeProofs.values_get. specialize (W t o).
  match goal with |- match match option_map _ ?x with _ => _ end with _ => _ end => change (dget o t) with x in W; destruct x as [l|] end; cbn [option_map].
  - destruct (W l eq_refl eq_refl) as [Hl Hd]. destruct l as [|s l]; [now destruct Hl|]. cbn [map]. split; [discriminate|].
    intros Hi. change (In Signatures.OtherStatement (map Whole.statement_of (s :: l))) in Hi. apply in_map_iff in Hi.
    destruct Hi as (x & Hx & Hi). rewrite Forall_forall in Hd. destruct (Hd x Hi) as (k & Hk). destruct Hk; discriminate Hx.
  - reflexivity.
Qed.
Print Assumptions C91_nodes_can_be_loaded.
(** The earlier definitions need not be of that kind. *)
Example C91_example :
  exists st, parsed [builtins; ([$"m"], [SAnnAssign (Name $"f") (Name $"int") None; def $"f" (Name $"str")])] [[$"m"]] = Ok st
    /\ kind_of_object st [$"m"] [$"f"] = Some Signatures.FUNCTION
    /\ nodes_of_object st [$"m"] [$"f"] = [SAnnAssign (Name $"f") (Name $"int") None; def $"f" (Name $"str")].
Proof. eexists. split; [vm_compute; reflexivity|]. repeat split. Qed.

(** ** C92 *)
(** [class A(Generic[T])] with a class [B] and a function in it, and [class C(A[int])] *)
Definition nested := [builtins; typing; ([$"m"], header ++ [
   SClassDef $"A" [sub $"Generic" $"T"] [def $"f" (Name $"T"); SClassDef $"B" [] []];
   SClassDef $"C" [sub $"A" $"int"] []])].
(** ... and without [C] *)
Definition unused := [builtins; typing; ([$"m"], header ++ [
   SClassDef $"A" [sub $"Generic" $"T"] [def $"f" (Name $"T"); SClassDef $"B" [] []]])].
(** The class with an inner class can be read; deriving from a specialisation of it
    makes the whole run fail. *)
Theorem C92_inner_class_refuted :
  (exists st, parsed unused [[$"typing"]; [$"m"]] = Ok st) /\ parsed nested [[$"typing"]; [$"m"]] = Err KeyError.
Proof. split; [eexists|]; vm_compute; reflexivity. Qed.
Print Assumptions C92_inner_class_refuted.
(** In general: no generic class with a member without definitions can be
    specialised. *)
Theorem C92_member_without_definitions_refuted :
  forall limit generic child_module specialization parameters arguments st d fields name,
    fst generic <> specializations_path -> well_recorded st ->
    dget (fst generic) (definitions (db st)) = Some d -> scope_at d (snd generic) = Ok fields ->
    In name (dkeys (entries fields)) -> nodes_of_object st (fst generic) (snd generic ++ [name]) = [] ->
    forall st', register_generic_specialization limit generic child_module specialization parameters arguments st <> Ok st'.
Proof. exact @register_missing. Qed.
Print Assumptions C92_member_without_definitions_refuted.
(** Conversely, after a run all members of specialised classes have definitions, in
    the generic class and in the specialisation. *)
Theorem C92_members_have_definitions_partial :
  forall source is_package condition printable limit fuel modules st n,
    parse_stubs_state source is_package condition printable limit fuel modules = Ok st ->
    defined (db st) specializations_path [n] ->
    exists generic,
      specialisation_of printable limit st n generic
      /\ defined (db st) (fst generic) (snd generic)
      /\ forall f, defined (db st) (fst generic) (snd generic ++ [f]) ->
           nodes_of_object st (fst generic) (snd generic ++ [f]) <> []
           /\ nodes_of_object st specializations_path [n; f] <> [].
Proof. exact @stubs_filled. Qed.
Print Assumptions C92_members_have_definitions_partial.
(** With such tables the copies in a specialisation are the definitions with
    arguments for parameters, whatever they are (C45). *)
Theorem C92_copies_partial :
  forall limit generic child_module specialization parameters arguments st st',
    fst generic <> specializations_path -> well_recorded st ->
    register_generic_specialization limit generic child_module specialization parameters arguments st = Ok st' ->
    exists d fields,
      dget (fst generic) (definitions (db st)) = Some d /\ scope_at d (snd generic) = Ok fields /\
      forall name, In name (dkeys (entries fields)) ->
        nodes_of_object st (fst generic) (snd generic ++ [name]) <> [] /\
        Forall2 (stmt_instance (table_of parameters arguments))
          (nodes_of_object st (fst generic) (snd generic ++ [name]))
          (nodes_of_object st' specializations_path (specialization ++ [name])) /\
        kind_of_object st' specializations_path (specialization ++ [name])
        = kind_of_object st (fst generic) (snd generic ++ [name]).
Proof.
  intros limit generic cm sp ps args st st' Hg W H.
  destruct (@C45_specialised_class limit generic cm sp ps args st st' Hg H) as (_ & fields & (d & Hd & Hf) & A).
  exists d, fields. split; [exact Hd|]. split; [exact Hf|]. intros name Hn. split.
  - intros HN. exact (@register_missing limit generic cm sp ps args st d fields name Hg W Hd Hf Hn HN st' H).
  - apply A; [exact Hn|]. intros node Hi n bases body ->. destruct W as [W _]. unfold nodes_of_object in Hi.
    destruct (dget (fst generic) (nodes st)) as [t|] eqn:Et; [|destruct Hi].
    match type of Hi with In _ (match ?x with _ => _ end) => destruct x as [l|] eqn:El; [|destruct Hi] end.
    destruct (W _ _ _ _ Et El) as [_ F]. rewrite Forall_forall in F. destruct (F _ Hi) as (k & Hk). inversion Hk.
Qed.
Print Assumptions C92_copies_partial.
Example C92_example :
  exists st, parsed tower [[$"typing"]; [$"m"]] = Ok st
    /\ defined (db st) specializations_path [$"A_getitem_T"]
    /\ nodes_of_object st specializations_path [$"A_getitem_T"; $"f"] = [def $"f" (Name $"T")].
Proof.
  eexists. split; [vm_compute; reflexivity|]. split; [|reflexivity].
  eexists. split; [reflexivity|]. econstructor; [reflexivity|constructor].
Qed.
