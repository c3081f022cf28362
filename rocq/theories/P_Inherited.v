(** Property C97: which definitions the signatures of classes come from. *)
From Verif Require Import Base Models SpecCall Ast Scoping SpecScoping Stubs SpecStubs Signatures SpecSignatures HierarchyProofs Whole SpecWhole
  WholeProofs BuildersProofs Catalog Indexing SpecIndexing SpecDispatch DispatchProofs.
From Verif Require P_Evaluation P_Whole.

Lemma builders_like :
  forall V O (H : Eqb O) is_NONE is_Ellipsis (Any Self TypeSelf : V) (py : Evaluation.python V)
         sys_modules getattr own table introspect is_type as_value
         source is_package condition printable limit fuel modules m st,
    parse_stubs_state source is_package condition printable (S limit) fuel modules = Ok st ->
    was_read source is_package condition fuel modules [$"typing"] -> was_read source is_package condition fuel modules m ->
    exists body says,
      described source is_package condition fuel modules m body says
      /\ forall (o : O) p b gs fs value_of depth memory,
           has_places (S limit) st sys_modules getattr table own o -> is_type o = true ->
           (forall q, place_of (S limit) st sys_modules getattr table own o q -> exists l, lineage (db st) q l /\ length l <= S limit) ->
           choice (fun x => exists q, place_of (S limit) st sys_modules getattr table own o q /\ made_by st q x) (Some (m, p ++ [b])) ->
           (* the definitions of [b] in the class [p] *)
           Forall2 defines (nodes_in (p ++ [b]) says) gs -> gs <> [] -> Forall2 like fs gs ->
           (forall f, In f fs -> understood is_NONE py (S limit) (S depth) st memory value_of m p f /\ written (fd_args f) <> []) ->
           exists s,
             from_callable is_NONE is_Ellipsis Any Self TypeSelf (evaluate_node py (S limit) (S depth) st memory)
               (signature_tables st) (S limit) sys_modules getattr own introspect is_type as_value table (TypeCallable o) = Ok s
             /\ Forall2 (says_builder is_Ellipsis Any Self value_of) fs (flatten_signature s).
Proof.
  intros V O H is_NONE is_Ellipsis Any Self TypeSelf py sys_modules getattr own table introspect is_type as_value
    source is_package condition printable limit fuel modules m st E RT R.
  destruct (@described_content source is_package condition printable (S limit) fuel modules m st R E)
    as (body & says & Hd & T1 & _).
  exists body, says. split; [exact Hd|]. intros o p b gs fs value_of depth memory F T L Ch D Ne Lk U.
  apply (fun X => defines_alike X Lk) in D. apply (like_nonempty Lk) in Ne. rewrite <- T1 in D.
  destruct (@made_places source is_package condition printable limit fuel modules st E RT O H sys_modules getattr own table o F L)
    as (qs & Eq & Nq & B).
  apply (@stub_builder V is_NONE is_Ellipsis Any Self TypeSelf py limit depth st memory O _ sys_modules getattr own table
           introspect is_type as_value o qs m p b (nodes_of_object st m (p ++ [b])) fs value_of
           (says_builder is_Ellipsis Any Self value_of)); auto.
  - now apply (B (Some (m, p ++ [b]))).
  - intros f w ws ps Hf Ew A. destruct (fd_name f == $"__init__") eqn:X.
    + apply eqb_to_eq in X. left. split; [exact X|]. exists w, ws. auto.
    + apply eqb_neq in X. right. split; [exact X|]. exists w, ws. auto.
Qed.
(** The builder of a class is searched for among all classes it derives from, visited in
    order, all under the path of the class itself (C29). The class is called as the
    builder of what it is found to be says; if it is found in several places, that of
    their builders is taken which is the only one, [object.__new__] aside (C31). *)
Theorem C97_builders_partial :
  forall V O (H : Eqb O) is_NONE is_Ellipsis (Any Self TypeSelf : V) (py : Evaluation.python V)
         sys_modules getattr own table introspect is_type as_value
         source is_package condition printable limit fuel modules m st,
    parse_stubs_state source is_package condition printable (S limit) fuel modules = Ok st ->
    was_read source is_package condition fuel modules [$"typing"] -> was_read source is_package condition fuel modules m ->
    exists body says,
      described source is_package condition fuel modules m body says
      /\ forall (o : O) p b fs value_of depth memory,
           has_places (S limit) st sys_modules getattr table own o -> is_type o = true ->
           (forall q, place_of (S limit) st sys_modules getattr table own o q -> exists l, lineage (db st) q l /\ length l <= S limit) ->
           choice (fun x => exists q, place_of (S limit) st sys_modules getattr table own o q /\ made_by st q x) (Some (m, p ++ [b])) ->
           (* the definitions of [b] in the class [p] *)
           Forall2 defines (nodes_in (p ++ [b]) says) fs -> fs <> [] ->
           (forall f, In f fs -> understood is_NONE py (S limit) (S depth) st memory value_of m p f /\ written (fd_args f) <> []) ->
           exists s,
             from_callable is_NONE is_Ellipsis Any Self TypeSelf (evaluate_node py (S limit) (S depth) st memory)
               (signature_tables st) (S limit) sys_modules getattr own introspect is_type as_value table (TypeCallable o) = Ok s
             /\ Forall2 (says_builder is_Ellipsis Any Self value_of) fs (flatten_signature s).
Proof.
  intros V O H is_NONE is_Ellipsis Any Self TypeSelf py sys_modules getattr own table introspect is_type as_value
    source is_package condition printable limit fuel modules m st E RT R.
  destruct (@builders_like V O H is_NONE is_Ellipsis Any Self TypeSelf py sys_modules getattr own table introspect is_type as_value
    source is_package condition printable limit fuel modules m st E RT R) as (body & says & Hd & X).
  exists body, says. split; [exact Hd|]. intros. eapply X; eauto using all_like.
Qed.
Print Assumptions C97_builders_partial.

(** Without such a choice, it is introspected. *)
Theorem C97_undecided :
  forall V O (H : Eqb O) is_NONE is_Ellipsis (Any Self TypeSelf : V) (py : Evaluation.python V)
         sys_modules getattr own table introspect is_type as_value
         source is_package condition printable limit fuel modules st,
    parse_stubs_state source is_package condition printable (S limit) fuel modules = Ok st ->
    was_read source is_package condition fuel modules [$"typing"] ->
    forall (o : O) depth memory raw,
      has_places (S limit) st sys_modules getattr table own o ->
      (forall q, place_of (S limit) st sys_modules getattr table own o q -> exists l, lineage (db st) q l /\ length l <= S limit) ->
      choice (fun x => exists q, place_of (S limit) st sys_modules getattr table own o q /\ made_by st q x) None ->
      introspect o = Ok raw ->
      from_callable is_NONE is_Ellipsis Any Self TypeSelf (evaluate_node py (S limit) (S depth) st memory)
        (signature_tables st) (S limit) sys_modules getattr own introspect is_type as_value table (TypeCallable o)
      = from_raw_signature is_NONE Any (mk_raw_signature (raw_parameters raw) (Some Self)).
Proof.
  intros V O H is_NONE is_Ellipsis Any Self TypeSelf py sys_modules getattr own table introspect is_type as_value
    source is_package condition printable limit fuel modules st E RT o depth memory raw F L Ch Ir.
  destruct (@made_places source is_package condition printable limit fuel modules st E RT O H sys_modules getattr own table o F L)
    as (qs & Eq & Nq & B).
  cbn [from_callable]. unfold from_type_callable. rewrite Eq. cbn [obind]. replace (is_nil qs) with false by now destruct qs.
  apply (B None) in Ch. rewrite Ch. cbn [obind]. now rewrite Ir.
Qed.
Print Assumptions C97_undecided.

(** With the table of modules.py: classes found in several places of the modules indexed *)
Lemma choice_iff (B B' : qualified_path -> Prop) x : (forall b, B b <-> B' b) -> choice B x -> choice B' x.
Proof.
  intros E C. assert (X : forall (P P' : qualified_path -> Prop) b, (forall x, P x <-> P' x) -> only P b -> only P' b).
  { intros P P' b Y Z x'. rewrite <- Y. apply Z. }
  destruct C as [b C|b C1 C2|C1 C2].
  - apply ch_unique. eapply X; eauto.
  - apply ch_besides; [now apply E|]. eapply X; [|exact C2]. intros y. cbn beta. now rewrite E.
  - apply ch_none.
    + intros b Z. apply (C1 b). eapply X; [|exact Z]. intros y. now rewrite E.
    + intros Y b Z. apply E in Y. apply (C2 Y b). eapply X; [|exact Z]. intros y. cbn beta. now rewrite E.
Qed.
Theorem C96_several_classes_partial :
  forall V O (H : Eqb O) is_NONE is_Ellipsis (Any Self TypeSelf : V) (py : Evaluation.python V)
         sys_modules getattr described table introspect is_type as_value
         source is_package condition printable limit fuel modules m st
         O' (H' : Eqb O') (h : heap O') import_module depth' modules',
    parse_stubs_state source is_package condition printable (S limit) fuel modules = Ok st ->
    was_read source is_package condition fuel modules [$"typing"] -> was_read source is_package condition fuel modules m ->
    computed_table h import_module modules' depth' (db st) (S limit) table ->
    (forall o, is_type o = true <-> exists t, described o = TypeValue t) ->
    let found o r := lives_among h import_module modules' (db st) (S limit) sys_modules getattr o (qualified_path_from (described o)) r in
    exists body says,
      SpecWhole.described source is_package condition fuel modules m body says
      /\ forall (o : O) r0 builder depth memory,
           dispatched described (TypeCallable (V := V) o) o ->
           found o r0 ->
           all_looked_up h import_module modules' (db st) (S limit) sys_modules getattr o (qualified_path_from (described o)) ->
           (forall r, found o r -> exists l, lineage (db st) r l /\ length l <= S limit) ->
           choice (fun x => exists r, found o r /\ made_by st r x) builder ->
           let result := from_callable is_NONE is_Ellipsis Any Self TypeSelf (evaluate_node py (S limit) (S depth) st memory)
               (signature_tables st) (S limit) sys_modules getattr (fun o => qualified_path_from (described o)) introspect
               is_type as_value table (TypeCallable o) in
           (forall p b fs value_of,
              builder = Some (m, p ++ [b]) ->
              Forall2 defines (nodes_in (p ++ [b]) says) fs -> fs <> [] ->
              (forall f, In f fs -> understood is_NONE py (S limit) (S depth) st memory value_of m p f /\ written (fd_args f) <> []) ->
              exists s, result = Ok s /\ Forall2 (says_builder is_Ellipsis Any Self value_of) fs (flatten_signature s))
           /\ (forall raw,
                 builder = None -> introspect o = Ok raw ->
                 result = from_raw_signature is_NONE Any (mk_raw_signature (raw_parameters raw) (Some Self))).
Proof.
  intros V O H is_NONE is_Ellipsis Any Self TypeSelf py sys_modules getattr described table introspect is_type as_value
    source is_package condition printable limit fuel modules m st O' H' h import_module depth' modules' E RT R T It found.
  set (own := fun o => qualified_path_from (described o)).
  assert (P : forall o r, place_of (S limit) st sys_modules getattr table own o r <-> found o r)
    by (intros; now apply (@lives_places _ _ h import_module modules' depth' (db st) (S limit) table T)).
  destruct (@C97_builders_partial V O H is_NONE is_Ellipsis Any Self TypeSelf py sys_modules getattr own table introspect
    is_type as_value source is_package condition printable limit fuel modules m st E RT R) as (body & says & Hd & X).
  exists body, says. split; [exact Hd|]. intros o r0 builder depth memory Dc F A L Ch result.
  assert (Hp : has_places (S limit) st sys_modules getattr table own o)
    by (eapply (@lives_has_places _ _ h import_module modules' depth' (db st) (S limit) table T); eauto).
  assert (Yt : is_type o = true) by (apply It; inversion Dc; eauto).
  assert (L' : forall q, place_of (S limit) st sys_modules getattr table own o q -> exists l, lineage (db st) q l /\ length l <= S limit)
    by (intros q Q; apply L, P, Q).
  assert (C' : choice (fun x => exists r, place_of (S limit) st sys_modules getattr table own o r /\ made_by st r x) builder).
  { revert Ch. apply choice_iff. intros b. split; intros (r & Q & M); exists r; (split; [now apply P|exact M]). }
  split.
  - intros p b fs value_of -> D Ne U. now apply (X o p b fs value_of depth memory).
  - intros raw -> Ir. eapply C97_undecided; eauto.
Qed.
Print Assumptions C96_several_classes_partial.

(** So initializers are not inherited: unless one of the modules of the base classes
    defines a builder under the path of the class itself, the class is called as
    [object.__new__] is described in the stub of [builtins], whatever the bases define. *)
Theorem C97_inherited_builders_refuted :
  forall V O (H : Eqb O) is_NONE is_Ellipsis (Any Self TypeSelf : V) (py : Evaluation.python V)
         sys_modules getattr own table introspect is_type as_value
         source is_package condition printable limit fuel modules st,
    parse_stubs_state source is_package condition printable (S limit) fuel modules = Ok st ->
    was_read source is_package condition fuel modules [$"typing"] -> was_read source is_package condition fuel modules [$"builtins"] ->
    exists body says,
      described source is_package condition fuel modules [$"builtins"] body says
      /\ forall (o : O) fs value_of depth memory,
           has_places (S limit) st sys_modules getattr table own o -> is_type o = true ->
           (forall q, place_of (S limit) st sys_modules getattr table own o q -> exists l, lineage (db st) q l /\ length l <= S limit
              /\ forall d b, In d l -> ~ own_builder (signature_tables st) (fst d, snd q) b) ->
           Forall2 defines (nodes_in [$"object"; $"__new__"] says) fs -> fs <> [] ->
           (forall f, In f fs -> understood is_NONE py (S limit) (S depth) st memory value_of [$"builtins"] [$"object"] f /\ written (fd_args f) <> []) ->
           exists s,
             from_callable is_NONE is_Ellipsis Any Self TypeSelf (evaluate_node py (S limit) (S depth) st memory)
               (signature_tables st) (S limit) sys_modules getattr own introspect is_type as_value table (TypeCallable o) = Ok s
             /\ Forall2 (says_builder is_Ellipsis Any Self value_of) fs (flatten_signature s).
Proof.
  intros V O H is_NONE is_Ellipsis Any Self TypeSelf py sys_modules getattr own table introspect is_type as_value
    source is_package condition printable limit fuel modules st E RT RB.
  destruct (@C97_builders_partial V O H is_NONE is_Ellipsis Any Self TypeSelf py sys_modules getattr own table introspect is_type as_value
    source is_package condition printable limit fuel modules [$"builtins"] st E RT RB) as (body & says & Hd & X).
  exists body, says. split; [exact Hd|]. intros o fs value_of depth memory F T L D Ne U.
  apply (X o [$"object"] $"__new__"); auto.
  - intros q Pq. destruct (L q Pq) as (l & L1 & L2 & _). eauto.
  - apply ch_unique. assert (Y : forall q, place_of (S limit) st sys_modules getattr table own o q -> only (made_by st q) object_new).
    { intros q Pq. destruct (L q Pq) as (l & L1 & _ & N). clear - L1 N.
      assert (N0 : forall b, nearest (signature_tables st) (map (fun d => (fst d, snd q)) l) b <-> b = object_new).
      { clear L1. induction l as [|d l IH]; cbn [map]; intros b.
        - split; [now inversion 1|intros ->; constructor].
        - assert (Nd : forall b, ~ own_builder (signature_tables st) (fst d, snd q) b) by (intros; apply N; now left).
          rewrite <- IH by (intros; apply N; now right). split; intros Y.
          + inversion Y as [|? ? ? Z|? ? ? _ Z]; subst; [now apply Nd in Z|exact Z].
          + now apply ne_later. }
      intros b. rewrite <- N0. split.
      - intros (l' & L' & Y). now rewrite (@lineage_unique (signature_tables st) _ _ _ L1 L').
      - intros Y. exists l. auto. }
    destruct F as [(q0 & P0) _]. intros b. split.
    + intros (q & Pq & M). now apply (Y q Pq).
    + intros ->. exists q0. split; [exact P0|]. now apply (Y q0 P0).
Qed.
Print Assumptions C97_inherited_builders_refuted.

(** ** Two classes deriving from one that takes an argument *)
Module Example.
Import P_Evaluation.Samples P_Whole.Example.
(** [class object: def __new__(cls) -> Any], [class B: def __init__(self, x: int)],
    [class A(B)]; in another module [class B(m.B)] *)
Definition object_ := SClassDef $"object" [] [SFunctionDef
  (mk_function_def $"__new__" (mk_arguments [] [mk_arg $"cls" None] None [] [] None []) [] None)].
Definition modules := [(fst builtins, snd builtins ++ [object_]); ([$"typing"], [SClassDef $"NamedTuple" [] []]);
  ([$"m"], [SClassDef $"B" [] [SFunctionDef init]; SClassDef $"A" [Name $"B"] []]);
  ([$"n"], [SImport [mk_alias $"m" None]; SClassDef $"B" [Attribute (Name $"m") $"B"] []])].
Definition names : list path := [[$"builtins"]; [$"typing"]; [$"m"]; [$"n"]].
Definition parsed : res state :=
  parse_stubs_state (source modules) (fun _ => false) (fun _ _ => Ok true) (fun _ => true) 50 20 names.
Definition st : state := match parsed with Ok st => st | Err _ => empty_state end.
Definition signature_of (q : qualified_path) : res (signature value) :=
  from_callable (fun _ => false) (fun v => match v with VConstant CEllipsis => true | _ => false end)
    (VOperation []) (VModule $"Self") (VModule $"TypeSelf") (evaluate_node py 50 20 st empty)
    (signature_tables st) 50 [] (fun _ _ => None) (fun q => q) (fun _ => Err ValueError)
    (fun _ => true) VObject [] (TypeCallable q).
End Example.
Import P_Evaluation.Samples P_Whole.Example Example.
(** [A(1)] is what [B.__init__] allows; by the signature obtained, [A()] is. The class
    [n.B], called as its base, gets the signature of its base. *)
Example C97_example :
  bases (db st) ([$"m"], [$"A"]) = [([$"m"], [$"B"])] /\ bases (db st) ([$"n"], [$"B"]) = [([$"m"], [$"B"])]
  /\ signature_of ([$"m"], [$"B"]) = Ok (Plain (mk_plain [RequiredParameter (named_ $"int") POSITIONAL_ONLY $"x"] (VModule $"Self")))
  /\ signature_of ([$"m"], [$"A"]) = Ok (Plain (mk_plain [] (VOperation [])))
  /\ signature_of ([$"n"], [$"B"]) = signature_of ([$"m"], [$"B"]).
Proof.
  split; [vm_compute; reflexivity|]. split; [vm_compute; reflexivity|]. split; [vm_compute; reflexivity|].
  split; vm_compute; reflexivity.
Qed.
(** The hypotheses of both theorems hold. *)
Lemma none_built stubs m p t : dget m (raw_ast_nodes stubs) = Some t ->
  dmem (p ++ [$"__init__"]) t = false -> dmem (p ++ [$"__new__"]) t = false -> forall b, ~ own_builder stubs (m, p) b.
Proof.
  intros Et E1 E2 b Hb. apply (has_nodes_not _ _ _ Et) in E1. apply (has_nodes_not _ _ _ Et) in E2.
  inversion Hb; subst; tauto.
Qed.
Lemma initialized stubs m p t : dget m (raw_ast_nodes stubs) = Some t ->
  dmem (p ++ [$"__init__"]) t = true -> own_builder stubs (m, p) (m, p ++ [$"__init__"]).
Proof. intros Et E. constructor. exact (proj1 (has_nodes_dmem _ _ _ Et) E). Qed.
Lemma found_itself limit st (q : qualified_path) : fst q <> [] -> snd q <> [] -> resolve_object_path (db st) limit (fst q) [] (snd q) [] = Resolved q ->
  has_places limit st [] (fun (_ : qualified_path) _ => None) [] (fun q => q) q
  /\ only (place_of limit st [] (fun (_ : qualified_path) _ => None) [] (fun q => q) q) q.
Proof.
  intros N1 N2 E.
  assert (C : forall c, candidate [] (fun (_ : qualified_path) _ => None) [] q q c -> c = q) by (intros c C; now inversion C).
  assert (P : place_of limit st [] (fun (_ : qualified_path) _ => None) [] (fun q => q) q q).
  { exists q. split; [now apply ca_itself|]. auto. }
  split; [split|].
  - now exists q.
  - intros c Hc e. apply C in Hc. rewrite Hc, E. discriminate.
  - intros x. split; [|now intros ->]. intros (c & Hc & R & _). apply C in Hc. subst c. congruence.
Qed.
Lemma computed_lineage st limit c l : to_mro (signature_tables st) limit c = (l, None) -> lineage (db st) c l.
Proof. apply mro_lineage. Qed.
Definition table_of (m : path) := match dget m (raw_ast_nodes (signature_tables st)) with Some t => t | None => [] end.
Lemma tables : dget [$"m"] (raw_ast_nodes (signature_tables st)) = Some (table_of [$"m"])
  /\ dget [$"n"] (raw_ast_nodes (signature_tables st)) = Some (table_of [$"n"]).
Proof. split; vm_compute; reflexivity. Qed.
Example C97_example_hypotheses :
  parsed = Ok st
  /\ lineage (db st) ([$"m"], [$"A"]) [([$"m"], [$"A"]); ([$"m"], [$"B"])]
  /\ (forall d b, In d [([$"m"], [$"A"]); ([$"m"], [$"B"])] -> ~ own_builder (signature_tables st) (fst d, [$"A"]) b)
  /\ lineage (db st) ([$"n"], [$"B"]) [([$"n"], [$"B"]); ([$"m"], [$"B"])]
  /\ made_by st ([$"n"], [$"B"]) ([$"m"], [$"B"] ++ [$"__init__"])
  /\ has_places 50 st [] (fun _ _ => None) [] (fun q => q) ([$"n"], [$"B"])
  /\ only (place_of 50 st [] (fun _ _ => None) [] (fun q => q) ([$"n"], [$"B"])) ([$"n"], [$"B"]).
Proof.
  destruct tables as [Tm Tn].
  assert (A : forall b, ~ own_builder (signature_tables st) ([$"m"], [$"A"]) b).
  { apply (@none_built _ _ _ _ Tm); vm_compute; reflexivity. }
  assert (B : own_builder (signature_tables st) ([$"m"], [$"B"]) ([$"m"], [$"B"] ++ [$"__init__"])).
  { apply (@initialized _ _ _ _ Tm); vm_compute; reflexivity. }
  assert (C : forall b, ~ own_builder (signature_tables st) ([$"n"], [$"B"]) b).
  { apply (@none_built _ _ _ _ Tn); vm_compute; reflexivity. }
  split; [vm_compute; reflexivity|].
  split; [apply (@computed_lineage st 50); vm_compute; reflexivity|].
  split; [intros d b [<-|[<-|[]]]; apply A|].
  assert (L : lineage (db st) ([$"n"], [$"B"]) [([$"n"], [$"B"]); ([$"m"], [$"B"])]).
  { apply (@computed_lineage st 50). vm_compute. reflexivity. }
  split; [exact L|]. split; [exact (ex_intro _ _ (conj L (@ne_later _ _ _ _ C (@ne_here _ _ _ _ B))))|].
  apply found_itself; [discriminate|discriminate|]. vm_compute. reflexivity.
Qed.
(** ** A class found in two places: [m.B] of an extension, which is [n.B] too *)
Module Several.
Definition described_ (o : nat) : Catalog.value := match o with 2 => TypeValue (mk_type $"m" $"B") | _ => OtherValue end.
Definition h : heap nat := mk_heap nat described_ (fun o => match o with 0 | 1 => [($"B", 2)] | _ => [] end).
Definition import_module (m : path) : option nat := if m == [$"m"] then Some 0 else if m == [$"n"] then Some 1 else None.
Definition sys_modules : dict pystr nat := [($"m", 0); ($"n", 1)].
Definition getattr (o : nat) (n : pystr) : option nat := dget n (members h o).
Definition own (o : nat) : qualified_path := qualified_path_from (described_ o).
Definition table : index := [([$"m"], [([$"B"], [([$"m"], [$"B"]); ([$"n"], [$"B"])])])].
Definition signature_of : res (signature value) :=
  from_callable (fun _ => false) (fun v => match v with VConstant CEllipsis => true | _ => false end)
    (VOperation []) (VModule $"Self") (VModule $"TypeSelf") (evaluate_node py 50 20 st empty)
    (signature_tables st) 50 sys_modules getattr own (fun _ => Err ValueError)
    (fun o => match described_ o with TypeValue _ => true | _ => false end) (fun _ => VConstant CNone) table (TypeCallable 2).
End Several.
Example C96_several_example :
  computed_table Several.h Several.import_module [[$"m"]; [$"n"]] 10 (db st) 50 Several.table
  /\ dispatched Several.described_ (TypeCallable (V := value) 2) 2
  /\ (forall r, lives_among Several.h Several.import_module [[$"m"]; [$"n"]] (db st) 50 Several.sys_modules Several.getattr 2 (Several.own 2) r
                <-> r = ([$"m"], [$"B"]) \/ r = ([$"n"], [$"B"]))
  /\ all_looked_up Several.h Several.import_module [[$"m"]; [$"n"]] (db st) 50 Several.sys_modules Several.getattr 2 (Several.own 2)
  /\ (forall r x, r = ([$"m"], [$"B"]) \/ r = ([$"n"], [$"B"]) -> (made_by st r x <-> x = ([$"m"], [$"B"; $"__init__"])))
  /\ Several.signature_of = Example.signature_of ([$"m"], [$"B"]).
Proof.
  assert (T : computed_table Several.h Several.import_module [[$"m"]; [$"n"]] 10 (db st) 50 Several.table).
  { eexists. split; [vm_compute; reflexivity|]. vm_compute. reflexivity. }
  pose proof (@candidates _ _ _ _ _ _ _ _ _ T _ Several.sys_modules Several.getattr 2 (Several.own 2)) as K.
  assert (C : forall c, looked_for Several.h Several.import_module [[$"m"]; [$"n"]] (db st) 50 Several.sys_modules Several.getattr 2 (Several.own 2) c
              <-> c = ([$"m"], [$"B"]) \/ c = ([$"n"], [$"B"])).
  { intros c. rewrite <- K. split.
    - intros [cs c' X Y _|X _]; [|discriminate X]. injection X as <-. destruct Y as [<-|[<-|[]]]; auto.
    - intros Y. eapply ca_listed; [reflexivity|destruct Y as [->| ->]; [now left|right; now left]|].
      right. destruct Y as [->| ->]; [exists 0|exists 1]; (split; [reflexivity|]); (econstructor; [reflexivity|constructor]). }
  assert (Rm : resolve_object_path (db st) 50 [$"m"] [] [$"B"] [] = Resolved ([$"m"], [$"B"])) by (vm_compute; reflexivity).
  assert (Rn : resolve_object_path (db st) 50 [$"n"] [] [$"B"] [] = Resolved ([$"n"], [$"B"])) by (vm_compute; reflexivity).
  destruct tables as [Tm Tn].
  assert (B : own_builder (signature_tables st) ([$"m"], [$"B"]) ([$"m"], [$"B"] ++ [$"__init__"])).
  { apply (@initialized _ _ _ _ Tm); vm_compute; reflexivity. }
  assert (N : forall b, ~ own_builder (signature_tables st) ([$"n"], [$"B"]) b).
  { apply (@none_built _ _ _ _ Tn); vm_compute; reflexivity. }
  assert (Lm : lineage (db st) ([$"m"], [$"B"]) [([$"m"], [$"B"])]) by (apply (@computed_lineage st 50); vm_compute; reflexivity).
  assert (Ln : lineage (db st) ([$"n"], [$"B"]) [([$"n"], [$"B"]); ([$"m"], [$"B"])])
    by (apply (@computed_lineage st 50); vm_compute; reflexivity).
  split; [exact T|]. split; [econstructor; reflexivity|]. split; [|split; [|split]].
  - intros r. split.
    + intros (_ & _ & c & Hc & R). apply C in Hc as [->| ->]; cbn [fst snd] in R; [left|right]; congruence.
    + intros [->| ->]; (split; [discriminate|]; split; [discriminate|]).
      * exists ([$"m"], [$"B"]). split; [apply C; auto|exact Rm].
      * exists ([$"n"], [$"B"]). split; [apply C; auto|exact Rn].
  - intros c e Hc. apply C in Hc as [->| ->]; cbn [fst snd]; congruence.
  - intros r x Hr. split.
    + intros (l & L & M). assert (U : forall b, own_builder (signature_tables st) ([$"m"], [$"B"]) b -> b = ([$"m"], [$"B"; $"__init__"])).
      { intros b Hb. inversion Hb; subst; [reflexivity|]. exfalso.
        assert (I : has_nodes (signature_tables st) [$"m"] ([$"B"] ++ [$"__init__"])).
        { apply (proj1 (has_nodes_dmem _ _ _ Tm)). vm_compute. reflexivity. }
        tauto. }
      destruct Hr as [->| ->].
      * rewrite <- (@lineage_unique (signature_tables st) _ _ _ Lm L) in M. cbn [map fst snd] in M.
        inversion M as [|c r b M1|c r b M1 M2]; subst; [now apply U|]. exfalso. exact (M1 _ B).
      * rewrite <- (@lineage_unique (signature_tables st) _ _ _ Ln L) in M. cbn [map fst snd] in M.
        inversion M as [|c r b M1|c r b M1 M2]; subst; [exfalso; exact (N _ M1)|].
        inversion M2 as [|c' r' b' M3|c' r' b' M3 M4]; subst; [now apply U|]. exfalso. exact (M3 _ B).
    + intros ->. destruct Hr as [->| ->].
      * exists [([$"m"], [$"B"])]. split; [exact Lm|]. now apply ne_here.
      * exists [([$"n"], [$"B"]); ([$"m"], [$"B"])]. split; [exact Ln|]. now apply ne_later, ne_here.
  - vm_compute. reflexivity.
Qed.
