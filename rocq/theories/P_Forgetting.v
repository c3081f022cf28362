(** Property C112: classes that exist in stubs only are not lost by the weak dictionary they are
    cached in, as long as no two have the same name. *)
From Verif Require Import Base Ast Conversion Catalog Scoping Signatures Stubs Evaluation SpecEvaluation EvaluationProofs SpecAliases AliasProofs
  SpecForgetting ForgettingProofs P_Evaluation P_Aliases P_MadeOnce.
Import P_Evaluation.Samples.

Definition answer {V} (py : python V) (stubs : tables) (fuel : nat) (question : path * path * expr) (c : memory V) : memory V :=
  fst (evaluate_expression_node py stubs fuel (fst (fst question)) (snd (fst question)) (snd question) c).

Lemma all_kept {K A} `{Eqb K} (kept : K -> bool) (d : dict K A) : (forall k v, dget k d = Some v -> kept k = true) -> filter (fun x => kept (fst x)) d = d.
Proof.
  intros F.
  assert (G : forall x, In x d -> kept (fst x) = true).
  { intros [k v] I. cbn [fst]. assert (N : exists w, dget k d = Some w); [|destruct N as (w & N); now apply F in N].
    clear F. induction d as [|[k' v'] d IH]; [destruct I|]. rewrite dget_cons. destruct (eqb_reflect k k') as [->|X]; [now exists v'|].
    destruct I as [I|I]; [congruence|]. now apply IH. }
  clear F. induction d as [|x d IH]; [reflexivity|]. cbn [filter]. rewrite (G x (or_introl eq_refl)). f_equal. apply IH. intros y I. apply G. now right.
Qed.
Lemma folded_global {V} (l : list (qualified_path * V)) name v : (forall q w, In (q, w) l -> path_to_string (snd q) <> name) -> forall d, dget name d = Some v ->
  dget name (fold_left (fun d x => dset (path_to_string (snd (fst x))) (snd x) d) l d) = Some v.
Proof.
  induction l as [|[q' v'] l IH]; intros N d D; [exact D|]. cbn [fold_left fst snd]. apply IH; [intros q w X; exact (N q w (or_intror X))|].
  rewrite dget_dset. destruct (eqb_reflect name (path_to_string (snd q'))) as [E|X]; [|exact D]. destruct (N q' v' (or_introl eq_refl)). now symmetry.
Qed.

Section Kept.
Context {V : Type}.
Variable py : python V.
Variables (stubs : tables) (cs : dict qualified_path V) (gs : dict pystr V) (ats : dict path (dict pystr V)).
Variables (new : list qualified_path) (made : list qualified_path * dict qualified_path (dict pystr V)) (open : list qualified_path).
Hypothesis names_differ : forall q q', In q new -> In q' new -> path_to_string (snd q) = path_to_string (snd q') -> q = q'.
Hypothesis held_before : forall q v, dget q cs = Some v -> exists name, dget name gs = Some v /\ forall q', In q' new -> path_to_string (snd q') <> name.
Notation sound c := (sound py stubs cs [] gs ats new made open c).
Definition just_made (c : memory V) : Prop :=
  exists l, new_classes c = fst made ++ l /\ forall q, dget q (classes c) <> None <-> dget q cs <> None \/ In q l.

Lemma global_of c q v : sound c -> just_made c -> dget q (classes c) = Some v -> exists name, dget name (globals c) = Some v.
Proof.
  intros (Gr & _ & _ & _ & _ & _ & l & E & _ & _ & I & _ & _ & Gl) (l' & E' & H) D.
  assert (l' = l) as -> by (rewrite E in E'; now apply app_inv_head in E').
  destruct (dget q cs) as [w|] eqn:C.
  - pose proof (grown_made py stubs cs [] new q w c gs Gr C) as X. assert (w = v) as -> by (pose proof (eq_trans (eq_sym X) D); congruence).
    destruct (held_before q v C) as (name & N1 & N2). exists name. destruct Gr as (k & k' & L & _ & ->). apply folded_global; [|exact N1].
    intros q' w J. apply N2. destruct (L q' w) as (Y & _); [apply in_app_iff; now right|exact Y].
  - assert (J : In q l). { destruct (proj1 (H q)) as [X|X]; [intros X; pose proof (eq_trans (eq_sym D) X) as Y; discriminate Y|now destruct X|exact X]. }
    destruct (Gl q J (fun x => x)) as (q' & v' & J' & _ & S & G1 & G2).
    assert (q' = q) as -> by (apply names_differ; [apply (I q' J')|apply (I q J)|exact S]).
    exists (path_to_string (snd q)). pose proof (eq_trans (eq_sym G2) D) as Y. injection Y as ->. exact G1.
Qed.
Lemma nothing_lost c c' : sound c -> just_made c -> forgets c c' -> c' = c.
Proof.
  intros G J (kept & kept_module & K & ->).
  rewrite all_kept; [|intros q v D; destruct (global_of c q v G J D) as (name & N); exact (K q v name D N)].
  destruct G as (_ & (M & _) & _). rewrite M. cbn [filter]. destruct c. cbn in *. now subst.
Qed.
End Kept.

(** Whatever entries the weak dictionaries lose meanwhile, everything goes as if they lost none:
    with classes to be made that differ in their names. *)
Theorem C112_kept_partial :
  forall V (py : python V) (stubs : tables) new fuel depth open questions values c c',
    remembers_right py stubs (classes c) (modules c) new open (aliases c) -> depth < fuel -> modules c = [] ->
    (forall q q', In q new -> In q' new -> path_to_string (snd q) = path_to_string (snd q') -> q = q') ->
    (forall q v, dget q (classes c) = Some v -> exists name, dget name (globals c) = Some v /\ forall q', In q' new -> path_to_string (snd q') <> name) ->
    Forall2 (fun q v => means py (named py stubs (classes c) (modules c) new depth open (fst (fst q)) (snd (fst q))) (snd q) v) questions values ->
    asked (answer py stubs fuel) questions c c' -> c' = after py stubs fuel questions c.
Proof.
  intros V py stubs new fuel depth open questions values c c' A L M0 ND HB F K.
  assert (G : sound py stubs (classes c) (modules c) (globals c) (attributes c) new (new_classes c, annotations c) open c) by (now apply sound_start).
  assert (J : just_made (classes c) (new_classes c, annotations c) c) by (exists []; cbn; rewrite app_nil_r; split; [reflexivity|tauto]).
  rewrite M0 in F, G. clear A M0. revert F HB G J.
  generalize (classes c), (globals c), (attributes c), (new_classes c, annotations c). intros cs gs ats made F HB. revert values F.
  induction K as [c|[[m parent] e] questions c c' K IH|questions c c1 c' Fo K IH]; intros values F G J.
  - reflexivity.
  - inversion F as [|? v ? values' M F' E1 E2]; subst. cbn [fst snd] in M. cbn [after]. unfold answer in *. cbn [fst snd] in *.
    destruct (expression_sound py stubs cs [] gs ats new made ([], []) fuel depth [] open m parent
      ltac:(intros q' v' c2 Hs Hg; eapply path_sound; eauto; [intros ? ? []|intros ? []]) e v M c G) as (c2 & E & G').
    pose proof (grows_expression py stubs (evaluate_qualified_path py stubs fuel) (grows_path py stubs fuel) m parent e c) as (_ & _ & (l' & N' & H')).
    unfold evaluate_expression_node in *. rewrite E in *. cbn [fst] in *.
    apply (IH values' F' G'). destruct J as (l & N & H). exists (l ++ l'). split; [rewrite N', N; now rewrite app_assoc|].
    intros q. rewrite H', H, in_app_iff. tauto.
  - assert (c1 = c) as -> by (eapply nothing_lost; eauto). now apply IH with values.
Qed.
Print Assumptions C112_kept_partial.

(** At work: two classes that are in annotations of each other *)
Example C112_example :
  forall c', asked (answer py classes_ 5) [([$"m"], [], Name $"P"); ([$"m"], [], Name $"P")] empty c' ->
    new_classes c' = [in_m $"P"; in_m $"Q"].
Proof.
  intros c' H. rewrite (C112_kept_partial _ py classes_ new_ 5 4 [] [([$"m"], [], Name $"P"); ([$"m"], [], Name $"P")] [first_; first_] empty c').
  - vm_compute. reflexivity.
  - intros q w d v D. discriminate D.
  - auto.
  - reflexivity.
  - intros q q' [<-|[<-|[]]] [<-|[<-|[]]] E; try reflexivity; vm_compute in E; discriminate E.
  - intros q v D. discriminate D.
  - constructor; [|constructor; [|constructor]]; constructor; eexists; (split; [vm_compute; reflexivity|exact classes_P]).
  - exact H.
Qed.
(** Entries are lost otherwise: a class whose global name is gone *)
Example C112_loses :
  forgets (mk_memory [] [(in_m $"P", first_)] [] [[]] [] [] [] [in_m $"P"]) (mk_memory [] [] [] [[]] [] [] [] [in_m $"P"]).
Proof. exists (fun _ => false), (fun _ => false). split; [intros q v name _ D; discriminate D|reflexivity]. Qed.

(** Classes of the same name in two modules: the second takes the global name from the first, which
    is lost then, although nothing is wrong with the stubs, and made again when it is asked for
    again. *)
Definition namesakes : tables :=
  match parse_stubs_state
          (source [builtins; typing; ([$"m"], [SClassDef $"P" [] [SAnnAssign (Name $"x") (Name $"int") None]]); ([$"k"], [SClassDef $"P" [] []])])
          (fun _ => false) (fun _ _ => Ok true) (fun _ => true) 50 20 [[$"typing"]; [$"m"]; [$"k"]] with
  | Ok st => tables_of st
  | Err _ => mk_tables (fun _ _ _ => Err OtherException) [] [] [] []
  end.
Definition asked_m : path * path * expr := ([$"m"], [], Name $"P").
Definition asked_k : path * path * expr := ([$"k"], [], Name $"P").
Definition both := Eval vm_compute in after py namesakes 3 [asked_m; asked_k] empty.
Definition without := Eval vm_compute in
  mk_memory (aliases both) (filter (fun x => fst x == ([$"k"], [$"P"])) (classes both)) (modules both) (names both) (globals both) (attributes both)
    (annotations both) (new_classes both).
Lemma both_asked fuel : answer py namesakes (S (S (S fuel))) asked_k (answer py namesakes (S (S (S fuel))) asked_m empty) = both.
Proof. vm_compute. reflexivity. Qed.
Theorem C112_namesakes_refuted :
  exists (stubs : tables) (first second : path * path * expr) (p p' : qualified_path), p <> p' /\ forall fuel,
    exists c', asked (answer py stubs (S (S (S fuel)))) [first; second; first] empty c' /\ new_classes c' = [p; p'; p]
      /\ new_classes (after py stubs (S (S (S fuel))) [first; second; first] empty) = [p; p'].
Proof.
  exists namesakes, asked_m, asked_k, ([$"m"], [$"P"]), ([$"k"], [$"P"]). split; [discriminate|]. intros fuel.
  exists (answer py namesakes (S (S (S fuel))) asked_m without). split.
  - apply asked_next, asked_next. rewrite both_asked. apply (asked_forgets _ _ _ without); [|apply asked_next, asked_all].
    exists (fun q => q == ([$"k"], [$"P"])), (fun _ => true). split; [|vm_compute; reflexivity].
    intros q v name D G. unfold both in D, G. cbn [classes globals] in D, G. rewrite !dget_cons in D. rewrite dget_cons in G.
    destruct (name == _); [|discriminate G]. injection G as <-.
    match type of D with (if ?b then _ else _) = _ => destruct b eqn:?E end; [discriminate D|].
    change (@eqb qualified_path _ q ([[107%N]], [[80%N]]) = true). match type of D with (if ?b then _ else _) = _ => destruct b eqn:?E end; [assumption|discriminate D].
  - split; vm_compute; reflexivity.
Qed.
Print Assumptions C112_namesakes_refuted.

(** ** Whatever the stubs say *)
(** A class that is made and got is the value of the global name of its dotted name, and of the
    entry of the cache. *)
Theorem C112_held :
  forall V (py : python V) (stubs : tables) fuel q kinds c c' v,
    not_imported py q -> snd q <> [] -> dget (fst q) (stub_kinds stubs) = Some kinds -> dget (snd q) kinds = Some CLASS ->
    dget q (classes c) = None -> evaluate_qualified_path py stubs fuel q c = (c', Ok v) ->
    dget q (classes c') = Some v /\ dget (path_to_string (snd q)) (globals c') = Some v.
Proof.
  intros V py stubs fuel [m o] kinds c c' v NI O K1 K2 D E. cbn [fst snd] in *. destruct fuel as [|fuel]; [discriminate E|].
  assert (X : evaluate_object py stubs (evaluate_qualified_path py stubs fuel) m o c = (c', Ok v)).
  { cbn [evaluate_qualified_path fst snd] in E. destruct (import_object py (m, o)) as [| |w] eqn:I; [|exact E|now apply NI in I]. destruct o; [contradiction|exact E]. }
  unfold evaluate_object in X. replace (dget (m, o) (classes c)) with (@None V) in X by (symmetry; exact D).
  destruct (fetch m (stub_nodes stubs)) as [module_nodes|e]; [|discriminate X]. cbn [bind_res] in X.
  unfold fetch in X. replace (dget m (stub_kinds stubs)) with (Some kinds) in X by (symmetry; exact K1). cbn [bind_res] in X.
  replace (dget o kinds) with (Some CLASS) in X by (symmetry; exact K2). cbn [bind_res is_CLASS] in X.
  exact (proj2 (steady_class py stubs _ (steady_path py stubs fuel) m o module_nodes c (ex_intro _ kinds (conj K1 K2)) D) c' v X).
Qed.
Print Assumptions C112_held.

Lemma asked_more {V} (py : python V) (stubs : tables) fuel questions c c' :
  asked (answer py stubs fuel) questions c c' -> exists k, new_classes c' = new_classes c ++ k.
Proof.
  intros K. induction K as [c|[[m parent] e] questions c c' K (k & E)|questions c c1 c' (kept & kept_module & _ & ->) K (k & E)].
  - exists []. now rewrite app_nil_r.
  - destruct (steady_expression py stubs _ (steady_path py stubs fuel) m parent e c) as (k' & A & _).
    exists (k' ++ k). rewrite E. unfold answer, evaluate_expression_node. cbn [fst snd]. rewrite A. now rewrite app_assoc.
  - now exists k.
Qed.
(** A class that is remembered so is the same object for ever: whatever the evaluator is asked,
    whether it fails or not, and whatever the weak dictionaries lose meanwhile, as long as no class
    of the same dotted name is made. *)
Theorem C112_stays :
  forall V (py : python V) (stubs : tables) fuel questions q v c c' l,
    not_imported py q -> snd q <> [] ->
    dget q (classes c) = Some v -> dget (path_to_string (snd q)) (globals c) = Some v ->
    asked (answer py stubs fuel) questions c c' ->
    new_classes c' = new_classes c ++ l -> (forall q', In q' l -> path_to_string (snd q') <> path_to_string (snd q)) ->
    forall fuel', evaluate_qualified_path py stubs (S fuel') q c' = (c', Ok v).
Proof.
  intros V py stubs fuel questions q v c c' l NI O D G K N H fuel'. apply C110_found; [exact NI|exact O|].
  revert D G l N H. induction K as [c|[[m parent] e] questions c c' K IH|questions c c1 c' (kept & kept_module & F & ->) K IH]; intros D G l N H.
  - exact D.
  - destruct (steady_expression py stubs _ (steady_path py stubs fuel) m parent e c) as (k & A1 & _ & A2 & A3).
    destruct (asked_more py stubs fuel questions _ c' K) as (k' & E).
    unfold answer, evaluate_expression_node in IH, E. cbn [fst snd] in IH, E.
    assert (X : l = k ++ k') by (rewrite E, A1, <- app_assoc in N; now apply app_inv_head in N).
    apply (IH (proj1 (A2 q v D)) (eq_trans (A3 _ (fun q' I => H q' ltac:(rewrite X; apply in_app_iff; now left))) G) k' E).
    intros q' I. apply H. rewrite X. apply in_app_iff. now right.
  - apply (IH) with l; [|exact G|exact N|exact H]. clear - D F G. cbn [classes].
    assert (Y : kept q = true) by (exact (F q v _ D G)). clear F G. revert D. generalize (classes c). intros d. induction d as [|[q' v'] d IH]; intros D; [discriminate D|].
    rewrite dget_cons in D. cbn [filter fst]. destruct (kept q') eqn:Kq.
    + rewrite dget_cons. destruct (q == q'); [exact D|now apply IH].
    + destruct (eqb_reflect q q') as [->|_]; [congruence|now apply IH].
Qed.
Print Assumptions C112_stays.
(** Both at work: [P], then [Q], the annotations of which are about [P], then anything *)
Example C112_stays_example :
  exists c v, evaluate_qualified_path py classes_ 5 (in_m $"P") empty = (c, Ok v)
    /\ forall c' questions l, asked (answer py classes_ 5) questions c c' -> new_classes c' = new_classes c ++ l ->
         (forall q', In q' l -> path_to_string (snd q') <> $"P") -> evaluate_qualified_path py classes_ 1 (in_m $"P") c' = (c', Ok v).
Proof.
  destruct (evaluate_qualified_path py classes_ 5 (in_m $"P") empty) as [c r] eqn:E.
  assert (R : r = Ok first_) by (change r with (snd (c, r)); rewrite <- E; vm_compute; reflexivity). subst r.
  exists c, first_. split; [reflexivity|]. intros c' questions l K N H.
  assert (NI : not_imported py (in_m $"P")) by (intros w; discriminate).
  destruct (C112_held _ py classes_ 5 (in_m $"P") (dget_or [$"m"] [] (stub_kinds classes_)) empty c first_ NI ltac:(discriminate) ltac:(vm_compute; reflexivity) ltac:(vm_compute; reflexivity) eq_refl E) as (D & G).
  exact (C112_stays _ py classes_ 5 questions (in_m $"P") first_ c c' l NI ltac:(discriminate) D G K N H 0).
Qed.

(** A class that was made although its evaluation failed is no global name: it may be lost, and
    then it fails again, while the next evaluation gives it otherwise (C110_failed). *)
Theorem C112_failed_refuted :
  exists (stubs : tables) (q : qualified_path) c e v, evaluate_qualified_path py stubs 3 q empty = (c, Err e)
    /\ snd (evaluate_qualified_path py stubs 3 q c) = Ok v
    /\ exists c', forgets c c' /\ snd (evaluate_qualified_path py stubs 3 q c') = Err e.
Proof.
  exists broken_class, (in_m $"C"). do 3 eexists. split; [vm_compute; reflexivity|]. split; [vm_compute; reflexivity|].
  eexists. split; [exists (fun _ => false), (fun _ => false); split; [intros q v name _ D; discriminate D|reflexivity]|vm_compute; reflexivity].
Qed.
Print Assumptions C112_failed_refuted.

(** ** C88, whatever the stubs say *)
(** However evaluation ends, names of the evaluator are left alone but for dotted names of classes
    that are made meanwhile, which are classes of the stubs. *)
Theorem C88_no_other_names :
  forall V (py : python V) (stubs : tables) fuel q c c' r,
    evaluate_qualified_path py stubs fuel q c = (c', r) ->
    exists l, new_classes c' = new_classes c ++ l
      /\ (forall q', In q' l -> exists kinds, dget (fst q') (stub_kinds stubs) = Some kinds /\ dget (snd q') kinds = Some CLASS)
      /\ forall name, (forall q', In q' l -> path_to_string (snd q') <> name) -> dget name (globals c') = dget name (globals c).
Proof.
  intros V py stubs fuel q c c' r E. pose proof (steady_path py stubs fuel q c) as (l & A & B & _ & D). rewrite E in *. cbn [fst] in *.
  exists l. split; [exact A|]. split; [|exact D]. now rewrite Forall_forall in B.
Qed.
Print Assumptions C88_no_other_names.
(** So names that no class of the stubs has are left alone by any number of expressions. *)
Theorem C88_left_alone :
  forall V (py : python V) (stubs : tables) fuel questions name c,
    (forall m kinds o, dget m (stub_kinds stubs) = Some kinds -> dget o kinds = Some CLASS -> path_to_string o <> name) ->
    dget name (globals (after py stubs fuel questions c)) = dget name (globals c).
Proof.
  intros V py stubs fuel questions name c H. revert c. induction questions as [|[[m parent] e] questions IH]; intros c; cbn [after]; [reflexivity|].
  rewrite IH. destruct (steady_expression py stubs _ (steady_path py stubs fuel) m parent e c) as (l & _ & B & _ & D).
  apply D. intros q I. rewrite Forall_forall in B. destruct (B q I) as (kinds & K1 & K2). exact (H _ _ _ K1 K2).
Qed.
Print Assumptions C88_left_alone.
(** The stub of [m] above, with classes [P] and [Q], never changes [catalog]. *)
Example C88_left_alone_example :
  forall questions, dget $"catalog" (globals (after py classes_ 5 questions empty)) = None.
Proof.
  intros questions. rewrite C88_left_alone; [reflexivity|]. intros m kinds o K1 K2.
  assert (X : forallb (fun mk => forallb (fun ok => negb (path_to_string (fst ok) == $"catalog")) (snd mk)) (stub_kinds classes_) = true) by (vm_compute; reflexivity).
  rewrite forallb_forall in X. specialize (X _ (dget_Some_In _ _ K1)). cbn [snd] in X. rewrite forallb_forall in X. specialize (X _ (dget_Some_In _ _ K2)).
  cbn [fst] in X. intros E. rewrite E, eqb_refl in X. discriminate X.
Qed.

(** ** C110, whatever the stubs say *)
(** Once a class is remembered it is not made again, by whatever expressions, whether they fail or
    not, and stays the same object (as long as the weak dictionary loses nothing: C112). *)
Theorem C110_never_again :
  forall V (py : python V) (stubs : tables) fuel questions q v c,
    dget q (classes c) = Some v ->
    dget q (classes (after py stubs fuel questions c)) = Some v
    /\ exists l, new_classes (after py stubs fuel questions c) = new_classes c ++ l /\ ~ In q l.
Proof.
  intros V py stubs fuel questions q v. induction questions as [|[[m parent] e] questions IH]; intros c D; cbn [after].
  - split; [exact D|]. exists []. rewrite app_nil_r. split; [reflexivity|intros []].
  - destruct (steady_expression py stubs _ (steady_path py stubs fuel) m parent e c) as (l & A & _ & B & _). destruct (B q v D) as (D1 & N1 & _).
    destruct (IH _ D1) as (D2 & l' & A' & N2). split; [exact D2|]. exists (l ++ l'). split; [unfold evaluate_expression_node; rewrite A', A; now rewrite app_assoc|].
    rewrite in_app_iff. tauto.
Qed.
Print Assumptions C110_never_again.
(** The class that failed once, [class C: x: Undefined], is made once. *)
Example C110_never_again_example :
  forall questions, ~ In (in_m $"C") (skipn 1 (new_classes (after py broken_class 3 (([$"m"], [], Name $"C") :: questions) empty))).
Proof.
  intros questions. cbn [after]. set (c := fst (evaluate_expression_node py broken_class 3 [$"m"] [] (Name $"C") empty)).
  assert (N : new_classes c = [in_m $"C"]) by (vm_compute; reflexivity).
  assert (D : exists v, dget (in_m $"C") (classes c) = Some v) by (eexists; vm_compute; reflexivity). destruct D as (v & D).
  destruct (C110_never_again _ py broken_class 3 questions _ v c D) as (_ & l & E & X). rewrite E, N. exact X.
Qed.

(** ** C111, whatever the stubs say *)
(** The annotations of a class that is remembered are never changed: a class whose annotations
    failed never gets any. *)
Theorem C111_never_changed :
  forall V (py : python V) (stubs : tables) fuel questions q v c,
    dget q (classes c) = Some v ->
    dget q (Evaluation.annotations (after py stubs fuel questions c)) = dget q (Evaluation.annotations c).
Proof.
  intros V py stubs fuel questions q v. induction questions as [|[[m parent] e] questions IH]; intros c D; cbn [after]; [reflexivity|].
  destruct (steady_expression py stubs _ (steady_path py stubs fuel) m parent e c) as (l & _ & _ & B & _). destruct (B q v D) as (D1 & _ & M).
  exact (eq_trans (IH _ D1) M).
Qed.
Print Assumptions C111_never_changed.
(** [class C: x: int; y: Undefined]: no annotation, not even that of [x], ever, although the class
    is had the second time. *)
Definition half_annotated := stubs [SClassDef $"C" [] [SAnnAssign (Name $"x") (Name $"int") None; SAnnAssign (Name $"y") (Name $"Undefined") None]].
Theorem C111_failed_refuted :
  exists (stubs : tables) (question : path * path * expr) (q : qualified_path) (v : value),
    (exists e, snd (evaluate_expression_node py stubs 4 (fst (fst question)) (snd (fst question)) (snd question) empty) = Err e)
    /\ snd (evaluate_expression_node py stubs 4 (fst (fst question)) (snd (fst question)) (snd question) (after py stubs 4 [question] empty)) = Ok v
    /\ forall questions, dget q (Evaluation.annotations (after py stubs 4 (question :: questions) empty)) = None.
Proof.
  exists half_annotated, ([$"m"], [], Name $"C"), (in_m $"C"). eexists. split; [eexists; vm_compute; reflexivity|]. split; [vm_compute; reflexivity|].
  intros questions. cbn [after]. set (c := fst (evaluate_expression_node py half_annotated 4 [$"m"] [] (Name $"C") empty)).
  assert (D : exists v, dget (in_m $"C") (classes c) = Some v) by (eexists; vm_compute; reflexivity). destruct D as (v & D).
  rewrite (C111_never_changed _ py half_annotated 4 questions _ v c D). vm_compute. reflexivity.
Qed.
Print Assumptions C111_failed_refuted.
