(** Property C106: type aliases that exist in stubs only. *)
From Verif Require Import Base Ast Conversion Catalog Scoping Signatures Stubs Evaluation SpecEvaluation EvaluationProofs SpecAliases AliasProofs
  P_Evaluation.
Import P_Evaluation.Samples.

(** What a path stands for is one value, whatever aliases are made of. *)
Theorem C106_one_meaning :
  forall V (py : python V) (stubs : tables) made_classes made_modules new depth open depth' open' q v w,
    stands_for py stubs made_classes made_modules new depth open q v ->
    stands_for py stubs made_classes made_modules new depth' open' q w -> v = w.
Proof. intros *. apply stands_for_one. Qed.
Print Assumptions C106_one_meaning.

(** The evaluator finds what a path stands for, unless it needs one of the aliases [open]
    that it remembers wrongly. Of classes, it makes some of [new] only (none, if there are none);
    the modules it has made, and what has been put into them, stay as they are, and what it remembers of other aliases stays right. *)
Theorem C106_paths_partial :
  forall V (py : python V) (stubs : tables) new fuel depth open q v c,
    stands_for py stubs (classes c) (modules c) new depth open q v -> depth < fuel ->
    remembers_right py stubs (classes c) (modules c) new open (aliases c) ->
    exists c', evaluate_qualified_path py stubs fuel q c = (c', Ok v)
      /\ grown py stubs (classes c) (modules c) new (classes c') (globals c) (globals c') /\ modules c' = modules c /\ attributes c' = attributes c
      /\ remembers_right py stubs (classes c) (modules c) new open (aliases c').
Proof. intros *. apply paths_evaluated. Qed.
Print Assumptions C106_paths_partial.
(** The same for expressions *)
Theorem C106_expressions_partial :
  forall V (py : python V) (stubs : tables) new fuel depth open m parent e v c,
    means py (named py stubs (classes c) (modules c) new depth open m parent) e v -> depth < fuel ->
    remembers_right py stubs (classes c) (modules c) new open (aliases c) ->
    exists c', evaluate_expression_node py stubs fuel m parent e c = (c', Ok v)
      /\ grown py stubs (classes c) (modules c) new (classes c') (globals c) (globals c') /\ modules c' = modules c /\ attributes c' = attributes c
      /\ remembers_right py stubs (classes c) (modules c) new open (aliases c').
Proof. intros *. apply expressions_evaluated. Qed.
Print Assumptions C106_expressions_partial.

(** Without stub-only classes that may be made, none is, and the global names of the evaluator
    stay as they are (C88). *)
Theorem C106_no_classes :
  forall V (py : python V) (stubs : tables) fuel depth open m parent e v c,
    means py (named py stubs (classes c) (modules c) [] depth open m parent) e v -> depth < fuel ->
    remembers_right py stubs (classes c) (modules c) [] open (aliases c) ->
    exists c', evaluate_expression_node py stubs fuel m parent e c = (c', Ok v)
      /\ classes c' = classes c /\ modules c' = modules c /\ globals c' = globals c.
Proof.
  intros * M L R. destruct (expressions_evaluated _ _ _ _ _ _ _ _ _ _ _ M L R) as (c' & E & (l & l' & X & A & B) & C & _). exists c'.
  assert (N : l ++ l' = []) by (destruct (l ++ l') as [|(q, w) r]; [reflexivity|]; destruct (X q w) as ([] & _); now left).
  apply app_eq_nil in N as [-> ->]. auto.
Qed.
Print Assumptions C106_no_classes.

(** One evaluator, asked for expressions in their scopes one after another. *)
Section Sequence.
Context {V : Type}.
Variable py : python V.
Variables (stubs : tables) (fuel : nat).
Fixpoint ask (questions : list (path * path * expr)) (c : memory V) : list (res V) :=
  match questions with
  | [] => []
  | (m, parent, e) :: questions =>
      let (c, answer) := evaluate_expression_node py stubs fuel m parent e c in
      answer :: ask questions c
  end.
End Sequence.
(** Whatever was asked before, the answers are what the expressions mean, unless they need one
    of the aliases [open] that were remembered wrongly from the beginning (when nothing was
    remembered, none). *)
Theorem C106_sequence_partial :
  forall V (py : python V) (stubs : tables) new fuel depth open questions values c,
    remembers_right py stubs (classes c) (modules c) new open (aliases c) -> depth < fuel ->
    Forall2 (fun q v => means py (named py stubs (classes c) (modules c) new depth open (fst (fst q)) (snd (fst q))) (snd q) v) questions values ->
    ask py stubs fuel questions c = map Ok values.
Proof.
  intros V py stubs new fuel depth open questions values c A L.
  assert (G : sound py stubs (classes c) (modules c) (globals c) (attributes c) new (new_classes c, annotations c) open c) by (now apply sound_start).
  clear A. intros F. revert F G. generalize (classes c), (modules c), (globals c), (attributes c), (new_classes c, annotations c). intros cs ms gs ats made F. revert c.
  induction F as [|[[m parent] e] v questions values M F IH]; intros c G; [reflexivity|]. cbn [fst snd] in M. cbn [ask map].
  destruct (expression_sound py stubs cs ms gs ats new made ([], []) fuel depth [] open m parent
    ltac:(intros q' v' c' Hs Hg; eapply path_sound; eauto; [intros ? ? []|intros ? []]) e v M c G) as (c' & E & G').
  unfold evaluate_expression_node. rewrite E. f_equal. now apply IH.
Qed.
Print Assumptions C106_sequence_partial.

(** Of names assigned several times, the first value counts (the last in Python): each later
    assignment finds the target in the memory. *)
Theorem C106_assigned_again_refuted :
  forall V (py : python V) (stubs : tables) new fuel depth q v c n e s rest nodes kinds k,
    not_imported py q -> snd q <> [] -> dget q (classes c) = None -> dget q (aliases c) = None ->
    dget (fst q) (stub_nodes stubs) = Some nodes -> dget (snd q) nodes = Some (s :: rest) ->
    dget (fst q) (stub_kinds stubs) = Some kinds -> dget (snd q) kinds = Some k -> k <> CLASS ->
    resolve stubs (fst q) (removelast (snd q)) [n] = Ok q ->
    assigned_to [n] e s -> (forall s', In s' rest -> exists e', assigned_to [n] e' s') ->
    means py (named py stubs (classes c) (modules c) new depth [q] (fst q) (removelast (snd q))) e v -> depth < fuel ->
    remembers_right py stubs (classes c) (modules c) new [] (aliases c) ->
    exists c', evaluate_qualified_path py stubs (S fuel) q c = (c', Ok v).
Proof. intros *. apply first_counts. Qed.
Print Assumptions C106_assigned_again_refuted.

Module AliasSamples.
(** [A = List[B]; B = List[int]; (class C: D = List[A]); E = F = List[B]] *)
Definition chain := stubs [SAssign [Name $"A"] (list_of_ (Name $"B")); SAssign [Name $"B"] (list_of_ (Name $"int"));
  SClassDef $"C" [] [SAssign [Name $"D"] (list_of_ (Name $"A"))];
  SAssign [Name $"E"; Name $"F"] (list_of_ (Name $"B"))].
Definition int_ := VObject ([$"builtins"], [$"int"]).
End AliasSamples.
Import AliasSamples.
Ltac stand ts e := first
  [ left; reflexivity
  | right; right; right; split; [intros ? ?; discriminate|]; split; [discriminate|]; split; [reflexivity|]; right;
    exists (map in_m ts), e; split; [|split; [cbn; intuition (subst; discriminate)|]] ].
Ltac assigned ts e :=
  exists ts, (SAssign (map Name ts) e); do 2 eexists;
  split; [vm_compute; reflexivity|]; split; [vm_compute; reflexivity|];
  split; [intros ? T; cbn [map In] in T; repeat (destruct T as [<-|T]; [repeat (split; [vm_compute; reflexivity|]); eexists; split; [vm_compute; reflexivity|discriminate]|]); contradiction|];
  split; [apply (assigned_plain ts)|]; split; [cbn; auto|]; split; [repeat constructor; cbn; intuition discriminate|]; vm_compute; reflexivity.
Lemma chain_B open : ~ In (in_m $"B") open -> stands_for py chain [] [] [] 1 open (in_m $"B") (List_of int_).
Proof.
  intros N. right; right; right; split; [intros ? ?; discriminate|]; split; [discriminate|]; split; [reflexivity|]. right.
  exists [in_m $"B"], (list_of_ (Name $"int")). split; [|split].
  - assigned [$"B"] (list_of_ (Name $"int")).
  - intros t [<-|[]]. exact N.
  - eapply means_item; [apply means_name|apply means_name|reflexivity]; eexists; (split; [vm_compute; reflexivity|right; left; reflexivity]).
Qed.
Lemma chain_A : stands_for py chain [] [] [] 2 [] (in_m $"A") (List_of (List_of int_)).
Proof.
  stand [$"A"] (list_of_ (Name $"B")).
  - assigned [$"A"] (list_of_ (Name $"B")).
  - eapply means_item; [apply means_name|apply means_name|reflexivity].
    + eexists. split; [vm_compute; reflexivity|right; left; reflexivity].
    + exists (in_m $"B"). split; [vm_compute; reflexivity|]. right. apply chain_B. intros [X|[]]. discriminate.
Qed.
Lemma chain_F : stands_for py chain [] [] [] 2 [] (in_m $"F") (List_of (List_of int_)).
Proof.
  stand [$"E"; $"F"] (list_of_ (Name $"B")).
  - assigned [$"E"; $"F"] (list_of_ (Name $"B")).
  - eapply means_item; [apply means_name|apply means_name|reflexivity].
    + eexists. split; [vm_compute; reflexivity|right; left; reflexivity].
    + exists (in_m $"B"). split; [vm_compute; reflexivity|]. right. apply chain_B. intros [X|[X|[]]]; discriminate.
Qed.
(** [A] is evaluated the same before and after [List[B]], and so is the second target of an
    assignment. *)
Example C106_example :
  let questions := [([$"m"], [], Name $"A"); ([$"m"], [], list_of_ (Name $"B")); ([$"m"], [$"C"], Name $"A"); ([$"m"], [], Name $"F")] in
  let values := [List_of (List_of int_); List_of (List_of int_); List_of (List_of int_); List_of (List_of int_)] in
  Forall2 (fun q v => means py (named py chain [] [] [] 2 [] (fst (fst q)) (snd (fst q))) (snd q) v) questions values
  /\ ask py chain 3 questions empty = map Ok values.
Proof.
  cbn zeta. match goal with |- ?P /\ _ => assert (H : P) end.
  - repeat constructor; cbn [fst snd].
    + exists (in_m $"A"). split; [vm_compute; reflexivity|exact chain_A].
    + eapply means_item; [apply means_name|apply means_name|reflexivity].
      * eexists. split; [vm_compute; reflexivity|left; reflexivity].
      * exists (in_m $"B"). split; [vm_compute; reflexivity|].
        eapply stands_for_more; [| |exact (chain_B [] (fun x => x))]; [auto|apply incl_nil_l].
    + exists (in_m $"A"). split; [vm_compute; reflexivity|exact chain_A].
    + exists (in_m $"F"). split; [vm_compute; reflexivity|exact chain_F].
  - split; [exact H|]. apply (C106_sequence_partial _ py chain [] 3 2 [] _ _ empty); auto. intros q w d v D. discriminate D.
Qed.
(** [A = List[A]]: [A] in its own expression is a forward reference, whatever was asked before. *)
Example C106_recursive :
  let questions := [([$"m"], [], list_of_ (Name $"A")); ([$"m"], [], Name $"A")] in
  let A_ := List_of (VForwardRef $"A") in
  Forall2 (fun q v => means py (named py recursive [] [] [] 1 [] (fst (fst q)) (snd (fst q))) (snd q) v) questions [List_of A_; A_]
  /\ ask py recursive 2 questions empty = map Ok [List_of A_; A_].
Proof.
  assert (A : stands_for py recursive [] [] [] 1 [] (in_m $"A") (List_of (VForwardRef $"A"))).
  { stand [$"A"] (list_of_ (Name $"A")).
    - assigned [$"A"] (list_of_ (Name $"A")).
    - eapply means_item; [apply means_name|apply means_name|reflexivity]; eexists; (split; [vm_compute; reflexivity|]).
      + right. left. reflexivity.
      + left. split; [reflexivity|]. split; [intros ? ?; discriminate|]. split; [discriminate|]. split; reflexivity. }
  cbn zeta. match goal with |- ?P /\ _ => assert (H : P) end.
  - repeat constructor; cbn [fst snd].
    + eapply means_item; [apply means_name|apply means_name|reflexivity]; eexists; (split; [vm_compute; reflexivity|]); [left; reflexivity|exact A].
    + eexists. split; [vm_compute; reflexivity|exact A].
  - split; [exact H|]. apply (C106_sequence_partial _ py recursive [] 2 1 [] _ _ empty); auto. intros q w d v D. discriminate D.
Qed.
(** [G = G = List[int]]: the second [G] finds the placeholder of the first. *)
Example C106_same_target_twice :
  let s := stubs [SAssign [Name $"G"; Name $"G"] (list_of_ (Name $"int"))] in
  ask py s 3 [([$"m"], [], Name $"G")] empty <> [Ok (List_of int_)].
Proof. vm_compute. discriminate. Qed.
(** [H = List[int]; H = int] *)
Example C106_assigned_again :
  let s := stubs [SAssign [Name $"H"] (list_of_ (Name $"int")); SAssign [Name $"H"] (Name $"int")] in
  ask py s 3 [([$"m"], [], Name $"H")] empty = [Ok (List_of int_)].
Proof. vm_compute. reflexivity. Qed.

(** [class P: (x: int; def f(self): ...; A = List[int])], [B = List[P]]: the class is made when [B] is asked
    for, and found again by [P]. *)
Definition with_class := stubs [SClassDef $"P" [] [SAnnAssign (Name $"x") (Name $"int") None; method;
                                                SAssign [Name $"A"] (list_of_ (Name $"int"))];
  SAssign [Name $"B"] (list_of_ (Name $"P"))].
Definition P_ := VClass $"P" [] [made_here; ($"f", VFunction ([$"m"], [$"P"; $"f"]) []); ($"A", List_of int_); ($"__annotations__", VDict [])].
Lemma P_class stands : class_value py with_class stands (in_m $"P") P_.
Proof.
  do 4 eexists. exists [($"f", VFunction ([$"m"], [$"P"; $"f"]) []); ($"A", List_of int_)], [($"A", List_of int_)], true, [].
  split; [discriminate|]. do 5 (split; [vm_compute; reflexivity|]).
  split; [repeat constructor; cbn; intuition discriminate|]. do 2 (split; [cbn; intuition discriminate|]).
  split.
  { eapply namespace_annotated; [vm_compute; reflexivity|intros s [<-|[]]; repeat econstructor|].
    eapply (namespace_function _ _ _ _ _ [] method []); [vm_compute; reflexivity| | | | |].
    - eexists. split; [left; reflexivity|]. split; [reflexivity|].
      split; [|split; [cbn; intros X; decompose [or] X; discriminate || assumption|reflexivity]].
      intros n (f & e & [S|S] & _ & In); [|discriminate S]. unfold method in S. injection S as <-. destruct In as [[]|[[]|[]]].
    - intros (t & a & H). discriminate H.
    - easy.
    - easy.
    - eapply (namespace_assigned _ _ _ _ _ [] _ []); [vm_compute; reflexivity| | |easy|constructor]; [|intros (t & a & H); discriminate H].
      assert (I : imported py with_class [$"m"] [$"P"] [$"int"] int_) by (exists ([$"builtins"], [$"int"]); split; vm_compute; reflexivity).
      assert (L : imported py with_class [$"m"] [$"P"] [$"List"] (VObject ([$"typing"], [$"List"])))
        by (exists ([$"typing"], [$"List"]); split; vm_compute; reflexivity).
      assert (C : forall o v, imported py with_class [$"m"] [$"P"] o v -> importable py with_class [$"m"] [$"P"] o).
      { intros o v (q & Q & Im) q' Q'. assert (q' = q) as -> by congruence. eauto. }
      eexists. split; [left; reflexivity|]. split; [vm_compute; reflexivity|]. split; [|split].
      + intros n (t & e & Oc & [S|[[a S]|[v S]]]); [|discriminate S|discriminate S]. injection S as <- <-.
        apply StubsProofs.occurs_names in Oc. destruct Oc as [<-|[<-|[]]]; (split; [eauto|discriminate]).
      + intros o H. repeat match goal with H : mentions _ _ |- _ => inv H | H : dotted _ _ |- _ => inv H end; eapply C; eassumption.
      + eapply means_item; [apply means_name; exact L|apply means_name; exact I|reflexivity]. }
  split.
  { split; [|reflexivity]. intros _. exists $"x". do 2 eexists. split; [now left|]. split; [vm_compute; reflexivity|].
    split; [now left|repeat econstructor]. }
  split; [constructor|]. split; [vm_compute; reflexivity|]. split; [cbn; intuition discriminate|].
  intros name [<-|[]]. exists (list_of_ (Name $"int")). exists [$"A"]. do 3 eexists. split; [vm_compute; reflexivity|]. split; [vm_compute; reflexivity|].
  split; [intros t [<-|[]]; split; [reflexivity|]; split; [reflexivity|]; split; [vm_compute; reflexivity|]; eexists; split; [vm_compute; reflexivity|discriminate]|].
  split; [exact (assigned_plain [$"A"] _)|]. split; [now left|]. split; [repeat constructor; easy|vm_compute; reflexivity].
Qed.
(** Annotations of a class, one by one *)
Ltac annotation :=
  intros ? ? ? ? ? ? ? N D S I A B; vm_compute in N; injection N as <-; vm_compute in D; injection D as <-; vm_compute in S; injection S as <-;
  cbn in I; repeat (destruct I as [<-|I]); try contradiction; vm_compute in A; injection A as <-; (destruct B as [B|[]]); try discriminate B; injection B as <- <-.
Example C106_class_made :
  let questions := [([$"m"], [], Name $"B"); ([$"m"], [], Name $"P")] in
  let values := [List_of P_; P_] in
  Forall2 (fun q v => means py (named py with_class [] [] [in_m $"P"] 2 [] (fst (fst q)) (snd (fst q))) (snd q) v) questions values
  /\ ask py with_class 3 questions empty = map Ok values.
Proof.
  assert (F : forall depth open, not_open (in_m $"P") open -> stands_for py with_class [] [] [in_m $"P"] (S depth) open (in_m $"P") P_).
  { intros depth open O. right; right; right. split; [intros ? ?; discriminate|]. split; [discriminate|]. split; [reflexivity|].
    left. split; [now left|]. right. split; [exact O|]. split; [apply P_class|]. annotation.
    exists int_. constructor. exists ([$"builtins"], [$"int"]). split; [vm_compute; reflexivity|]. destruct depth; left; reflexivity. }
  cbn zeta. match goal with |- ?P /\ _ => assert (H : P) end.
  - repeat constructor; cbn [fst snd].
    + exists (in_m $"B"). split; [vm_compute; reflexivity|]. stand [$"B"] (list_of_ (Name $"P")).
      * assigned [$"B"] (list_of_ (Name $"P")).
      * eapply means_item; [apply means_name|apply means_name|reflexivity]; eexists; (split; [vm_compute; reflexivity|right]);
          [left; reflexivity|apply F; split; [cbn; intuition discriminate|intros t [<-|[]] _; discriminate]].
    + exists (in_m $"P"). split; [vm_compute; reflexivity|apply F; split; [intros []|intros t []]].
  - split; [exact H|]. apply (C106_sequence_partial _ py with_class [in_m $"P"] 3 2 [] _ _ empty); auto. intros q w d v D. discriminate D.
Qed.
(** [class P: x: List[Q]], [class Q(P): (y: B; z: List[Q])], [B = List[P]]: [Q] is made while
    [P] is being annotated, and finds it. (If [Q] is asked for first, Python makes it twice: once
    for the annotation of [P], which is made for the outer one. As the values here have no
    identity, the last part only says that the two are alike; see C110.) *)
Definition classes_ := stubs [SClassDef $"P" [] [SAnnAssign (Name $"x") (list_of_ (Name $"Q")) None];
  SClassDef $"Q" [Name $"P"] [SAnnAssign (Name $"y") (Name $"B") None; SAnnAssign (Name $"z") (list_of_ (Name $"Q")) None];
  SAssign [Name $"B"] (list_of_ (Name $"P"))].
Definition annotated_ := ($"__annotations__", VDict []).
Definition first_ := VClass $"P" [] [made_here; annotated_].
Definition heir := VClass $"Q" [first_] [made_here; annotated_].
Notation new_ := [in_m $"P"; in_m $"Q"].
Notation amounts depth open := (amounts_to py classes_ [] [] new_ depth open).
Notation stands depth own open := (stands_among py classes_ [] [] new_ depth own open).
Ltac unmade := right; right; right; split; [intros ? ?; discriminate|]; split; [discriminate|]; split; [reflexivity|].
Ltac is_class ns bases :=
  do 4 eexists; exists ns, [], true, bases;
  split; [discriminate|]; do 5 (split; [vm_compute; reflexivity|]);
  split; [repeat constructor; cbn; intuition discriminate|]; do 2 (split; [cbn; intuition discriminate|]);
  split; [repeat (eapply namespace_annotated; [vm_compute; reflexivity|intros s [<-|[]]; repeat econstructor|]); constructor|].
Lemma P_first stands : class_value py classes_ stands (in_m $"P") first_.
Proof.
  is_class (@nil (pystr * value)) (@nil value). split; [|split; [constructor|split; [vm_compute; reflexivity|split; [cbn; intuition discriminate|intros ? []]]]].
  split; [|reflexivity]. intros _. exists $"x". do 2 eexists. split; [now left|]. split; [vm_compute; reflexivity|]. split; [now left|repeat econstructor].
Qed.
Lemma Q_heir (stands : qualified_path -> value -> Prop) : stands (in_m $"P") first_ -> class_value py classes_ stands (in_m $"Q") heir.
Proof.
  intros P. is_class (@nil (pystr * value)) [first_]. split; [|split; [|split; [vm_compute; reflexivity|split; [cbn; intuition discriminate|intros ? []]]]].
  - split; [|reflexivity]. intros _. exists $"y". do 2 eexists. split; [now left|]. split; [vm_compute; reflexivity|]. split; [now left|repeat econstructor].
  - match goal with |- Forall2 _ ?l _ => change l with [in_m $"P"] end. constructor; [exact P|constructor].
Qed.
Lemma P_amounts open : amounts 1 open (in_m $"P") first_.
Proof. unmade. left. split; [now left|]. apply P_first. Qed.
Lemma Q_amounts open : amounts 2 open (in_m $"Q") heir.
Proof. unmade. left. split; [right; now left|]. apply Q_heir. apply P_amounts. Qed.
Lemma P_own depth own open : In (in_m $"P") own -> stands (S depth) own open (in_m $"P") first_.
Proof. intros I. unmade. left. split; [now left|]. left. split; [exact I|]. exists 1. apply P_amounts. Qed.
Lemma Q_own depth own open : In (in_m $"Q") own -> stands (S depth) own open (in_m $"Q") heir.
Proof. intros I. unmade. left. split; [right; now left|]. left. split; [exact I|]. exists 2. apply Q_amounts. Qed.
Lemma classes_B depth own open : ~ In (in_m $"B") open -> stands depth own (in_m $"B" :: open) (in_m $"P") first_ ->
  stands (S depth) own open (in_m $"B") (List_of first_).
Proof.
  intros O P. unmade. right. exists [in_m $"B"], (list_of_ (Name $"P")). split; [assigned [$"B"] (list_of_ (Name $"P"))|].
  split; [intros t [<-|[]]; exact O|].
  eapply means_item; [apply means_name|apply means_name|reflexivity]; eexists; (split; [vm_compute; reflexivity|right]); [|exact P].
  destruct depth; left; reflexivity.
Qed.
Ltac list_of_class := eapply means_item; [apply means_name|apply means_name|reflexivity]; eexists; (split; [vm_compute; reflexivity|]); [left; reflexivity|].
Lemma Q_in_P : stands 3 [in_m $"P"] [in_m $"P"] (in_m $"Q") heir.
Proof.
  unmade. left. split; [right; now left|]. right. split; [split; [cbn; intuition discriminate|intros t [<-|[]] _; discriminate]|]. split; [apply Q_heir, P_own; now left|]. annotation.
  - exists (List_of first_). constructor. exists (in_m $"B"). split; [vm_compute; reflexivity|].
    apply classes_B; [cbn; intuition discriminate|]. apply P_own. right. now left.
  - exists (List_of heir). list_of_class. apply Q_own. now left.
Qed.
Lemma classes_P : stands 4 [] [] (in_m $"P") first_.
Proof.
  unmade. left. split; [now left|]. right. split; [split; [intros []|intros t []]|]. split; [apply P_first|]. annotation.
  exists (List_of heir). list_of_class. exact Q_in_P.
Qed.
Example C106_classes_made :
  let questions := [([$"m"], [], list_of_ (Name $"P")); ([$"m"], [], Name $"P")] in
  let values := [List_of first_; first_] in
  Forall2 (fun q v => means py (named py classes_ [] [] new_ 4 [] (fst (fst q)) (snd (fst q))) (snd q) v) questions values
  /\ ask py classes_ 5 questions empty = map Ok values
  /\ ask py classes_ 5 [([$"m"], [], Name $"Q"); ([$"m"], [], Name $"P")] empty = map Ok [heir; first_].
Proof.
  cbn zeta. match goal with |- ?P /\ _ => assert (H : P) end.
  - constructor; [|constructor; [|constructor]]; cbn [fst snd]; [list_of_class|constructor; eexists; (split; [vm_compute; reflexivity|])]; exact classes_P.
  - split; [exact H|]. split; [|vm_compute; reflexivity].
    apply (C106_sequence_partial _ py classes_ new_ 5 4 [] _ _ empty); auto. intros q w d v D. discriminate D.
Qed.
