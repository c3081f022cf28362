(** Properties C110 and C111: classes that exist in stubs only are made once, and annotated. *)
From Verif Require Import Base Ast Conversion Catalog Scoping Signatures Stubs Evaluation SpecEvaluation EvaluationProofs SpecAliases AliasProofs
  P_Evaluation P_Aliases.
Import P_Evaluation.Samples.

Section Sequence.
Context {V : Type}.
Variable py : python V.
Variables (stubs : tables) (fuel : nat).
(** The memory of one evaluator that is asked for expressions in their scopes one after another *)
Fixpoint after (questions : list (path * path * expr)) (c : memory V) : memory V :=
  match questions with
  | [] => c
  | (m, parent, e) :: questions => after questions (fst (evaluate_expression_node py stubs fuel m parent e c))
  end.
End Sequence.

Lemma sound_after {V} (py : python V) (stubs : tables) new fuel depth open questions values c :
  remembers_right py stubs (classes c) (modules c) new open (aliases c) -> depth < fuel ->
  Forall2 (fun q v => means py (named py stubs (classes c) (modules c) new depth open (fst (fst q)) (snd (fst q))) (snd q) v) questions values ->
  sound py stubs (classes c) (modules c) (globals c) (attributes c) new (new_classes c, annotations c) open (after py stubs fuel questions c).
Proof.
  intros A L.
  assert (G : sound py stubs (classes c) (modules c) (globals c) (attributes c) new (new_classes c, annotations c) open c) by (now apply sound_start).
  clear A. intros F. revert F G. generalize (classes c), (modules c), (globals c), (attributes c), (new_classes c, annotations c). intros cs ms gs ats made F. revert c.
  induction F as [|[[m parent] e] v questions values M F IH]; intros c G; [exact G|].
  cbn [fst snd] in M. cbn [after].
  destruct (expression_sound py stubs cs ms gs ats new made ([], []) fuel depth [] open m parent
    ltac:(intros q' v' c' Hs Hg; eapply path_sound; eauto; [intros ? ? []|intros ? []]) e v M c G) as (c' & E & G').
  unfold evaluate_expression_node. rewrite E. now apply IH.
Qed.
(** However often classes are named in expressions that have a meaning, in annotations of each
    other and as base classes, each is made at most once, and only if it had not been made
    before. *)
Theorem C110_once_partial :
  forall V (py : python V) (stubs : tables) new fuel depth open questions values c,
    remembers_right py stubs (classes c) (modules c) new open (aliases c) -> depth < fuel ->
    Forall2 (fun q v => means py (named py stubs (classes c) (modules c) new depth open (fst (fst q)) (snd (fst q))) (snd q) v) questions values ->
    exists l, new_classes (after py stubs fuel questions c) = new_classes c ++ l /\ NoDup l
      /\ forall q, In q l -> In q new /\ dget q (classes c) = None.
Proof.
  intros V py stubs new fuel depth open questions values c A L F.
  destruct (sound_after py stubs new fuel depth open questions values c A L F) as (_ & _ & _ & _ & _ & _ & l & E & N & _ & H & _).
  exists l. split; [exact E|]. split; [exact N|]. intros q I. apply H in I. tauto.
Qed.
Print Assumptions C110_once_partial.

(** A class that has been made, and is in the memory, is not made again, whatever its stub says. *)
Theorem C110_found :
  forall V (py : python V) (stubs : tables) fuel q v c,
    not_imported py q -> snd q <> [] -> dget q (classes c) = Some v -> evaluate_qualified_path py stubs (S fuel) q c = (c, Ok v).
Proof.
  intros V py stubs fuel [m o] v c I O C.
  assert (X : evaluate_object py stubs (evaluate_qualified_path py stubs fuel) m o c = (c, Ok v))
    by (unfold evaluate_object; replace (dget (m, o) (classes c)) with (Some v) by (symmetry; exact C); reflexivity).
  cbn [evaluate_qualified_path fst snd]. destruct (import_object py (m, o)) as [| |w] eqn:E; [|exact X|now apply I in E].
  cbn [snd] in O. destruct o; [contradiction|]. exact X.
Qed.
Print Assumptions C110_found.

(** Whatever the stubs say, and even if evaluation fails, exactly the classes made meanwhile are
    remembered in addition. *)
Theorem C110_remembered :
  forall V (py : python V) (stubs : tables) fuel q c c' r,
    evaluate_qualified_path py stubs fuel q c = (c', r) ->
    exists l, new_classes c' = new_classes c ++ l /\ forall q', dget q' (classes c') <> None <-> dget q' (classes c) <> None \/ In q' l.
Proof. intros V py stubs fuel q c c' r E. pose proof (grows_path py stubs fuel q c) as (_ & _ & H). rewrite E in H. exact H. Qed.
Print Assumptions C110_remembered.

(** So a class that was made although its evaluation failed, as evaluations of its annotations do,
    is what the next evaluation gives, as if nothing had happened. *)
Theorem C110_failed :
  forall V (py : python V) (stubs : tables) fuel q c c' e l,
    not_imported py q -> snd q <> [] ->
    evaluate_qualified_path py stubs fuel q c = (c', Err e) -> new_classes c' = new_classes c ++ l -> In q l ->
    exists v, forall fuel', evaluate_qualified_path py stubs (S fuel') q c' = (c', Ok v).
Proof.
  intros V py stubs fuel q c c' e l NI O E N I. destruct (C110_remembered _ _ _ _ _ _ _ _ E) as (l' & N' & H).
  rewrite N in N'. apply app_inv_head in N'. subst l'.
  destruct (dget q (classes c')) as [v|] eqn:D; [|exfalso; exact (proj2 (H q) (or_intror I) D)].
  exists v. intros fuel'. now apply C110_found.
Qed.
Print Assumptions C110_failed.
(** [class C: x: Undefined] *)
Example C110_failed_example :
  exists c' e, evaluate_qualified_path py broken_class 3 (in_m $"C") empty = (c', Err e) /\ new_classes c' = [in_m $"C"] /\ annotations c' = [].
Proof. do 2 eexists. split; [vm_compute; reflexivity|]. split; reflexivity. Qed.

(** A class that is in an annotation of one of its base classes is made twice, when it is asked for
    before the base class: the base class is made for it, and it for the annotation of the base
    class. (The class in the annotation is not the one that later evaluations give.) *)
Theorem C110_twice_refuted :
  exists (stubs : tables) (q b : qualified_path), forall fuel,
    exists c', evaluate_qualified_path py stubs (S (S (S (S (S fuel))))) q empty = (c', Ok heir) /\ new_classes c' = [b; q; q].
Proof. exists classes_, (in_m $"Q"), (in_m $"P"). intros fuel. eexists. split; vm_compute; reflexivity. Qed.
Print Assumptions C110_twice_refuted.

(** If the base class is asked for first, each is made once. *)
Example C110_base_first :
  new_classes (after py classes_ 5 [([$"m"], [], Name $"P"); ([$"m"], [], Name $"Q"); ([$"m"], [], Name $"P")] empty) = [in_m $"P"; in_m $"Q"].
Proof. vm_compute. reflexivity. Qed.
(** The theorem at work, on classes that recur to each other in annotations *)
Example C110_example :
  exists l, new_classes (after py classes_ 5 [([$"m"], [], Name $"P"); ([$"m"], [], Name $"P")] empty) = l /\ NoDup l /\ In (in_m $"P") l.
Proof.
  destruct (C110_once_partial _ py classes_ new_ 5 4 [] [([$"m"], [], Name $"P"); ([$"m"], [], Name $"P")] [first_; first_] empty) as (l & E & N & _).
  - intros q w d v D. discriminate D.
  - auto.
  - constructor; [|constructor; [|constructor]]; constructor; eexists; (split; [vm_compute; reflexivity|exact classes_P]).
  - exists l. split; [exact E|]. split; [exact N|]. vm_compute in E. rewrite <- E. now left.
Qed.

(** ** C111 *)
(** Each class that is made meanwhile gets the annotations its stub states last for each name, with
    what they mean, be they of the class itself, of classes in whose annotations it is, or of
    aliases; annotations of other classes stay what they are. *)
Theorem C111_annotations_partial :
  forall V (py : python V) (stubs : tables) new fuel depth open questions values c,
    remembers_right py stubs (classes c) (modules c) new open (aliases c) -> depth < fuel ->
    Forall2 (fun q v => means py (named py stubs (classes c) (modules c) new depth open (fst (fst q)) (snd (fst q))) (snd q) v) questions values ->
    let c' := after py stubs fuel questions c in
    exists l, new_classes c' = new_classes c ++ l
      /\ (forall q, In q l -> annotations_right py stubs (classes c) (modules c) new q (annotations c'))
      /\ forall q, ~ In q l -> dget q (annotations c') = dget q (annotations c).
Proof.
  intros V py stubs new fuel depth open questions values c A L F.
  destruct (sound_after py stubs new fuel depth open questions values c A L F) as (_ & _ & _ & _ & _ & _ & l & E & _ & _ & _ & H1 & H2 & _).
  exists l. split; [exact E|]. split; [|exact H2]. intros q I. apply H1; [exact I|intros []].
Qed.
Print Assumptions C111_annotations_partial.

(** That leaves no choice: two dictionaries that are right have the same annotations for a class
    with any. *)
Lemma last_one {A} (P : A -> Prop) (x x' : A) after' : forall before before' after,
  before ++ x :: after = before' ++ x' :: after' -> P x -> P x' -> (forall s, In s after -> ~ P s) -> (forall s, In s after' -> ~ P s) -> x = x'.
Proof.
  induction before as [|b before IH]; intros [|b' before'] after E H H' N N'; cbn [app] in E; injection E as E1 E2.
  - exact E1.
  - subst after. destruct (N x'); [|exact H']. apply in_app_iff. right. now left.
  - subst after'. destruct (N' x); [|exact H]. apply in_app_iff. right. now left.
  - exact (IH _ _ E2 H H' N N').
Qed.
Lemma stated_one nodes_of : forall names stated stated', annotations_stated nodes_of names stated -> annotations_stated nodes_of names stated' -> stated = stated'.
Proof.
  intros names stated stated' S. revert stated'. induction S as [|name names before t a after_ stated E N S IH|name names nodes stated E N S IH]; intros stated' S'; inversion S' as [|? ? before' t' a' after' stated'' E' N'|? ? nodes' stated'' E' N']; subst.
  - reflexivity.
  - rewrite E in E'. injection E' as E'. apply (last_one is_annotation) in E'; [|now exists t, a|now exists t', a'|exact N|exact N'].
    injection E' as _ <-. f_equal. now apply IH.
  - rewrite E in E'. injection E' as <-. destruct (N' (SAnnAssign t a None)); [|now exists t, a]. apply in_app_iff. right. now left.
  - rewrite E in E'. injection E' as ->. destruct (N (SAnnAssign t' a' None)); [|now exists t', a']. apply in_app_iff. right. now left.
  - now apply IH.
Qed.
Theorem C111_one :
  forall V (py : python V) (stubs : tables) made_classes made_modules new q annotations annotations' nodes definitions sc,
    dget (fst q) (stub_nodes stubs) = Some nodes -> dget (fst q) (stub_definitions stubs) = Some definitions ->
    scope_at definitions (snd q) = Ok sc ->
    (exists name ss s, In name (dkeys (entries sc)) /\ dget (snd q ++ [name]) nodes = Some ss /\ In s ss /\ is_annotation s) ->
    annotations_right py stubs made_classes made_modules new q annotations ->
    annotations_right py stubs made_classes made_modules new q annotations' ->
    dget q annotations = dget q annotations'.
Proof.
  intros V py stubs mc mm new q an an' nodes definitions sc A B C (name & ss & s & D1 & D2 & D3 & D4) R R'.
  destruct (R _ _ _ A B C) as (st & vs & S1 & S2 & S3). destruct (R' _ _ _ A B C) as (st' & vs' & S1' & S2' & S3').
  pose proof (stated_one _ _ _ _ S1 S1') as <-.
  assert (Ne : st <> []).
  { clear - S1 D1 D2 D3 D4. induction S1 as [|n ns before t a after_ st E N S IH|n ns ss' st E N S IH]; [destruct D1|discriminate|].
    destruct D1 as [->|D1]; [|now apply IH]. rewrite E in D2. injection D2 as ->. destruct (N _ D3 D4). }
  replace (dget q an) with (Some vs) by (symmetry; exact (S3 Ne)). replace (dget q an') with (Some vs') by (symmetry; exact (S3' Ne)). f_equal.
  clear - S2 S2'. revert vs' S2'. induction S2 as [|x y st vs (E & M) _ IH]; intros vs' S'; inversion S' as [|? y' ? vs'' (E' & M') S'']; subst; [reflexivity|].
  f_equal; [|now apply IH]. destruct y as [n v], y' as [n' v']. cbn [fst snd] in *. f_equal; [congruence|].
  refine (proj1 (means_one py _ _ _) _ _ M _ M'). intros o u w (q1 & d1 & R1 & T1) (q2 & d2 & R2 & T2). assert (q2 = q1) as -> by congruence.
  exact (amounts_one _ _ _ _ _ _ _ _ _ _ _ _ T1 T2).
Qed.
Print Assumptions C111_one.

(** The annotations of the two classes, after [P] and once more [P] *)
Example C111_example :
  annotations (after py classes_ 5 [([$"m"], [], Name $"P"); ([$"m"], [], Name $"P")] empty)
  = [(in_m $"Q", [($"y", List_of first_); ($"z", List_of heir)]); (in_m $"P", [($"x", List_of heir)])].
Proof. vm_compute. reflexivity. Qed.
(** They are right. *)
Example C111_right :
  annotations_right py classes_ [] [] new_ (in_m $"P") (annotations (after py classes_ 5 [([$"m"], [], Name $"P"); ([$"m"], [], Name $"P")] empty)).
Proof.
  destruct (C111_annotations_partial _ py classes_ new_ 5 4 [] [([$"m"], [], Name $"P"); ([$"m"], [], Name $"P")] [first_; first_] empty) as (l & E & N & _).
  - intros q w d v D. discriminate D.
  - auto.
  - constructor; [|constructor; [|constructor]]; constructor; eexists; (split; [vm_compute; reflexivity|exact classes_P]).
  - apply N. vm_compute in E. rewrite <- E. now left.
Qed.
