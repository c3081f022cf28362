(** Proofs about type aliases that exist in stubs only. *)
From Verif Require Import Base Ast Conversion Catalog Scoping Signatures Stubs Evaluation SpecEvaluation EvaluationProofs SpecAliases.

Scheme means_mut := Induction for means Sort Prop
  with means_all_mut := Induction for means_all Sort Prop
  with means_items_mut := Induction for means_items Sort Prop
  with means_keywords_mut := Induction for means_keywords Sort Prop.
Combined Scheme means_together from means_mut, means_all_mut, means_items_mut, means_keywords_mut.

Section Means.
Context {V : Type}.
Variable py : python V.
Lemma means_more (named named' : path -> V -> Prop) : (forall o v, named o v -> named' o v) ->
  (forall e v, means py named e v -> means py named' e v)
  /\ (forall es vs, means_all py named es vs -> means_all py named' es vs)
  /\ (forall is vs, means_items py named is vs -> means_items py named' is vs)
  /\ (forall ks vs, means_keywords py named ks vs -> means_keywords py named' ks vs).
Proof.
  intros M. apply (means_together V py named (fun e v _ => means py named' e v)
    (fun es vs _ => means_all py named' es vs) (fun is vs _ => means_items py named' is vs) (fun ks vs _ => means_keywords py named' ks vs)); intros;
    try (econstructor; eauto; fail).
Qed.
Lemma dotted_one e p p' : dotted e p -> dotted e p' -> p = p'.
Proof. intros A B. apply dotted_to_path in A. apply dotted_to_path in B. congruence. Qed.
Lemma means_one (named named' : path -> V -> Prop) : (forall o v w, named o v -> named' o w -> v = w) ->
  (forall e v, means py named e v -> forall w, means py named' e w -> v = w)
  /\ (forall es vs, means_all py named es vs -> forall ws, means_all py named' es ws -> vs = ws)
  /\ (forall is vs, means_items py named is vs -> forall ws, means_items py named' is ws -> vs = ws)
  /\ (forall ks vs, means_keywords py named ks vs -> forall ws, means_keywords py named' ks ws -> vs = ws).
Proof.
  intros M. apply (means_together V py named (fun e v _ => forall w, means py named' e w -> v = w)
    (fun es vs _ => forall ws, means_all py named' es ws -> vs = ws)
    (fun is vs _ => forall ws, means_items py named' is ws -> vs = ws) (fun ks vs _ => forall ws, means_keywords py named' ks ws -> vs = ws));
    intros;
    match goal with
    | H : means _ named' _ _ |- _ => inversion H; subst; clear H
    | H : means_all _ named' _ _ |- _ => inversion H; subst; clear H
    | H : means_items _ named' _ _ |- _ => inversion H; subst; clear H
    | H : means_keywords _ named' _ _ |- _ => inversion H; subst; clear H
    end;
    repeat match goal with
    | I : forall w, means _ named' ?e w -> ?v = w, H : means _ named' ?e _ |- _ => apply I in H; subst
    | I : forall w, means_all _ named' ?e w -> ?v = w, H : means_all _ named' ?e _ |- _ => apply I in H; subst
    | I : forall w, means_items _ named' ?e w -> ?v = w, H : means_items _ named' ?e _ |- _ => apply I in H; subst
    | I : forall w, means_keywords _ named' ?e w -> ?v = w, H : means_keywords _ named' ?e _ |- _ => apply I in H; subst
    | H : dotted ?e ?p, H' : dotted ?e ?p' |- _ => pose proof (dotted_one _ _ _ H H'); subst; clear H'
    end; eauto; try congruence.
Qed.
(** Finitely many names need finite depth. *)
Lemma means_bounded (named : path -> V -> Prop) (R : nat -> path -> V -> Prop) :
  (forall d d' o v, d <= d' -> R d o v -> R d' o v) -> (forall o v, named o v -> exists d, R d o v) ->
  (forall e v, means py named e v -> exists d, means py (R d) e v)
  /\ (forall es vs, means_all py named es vs -> exists d, means_all py (R d) es vs)
  /\ (forall is vs, means_items py named is vs -> exists d, means_items py (R d) is vs)
  /\ (forall ks vs, means_keywords py named ks vs -> exists d, means_keywords py (R d) ks vs).
Proof.
  intros Mono H.
  assert (U : forall d d', d <= d' -> (forall e v, means py (R d) e v -> means py (R d') e v)
    /\ (forall es vs, means_all py (R d) es vs -> means_all py (R d') es vs)
    /\ (forall is vs, means_items py (R d) is vs -> means_items py (R d') is vs)
    /\ (forall ks vs, means_keywords py (R d) ks vs -> means_keywords py (R d') ks vs)).
  { intros d d' L. apply means_more. intros o v. now apply Mono. }
  assert (U1 : forall d d', d <= d' -> forall e v, means py (R d) e v -> means py (R d') e v) by (intros d d' L; apply (U d d' L)).
  assert (U2 : forall d d', d <= d' -> forall es vs, means_all py (R d) es vs -> means_all py (R d') es vs) by (intros d d' L; apply (U d d' L)).
  assert (U3 : forall d d', d <= d' -> forall es vs, means_items py (R d) es vs -> means_items py (R d') es vs) by (intros d d' L; apply (U d d' L)).
  assert (U4 : forall d d', d <= d' -> forall es vs, means_keywords py (R d) es vs -> means_keywords py (R d') es vs) by (intros d d' L; apply (U d d' L)).
  clear U.
  apply (means_together V py named (fun e v _ => exists d, means py (R d) e v)
    (fun es vs _ => exists d, means_all py (R d) es vs) (fun is vs _ => exists d, means_items py (R d) is vs) (fun ks vs _ => exists d, means_keywords py (R d) ks vs));
    intros;
    repeat match goal with
    | N : named _ _ |- _ => apply H in N
    | X : exists d, _ |- _ => destruct X
    end;
    match goal with
    | a : nat, b : nat, c : nat |- _ => exists (a + b + c)
    | a : nat, b : nat |- _ => exists (a + b)
    | a : nat |- _ => exists a
    | |- _ => exists 0
    end;
    try (econstructor; eauto; fail);
    try (econstructor; try (eapply U1; [|eassumption]; lia); try (eapply U2; [|eassumption]; lia); try (eapply U3; [|eassumption]; lia); try (eapply U4; [|eassumption]; lia);
      try (eapply Mono; [|eassumption]; lia); eauto; fail).
Qed.
End Means.

Section Objects.
Context {V : Type}.
Variable py : python V.
Variable stubs : tables.
Variables (made_classes : dict qualified_path V) (made_modules : dict path V) (new : list qualified_path).
Notation stands_for := (stands_for py stubs made_classes made_modules new).
Notation stands_among := (stands_among py stubs made_classes made_modules new).
Notation amounts_to := (amounts_to py stubs made_classes made_modules new).
Notation named := (named py stubs made_classes made_modules new).

Notation assigned_value := (assigned_value py stubs made_classes).
Lemma names_one ns ns' e e' s : assigned_to ns e s -> assigned_to ns' e' s -> ns = ns' /\ e = e'.
Proof.
  intros A B. destruct A; inversion B; subst; split; try reflexivity.
  match goal with H : map Name _ = map Name _ |- _ => revert H end. clear. revert ns'.
  induction ns as [|n ns IH]; intros [|n' ns']; try discriminate; [reflexivity|]. cbn [map]. intros [= <- E]. f_equal. now apply IH.
Qed.
Lemma map_Ok_one {A} (l l' : list A) : map (@Ok A) l = map Ok l' -> l = l'.
Proof. revert l'. induction l as [|a l IH]; intros [|a' l']; try discriminate; [reflexivity|]. intros [= <- E]. f_equal. auto. Qed.
(** All targets of an assignment have the same targets, expression and scope. *)
Lemma alias_target q ts e t ts' e' : alias_for stubs q ts e -> In t ts -> alias_for stubs t ts' e' ->
  ts = ts' /\ e = e' /\ fst t = fst q /\ removelast (snd t) = removelast (snd q).
Proof.
  intros (n & s & ns & ks & A1 & A2 & A3 & A4 & A5 & A6 & A7) I (n' & s' & ns' & ks' & B1 & B2 & B3 & B4 & B5 & B6 & B7).
  destruct (A3 _ I) as (T1 & T2 & T3 & _). destruct (B3 _ B5) as (_ & _ & T4 & _).
  rewrite T1, A1 in B1. injection B1 as <-. rewrite T3 in T4. injection T4 as <-.
  destruct (names_one _ _ _ _ _ A4 B4) as [<- <-]. rewrite T1, T2, A7 in B7. apply map_Ok_one in B7. auto.
Qed.
Lemma alias_others q ts e t : alias_for stubs q ts e -> In t ts -> alias_for stubs t ts e.
Proof.
  intros (n & s & ns & ks & A1 & A2 & A3 & A4 & A5 & A6 & A7) I. destruct (A3 _ I) as (T1 & T2 & _).
  exists n, s, ns, ks. rewrite T1, T2. auto 10.
Qed.
Lemma alias_one q ts e ts' e' : alias_for stubs q ts e -> alias_for stubs q ts' e' -> ts = ts' /\ e = e'.
Proof.
  intros A B. assert (I : In q ts) by (destruct A as (n & s & ns & ks & A); tauto).
  destruct (alias_target _ _ _ _ _ _ A I B) as (X & Y & _). auto.
Qed.
(** The fields of a class: what is assigned is remembered. *)
Lemma class_fields (m o : path) nodes own ns assigned annotated fuel c :
  NoDup own -> ~ In $"__module__" own -> ~ In $"__annotations__" own ->
  class_namespace (fun name => dget (o ++ [name]) nodes) (runs py stubs m o own) (assigns py stubs m o) own ns assigned ->
  (forall name w, In (name, w) assigned -> dget (m, o ++ [name]) (aliases c) = None \/ dget (m, o ++ [name]) (aliases c) = Some w) ->
  (annotated = true <-> exists name ss s, In name own /\ dget (o ++ [name]) nodes = Some ss /\ In s ss /\ is_annotation s) ->
  exists annotations md,
    evaluate_fields py stubs (evaluate_qualified_path py stubs (S fuel)) m o nodes own [($"__module__", module_name py)] [($"__name__", module_name py)] c
      = (remember m o assigned c, Ok (([($"__module__", module_name py)] ++ ns, md), annotations))
    /\ with_annotations py annotations ([($"__module__", module_name py)] ++ ns) = class_body py annotated ns
    /\ forall name a, In (name, a) annotations -> exists ss t, In name own /\ dget (o ++ [name]) nodes = Some ss /\ In (SAnnAssign t a None) ss.
Proof.
  intros ND NM NA F Fr An.
  destruct (fields_ok py stubs m o fuel own nodes _ _ _ F [($"__module__", module_name py)] [($"__name__", module_name py)] c)
    as (annotations & md & E & Z & W); auto; try (intros ? []; fail).
  { split; [repeat constructor; easy|]. split; [intros [X|[]]; discriminate X|]. intros name w G X. exfalso. apply dget_Some_In in G as [G|[]]. now inv G. }
  { intros n [<-|[]]. now left. }
  { intros n. easy. }
  { intros n Hn [<-|[]]. contradiction. }
  exists annotations, md. split; [exact E|]. split; [|exact W].
  unfold class_body, with_annotations. destruct annotations as [|a r]; cbn [is_nil].
  - destruct annotated; [|now rewrite app_nil_r]. exfalso. destruct (proj1 An eq_refl) as (name & ss & s & X1 & X2 & X3 & X4).
    eapply (proj1 Z eq_refl); eauto.
  - destruct annotated.
    + change (($"__module__", of_constant py (CStr $"paradigm._core.arboreal.evaluation")) :: ns ++ [($"__annotations__", empty_dict py)])
        with (([($"__module__", module_name py)] ++ ns) ++ [($"__annotations__", empty_dict py)]).
      apply dset_absent. cbn. intros [X|X]; [discriminate|]. apply NA. eapply (proj1 (namespace_keys py stubs m o _ _ _ _ _ F)); eauto.
    + exfalso. assert (X : a :: r = []); [|discriminate]. apply Z. intros name ss s X1 X2 X3 X4.
      enough (false = true) by discriminate. apply An. eauto 8.
Qed.
Lemma namespace_one (m o : path) nodes own ns assigned annotated ns' assigned' annotated' :
  NoDup own -> ~ In $"__module__" own -> ~ In $"__annotations__" own ->
  class_namespace (fun name => dget (o ++ [name]) nodes) (runs py stubs m o own) (assigns py stubs m o) own ns assigned ->
  class_namespace (fun name => dget (o ++ [name]) nodes) (runs py stubs m o own) (assigns py stubs m o) own ns' assigned' ->
  (annotated = true <-> exists name ss s, In name own /\ dget (o ++ [name]) nodes = Some ss /\ In s ss /\ is_annotation s) ->
  (annotated' = true <-> exists name ss s, In name own /\ dget (o ++ [name]) nodes = Some ss /\ In s ss /\ is_annotation s) ->
  class_body py annotated ns = class_body py annotated' ns'.
Proof.
  intros ND NM NA F F' A A'.
  destruct (class_fields m o nodes own ns assigned annotated 0 (mk_memory [] [] [] [] [] [] [] []) ND NM NA F (fun _ _ _ => or_introl eq_refl) A) as (an & md & E & <- & _).
  destruct (class_fields m o nodes own ns' assigned' annotated' 0 (mk_memory [] [] [] [] [] [] [] []) ND NM NA F' (fun _ _ _ => or_introl eq_refl) A') as (an' & md' & E' & <- & _).
  rewrite E in E'. injection E' as _ X _ Y. congruence.
Qed.
Lemma class_one (stands stands' : qualified_path -> V -> Prop) q v w : (forall b x y, stands b x -> stands' b y -> x = y) ->
  class_value py stubs stands q v -> class_value py stubs stands' q w -> v = w.
Proof.
  intros H (nodes & kinds & definitions & sc & ns & assigned & annotated & bases & _ & A1 & _ & _ & A2 & A3 & A4 & A5 & A6 & A7 & A8 & A9 & A10 & _)
    (nodes' & kinds' & definitions' & sc' & ns' & assigned' & annotated' & bases' & _ & B1 & _ & _ & B2 & B3 & _ & _ & _ & B7 & B8 & B9 & B10 & _).
  rewrite A1 in B1. injection B1 as <-. rewrite A2 in B2. injection B2 as <-. rewrite A3 in B3. injection B3 as <-.
  assert (X : bases = bases').
  { revert A9 B9. generalize (dget_or (snd q) [] (dget_or (fst q) [] (stub_superclasses stubs))). clear - H. intros l A. revert bases'.
    induction A as [|b x l xs S _ IH]; intros ys B; inversion B; subst; [reflexivity|]. f_equal; eauto. }
  subst bases'. rewrite (namespace_one _ _ _ _ _ _ _ _ _ _ A4 A5 A6 A7 B7 A8 B8) in A10. congruence.
Qed.
Lemma class_no_alias stands q v ts e : class_value py stubs stands q v -> alias_for stubs q ts e -> False.
Proof.
  intros (nodes & kinds & definitions & sc & ns & assigned & annotated & bases & F1 & F2 & F3 & F4 & _) (n & s & ns' & ks & A1 & A2 & A3 & A4 & A5 & _).
  destruct (A3 _ A5) as (_ & _ & _ & k & K1 & K2). rewrite A2 in F3. injection F3 as <-. congruence.
Qed.
Lemma class_more (stands stands' : qualified_path -> V -> Prop) q v : (forall b x, stands b x -> stands' b x) ->
  class_value py stubs stands q v -> class_value py stubs stands' q v.
Proof.
  intros H (nodes & kinds & definitions & sc & ns & assigned & annotated & bases & A).
  exists nodes, kinds, definitions, sc, ns, assigned, annotated, bases. destruct A as (A1 & A2 & A3 & A4 & A5 & A6 & A7 & A8 & A9 & A10 & A11 & A12 & A13).
  repeat (split; [assumption|]). split; [|exact A13]. clear - A12 H. induction A12; constructor; auto.
Qed.
Lemma annotations_more (stands stands' : qualified_path -> V -> Prop) q : (forall b x, stands b x -> stands' b x) ->
  annotations_mean py stubs stands q -> annotations_mean py stubs stands' q.
Proof.
  intros H A nodes definitions sc name ss t a X1 X2 X3 X4 X5 X6. destruct (A nodes definitions sc name ss t a X1 X2 X3 X4 X5 X6) as (w & W).
  exists w. revert W. apply (means_more py). intros o u (q' & R & S). eauto.
Qed.
(** What is being evaluated stands for nothing else. *)
Lemma itself_one ts e q v w : alias_for stubs q ts e -> itself py made_classes ts q v -> itself py made_classes ts q w -> v = w.
Proof. intros _ (_ & _ & _ & _ & ->) (_ & _ & _ & _ & ->). reflexivity. Qed.
Lemma itself_only ts e q v depth open w : alias_for stubs q ts e -> itself py made_classes ts q v -> In q open -> ~ amounts_to depth open q w.
Proof.
  intros A (_ & I1 & I2 & I3 & _) O S.
  assert (X : forall ts' e', alias_for stubs q ts' e' -> (forall t, In t ts' -> ~ In t open) -> False).
  { intros ts' e' (n & s & ns & ks & _ & _ & _ & _ & B & _) N. exact (N _ B O). }
  destruct depth as [|depth]; cbn [SpecAliases.amounts_to] in S; (destruct S as [S|[(_ & _ & S)|[(_ & S & _)|S]]]; [now apply I1 in S|congruence|contradiction|]);
    [exact S|]. destruct S as (_ & _ & _ & [(_ & S)|(ts' & e' & S1 & S2 & _)]); [exact (class_no_alias _ _ _ _ _ S A)|eauto].
Qed.
Lemma either_one ts e q0 q v w depth open depth' open' : alias_for stubs q0 ts e ->
  (forall v w, amounts_to depth (ts ++ open) q v -> amounts_to depth' (ts ++ open') q w -> v = w) ->
  itself py made_classes ts q v \/ amounts_to depth (ts ++ open) q v ->
  itself py made_classes ts q w \/ amounts_to depth' (ts ++ open') q w -> v = w.
Proof.
  intros A H. assert (A' : forall v, itself py made_classes ts q v -> alias_for stubs q ts e /\ forall open, In q (ts ++ open)).
  { intros u (-> & _). assert (q0 = q) by (destruct A as (n & s & ns & ks & _ & _ & _ & _ & [B|[]] & _); congruence). subst q0.
    split; [exact A|]. intros o. now left. }
  intros [X|X] [Y|Y].
  - destruct (A' _ X). eapply itself_one; eauto.
  - destruct (A' _ X) as [B I]. exfalso. exact (itself_only _ _ _ _ _ _ _ B X (I _) Y).
  - destruct (A' _ Y) as [B I]. exfalso. exact (itself_only _ _ _ _ _ _ _ B Y (I _) X).
  - eauto.
Qed.
Lemma amounts_one : forall depth open q v depth' open' w, amounts_to depth open q v -> amounts_to depth' open' q w -> v = w.
Proof.
  induction depth as [|depth IH]; intros open q v [|depth'] open' w; cbn [SpecAliases.amounts_to]; unfold not_imported.
  all: intros [A|[(A1 & A2 & A3)|[(A1 & A2 & A3)|A]]] [B|[(B1 & B2 & B3)|[(B1 & B2 & B3)|B]]]; try contradiction; try congruence;
    try (destruct B as (B1 & B2 & B3 & B)); try (exfalso; congruence);
    try (destruct A as (A1 & A2 & A3 & A)); try (exfalso; congruence).
  destruct A as [(_ & A)|(ts & e & A5 & A4 & A6)], B as [(_ & B)|(ts' & e' & B5 & B4 & B6)].
  - revert A B. apply class_one. intros b x y. apply IH.
  - exfalso. eapply class_no_alias; eauto.
  - exfalso. eapply class_no_alias; eauto.
  - destruct (alias_one _ _ _ _ _ A5 B5) as [<- <-]. revert A6 w B6.
    apply (means_one py). intros o x y (q1 & R1 & S1) (q2 & R2 & S2). rewrite R1 in R2. injection R2 as <-.
    eapply (either_one ts e); eauto.
Qed.
(** The value assigned is one for all targets. *)
Lemma assigned_one depth open q v depth' open' t ts e w : assigned_value (amounts_to depth) open q v -> alias_for stubs q ts e -> In t ts ->
  assigned_value (amounts_to depth') open' t w -> v = w.
Proof.
  intros (ts1 & e1 & A & _ & M) A' I (ts2 & e2 & B & _ & M'). destruct (alias_one _ _ _ _ _ A A') as [-> ->].
  destruct (alias_target _ _ _ _ _ _ A' I B) as (<- & <- & T1 & T2). rewrite T1, T2 in M'. revert M w M'.
  apply (means_one py). intros o x y (q1 & R1 & S1) (q2 & R2 & S2). rewrite R1 in R2. injection R2 as <-.
  eapply (either_one ts e); eauto. intros u u'. apply amounts_one.
Qed.
(** Fewer aliases may be open, and more aliases deep. *)
Lemma assigned_more (stands stands' : list qualified_path -> qualified_path -> V -> Prop) open open' q v :
  (forall o q v, (forall x, In x o -> exists ts, In x (ts ++ open)) -> forall o', incl o' o -> stands o q v -> stands' o' q v) ->
  incl open' open -> assigned_value stands open q v -> assigned_value stands' open' q v.
Proof.
  intros H I (ts & e & A & N & M). exists ts, e. split; [exact A|]. split; [intros t T X; exact (N t T (I _ X))|].
  revert M. apply (means_more py). intros o w (q' & R & [S|S]); exists q'; (split; [exact R|]); [now left|right]. revert S. apply H.
  - intros x X. now exists ts.
  - intros x X. apply in_app_iff in X as [X|X]; apply in_app_iff; auto.
Qed.
Lemma amounts_more : forall depth open q v depth' open', depth <= depth' -> incl open' open ->
  amounts_to depth open q v -> amounts_to depth' open' q v.
Proof.
  induction depth as [|depth IH]; intros open q v [|depth'] open' L I; cbn [SpecAliases.amounts_to];
    try (intros [A|[A|[A|A]]]; [auto|auto|auto|]); try contradiction; try lia.
  right. right. right. destruct A as (A1 & A2 & A3 & A4). repeat (split; [assumption|]). destruct A4 as [(A4 & A6)|A4]; [left|right].
  { split; [exact A4|]. revert A6. apply class_more. intros b x. apply IH; [lia|exact I]. }
  revert A4. apply assigned_more; [|exact I].
  intros o q' w _ o' I'. apply IH; [lia|exact I'].
Qed.
Lemma not_open_fewer q open open' : incl open' open -> not_open q open -> not_open q open'.
Proof. intros I (A & B). split; [intros X; exact (A (I _ X))|]. intros t T. exact (B t (I _ T)). Qed.
(** What is assigned in a class is what the name is as an alias. *)
Lemma member_value (m o : path) nodes own ns assigned name w e :
  class_namespace (fun name => dget (o ++ [name]) nodes) (runs py stubs m o own) (assigns py stubs m o) own ns assigned ->
  dget m (stub_nodes stubs) = Some nodes -> In (name, w) assigned -> alias_for stubs (m, o ++ [name]) [(m, o ++ [name])] e ->
  assigned_value (amounts_to 0) [] (m, o ++ [name]) w.
Proof.
  intros F N I A. exists [(m, o ++ [name])], e. split; [exact A|]. split; [intros t _ []|]. cbn [fst snd]. rewrite removelast_last.
  assert (X : exists before s after, dget (o ++ [name]) nodes = Some (before ++ s :: after) /\ assigns py stubs m o name s w).
  { revert F I. generalize own at 2. clear. intros l F. induction F as [| | |n names before s after v ns assigned E S _ _ _ IH]; auto; [intros []|].
    intros [X|X]; [|auto]. injection X as -> ->. eauto. }
  destruct X as (before & s & after & E & e' & S & R & _ & Im & M).
  destruct A as (ns' & s' & nodes' & kinds & A1 & A2 & A3 & A4 & A5 & _). cbn [fst snd] in A1. rewrite N in A1. injection A1 as <-.
  destruct (A3 _ A5) as (_ & _ & E' & _). cbn [snd] in E'. pose proof (eq_trans (eq_sym E) E') as E''. injection E'' as E''. clear E'. rename E'' into E'.
  assert (s = s') by (destruct before as [|b [|b' before]]; [now injection E'|discriminate E'|discriminate E']). subst s'.
  assert (B : assigned_to [name] e' s) by (destruct S as [->|[a ->]]; [exact (assigned_plain [name] e')|constructor]).
  destruct (names_one _ _ _ _ _ A4 B) as [_ ->]. revert M. apply (means_more py). intros o' v (q' & Q & V'). exists q'. split; [exact Q|]. right. left. exact V'.
Qed.
Lemma among_more : forall depth own open q v depth' open', depth <= depth' -> incl open' open ->
  stands_among depth own open q v -> stands_among depth' own open' q v.
Proof.
  induction depth as [|depth IH]; intros own open q v [|depth'] open' L I; cbn [SpecAliases.stands_among];
    try (intros [A|[A|[A|A]]]; [auto|auto|auto|]); try contradiction; try lia.
  right. right. right. destruct A as (A1 & A2 & A3 & A4). repeat (split; [assumption|]).
  assert (I' : incl (q :: open') (q :: open)) by (intros y [Y|Y]; [now left|right; auto]).
  destruct A4 as [(A4 & [(A5 & d & A6)|(A5 & A6 & A7)])|A4]; [left|left|right].
  - split; [exact A4|]. left. split; [exact A5|]. exists d. revert A6. apply amounts_more; [apply le_n|exact I].
  - split; [exact A4|]. right. split; [exact (not_open_fewer _ _ _ I A5)|]. split.
    + revert A6. apply class_more. intros b x. apply IH; [lia|exact I'].
    + revert A7. apply annotations_more. intros b x. apply IH; [lia|exact I'].
  - revert A4. apply assigned_more; [|exact I]. intros o q' w _ o' J. apply IH; [lia|exact J].
Qed.
Lemma stands_for_more depth open q v depth' open' : depth <= depth' -> incl open' open ->
  stands_for depth open q v -> stands_for depth' open' q v.
Proof. apply among_more. Qed.
(** What a path stands for is what it amounts to. *)
Lemma class_loosely (stands : qualified_path -> V -> Prop) open q v : (forall b x, stands b x -> exists d, amounts_to d open b x) ->
  class_value py stubs stands q v -> exists d, class_value py stubs (amounts_to d open) q v.
Proof.
  intros H (nodes & kinds & definitions & sc & ns & assigned & annotated & bases & A).
  destruct A as (A1 & A2 & A3 & A4 & A5 & A6 & A7 & A8 & A9 & A10 & A11 & A12 & A13).
  assert (X : exists d, Forall2 (amounts_to d open) (dget_or (snd q) [] (dget_or (fst q) [] (stub_superclasses stubs))) bases).
  { clear - A12 H. induction A12 as [|b x l l' S _ (d & IH)]; [exists 0; constructor|]. destruct (H _ _ S) as (d' & S'). exists (d + d'). constructor.
    - revert S'. apply amounts_more; [lia|apply incl_refl].
    - clear - IH. induction IH as [|b x l l' S _ IH]; constructor; [|exact IH]. revert S. apply amounts_more; [lia|apply incl_refl]. }
  destruct X as (d & X). exists d, nodes, kinds, definitions, sc, ns, assigned, annotated, bases. do 11 (split; [assumption|]). split; [exact X|exact A13].
Qed.
Lemma assigned_loosely (stands : list qualified_path -> qualified_path -> V -> Prop) open q v :
  (forall open b x, stands open b x -> exists d, amounts_to d open b x) ->
  assigned_value stands open q v -> exists d, assigned_value (amounts_to d) open q v.
Proof.
  intros H (ts & e & A & N & M).
  set (R := fun d o w => exists q', resolve stubs (fst q) (removelast (snd q)) o = Ok q'
    /\ (itself py made_classes ts q' w \/ amounts_to d (ts ++ open) q' w)).
  assert (R1 : forall d d' o x, d <= d' -> R d o x -> R d' o x).
  { intros d d' o x L (q' & E & [S|S]); exists q'; (split; [exact E|]); [now left|right]. revert S. apply amounts_more; [exact L|apply incl_refl]. }
  destruct (proj1 (means_bounded py (fun o w => exists q', resolve stubs (fst q) (removelast (snd q)) o = Ok q'
    /\ (itself py made_classes ts q' w \/ stands (ts ++ open) q' w)) R R1
    ltac:(intros o x (q' & E & [S|S]); [exists 0, q'; auto|destruct (H _ _ _ S) as (d & S'); exists d, q'; auto])) e v M) as (d & M').
  exists d, ts, e. auto.
Qed.
Lemma among_loosely : forall depth own open q v, stands_among depth own open q v -> exists d, amounts_to d open q v.
Proof.
  induction depth as [|depth IH]; intros own open q v A; cbn [SpecAliases.stands_among] in A;
    (destruct A as [A|[A|[A|A]]]; [exists 0; left; exact A|exists 0; right; left; exact A|exists 0; right; right; left; exact A|]); [contradiction|].
  destruct A as (A1 & A2 & A3 & [(A4 & [(_ & A5)|(_ & A5 & _)])|A4]); [exact A5| |].
  - destruct (class_loosely (stands_among depth own (q :: open)) open q v) as (d & X); [|exact A5|].
    + intros b x S. destruct (IH _ _ _ _ S) as (d & S'). exists d. revert S'. apply amounts_more; [apply le_n|apply incl_tl, incl_refl].
    + exists (S d). right. right. right. auto 6.
  - destruct (assigned_loosely (stands_among depth own) open q v) as (d & X); [|exact A4|].
    + intros o b x. apply IH.
    + exists (S d). right. right. right. auto 6.
Qed.
Lemma stands_for_one depth open q v depth' open' w : stands_for depth open q v -> stands_for depth' open' q w -> v = w.
Proof.
  intros A B. destruct (among_loosely _ _ _ _ _ A) as (d & A'). destruct (among_loosely _ _ _ _ _ B) as (d' & B').
  eapply amounts_one; eauto.
Qed.
End Objects.

Lemma in_dec_path (q : qualified_path) open : {In q open} + {~ In q open}.
Proof. apply in_dec. intros x y. destruct (eqb_reflect x y); auto. Qed.

Section Evaluate.
Context {V : Type}.
Variable py : python V.
Variable stubs : tables.
Variables (made_classes : dict qualified_path V) (made_modules : dict path V) (globals_ : dict pystr V)
  (attributes_ : dict path (dict pystr V)) (new : list qualified_path) (made : list qualified_path * dict qualified_path (list (pystr * V))).
Notation stands_for := (stands_for py stubs made_classes made_modules new).
Notation stands_among := (stands_among py stubs made_classes made_modules new).
Notation amounts_to := (amounts_to py stubs made_classes made_modules new).
Notation named := (named py stubs made_classes made_modules new).
Notation assigned_value := (assigned_value py stubs made_classes).

(** The memory while the values of [open] are being evaluated; [kept]: what is remembered of
    some of these meanwhile, and [own], the first of [state]: the classes that have been made and
    are being annotated, while those of the second are being made *)
Definition in_state (state : list qualified_path * list qualified_path) (c : memory V) : Prop :=
  (forall q, In q (fst state) -> dget q (classes c) <> None) /\ (forall q, In q (snd state) -> dget q (classes c) = None)
  /\ exists l, new_classes c = fst made ++ l /\ NoDup l /\ (forall q, In q (fst state) -> In q l)
  /\ (forall q, In q l -> dget q (classes c) <> None /\ In q new /\ dget q made_classes = None)
  /\ (forall q, In q l -> ~ In q (fst state) -> annotations_right py stubs made_classes made_modules new q (annotations c))
  /\ (forall q, ~ In q l -> dget q (annotations c) = dget q (snd made))
  /\ (forall q, In q l -> ~ In q (fst state) ->
       exists q' v, In q' l /\ ~ In q' (fst state) /\ path_to_string (snd q') = path_to_string (snd q)
         /\ dget (path_to_string (snd q)) (globals c) = Some v /\ dget q' (classes c) = Some v).
Definition sound_at (state : list qualified_path * list qualified_path) (kept : list (qualified_path * V)) (open : list qualified_path) (c : memory V) : Prop :=
  grown py stubs made_classes made_modules new (classes c) globals_ (globals c) /\ (modules c = made_modules /\ attributes c = attributes_)
  /\ (forall q w, dget q (aliases c) = Some w -> In q open \/ forall depth v, assigned_value (amounts_to depth) [] q v -> w = v)
  /\ (forall q w, In (q, w) kept -> dget q (aliases c) = Some w)
  /\ in_state state c.
Definition sound := sound_at ([], []) [].

Section Own.
Variable state : list qualified_path * list qualified_path.
Notation sound_with := (sound_at state).

Section Fuel.
Variables (fuel : nat) (kept : list (qualified_path * V)) (open : list qualified_path) (m parent : path) (means_ : path -> V -> Prop).
Notation p := (evaluate_qualified_path py stubs fuel).
Notation sound := (sound_with kept).
Hypothesis resolved_sound : forall o v c, means_ o v -> sound open c ->
  exists c', evaluate_resolved stubs p m parent o c = (c', Ok v) /\ sound open c'.
Notation ev := (evaluate_expression py stubs p m parent).

Ltac next H G := let c := fresh "c" in let E := fresh "E" in destruct (H _ G) as (c & E & G'); rewrite E; cbn [ebind]; clear E G; rename G' into G.
Lemma expressions_sound :
  (forall e v, means py means_ e v -> forall c, sound open c -> exists c', ev e c = (c', Ok v) /\ sound open c')
  /\ (forall es vs, means_all py means_ es vs ->
        forall c, sound open c -> exists c', evaluate_list ev es c = (c', Ok vs) /\ sound open c')
  /\ (forall is vs, means_items py means_ is vs ->
        forall c, sound open c -> exists c', evaluate_items ev is c = (c', Ok vs) /\ sound open c')
  /\ (forall ks vs, means_keywords py means_ ks vs ->
        forall c, sound open c -> exists c', evaluate_keywords ev ks c = (c', Ok vs) /\ sound open c').
Proof.
  apply (means_together V py means_
    (fun e v _ => forall c, sound open c -> exists c', ev e c = (c', Ok v) /\ sound open c')
    (fun es vs _ => forall c, sound open c -> exists c', evaluate_list ev es c = (c', Ok vs) /\ sound open c')
    (fun is vs _ => forall c, sound open c -> exists c', evaluate_items ev is c = (c', Ok vs) /\ sound open c')
    (fun ks vs _ => forall c, sound open c -> exists c', evaluate_keywords ev ks c = (c', Ok vs) /\ sound open c')).
  - intros k c G. exists c. auto.
  - intros id v N c G. cbn [evaluate_expression]. now apply resolved_sound.
  - intros e a v w _ IH A c G. cbn [evaluate_expression]. next IH G. rewrite A. eauto.
  - intros e a o v w _ IH A D N c G. cbn [evaluate_expression]. next IH G. rewrite A. apply dotted_to_path in D. rewrite D.
    now apply resolved_sound.
  - intros e i v w x _ IH1 _ IH2 A c G. cbn [evaluate_expression]. next IH1 G. next IH2 G. rewrite A. eauto.
  - intros e i v w _ IH1 _ IH2 A c G. cbn [evaluate_expression]. next IH1 G. next IH2 G. rewrite A. eauto.
  - intros es vs _ IH c G. cbn [evaluate_expression]. next IH G. eauto.
  - intros es vs _ IH c G. cbn [evaluate_expression]. next IH G. eauto.
  - intros is vs x M IH A c G. cbn [evaluate_expression]. rewrite (means_items_keys _ _ _ _ M). next IH G. rewrite A. eauto.
  - intros f es ks g vs kvs x _ IH1 _ IH2 _ IH3 A c G. cbn [evaluate_expression]. next IH2 G. next IH3 G. next IH1 G. rewrite A. eauto.
  - intros l o r v w x N _ IH1 _ IH2 A c G. cbn [evaluate_expression]. next IH1 G. next IH2 G.
    assert (B : apply_binary py o v w = Ok x) by (now destruct o). rewrite B. eauto.
  - intros l r v w x _ IH1 _ IH2 A B c G. cbn [evaluate_expression]. next IH1 G. next IH2 G. cbn [apply_binary]. rewrite A, B. eauto.
  - intros o e v x N _ IH A c G. cbn [evaluate_expression].
    replace (match o with OtherUnary => (c, Err TypeError) | _ => ebind (ev e c) (fun c v => (c, apply_unary py o v)) end)
      with (ebind (ev e c) (fun c v => (c, apply_unary py o v))) by (now destruct o).
    next IH G. replace (apply_unary py o v) with (Ok x) by (now destruct o). eauto.
  - intros c G. exists c. auto.
  - intros e es v vs _ IH1 _ IH2 c G. cbn [evaluate_list]. next IH1 G. next IH2 G. eauto.
  - intros c G. exists c. auto.
  - intros k e is w v vs _ IH1 _ IH2 _ IH3 c G. cbn [evaluate_items]. next IH1 G. next IH2 G. next IH3 G. eauto.
  - intros c G. exists c. auto.
  - intros n e ks v kvs _ IH1 _ IH2 c G. cbn [evaluate_keywords]. next IH1 G. next IH2 G. eauto.
Qed.
End Fuel.
Lemma expression_sound fuel depth kept open m parent :
  (forall q v c, stands_for depth open q v -> sound_with kept open c ->
     exists c', evaluate_qualified_path py stubs fuel q c = (c', Ok v) /\ sound_with kept open c') ->
  forall e v, means py (named depth open m parent) e v -> forall c, sound_with kept open c ->
  exists c', evaluate_expression py stubs (evaluate_qualified_path py stubs fuel) m parent e c = (c', Ok v) /\ sound_with kept open c'.
Proof.
  intros H. apply (expressions_sound fuel kept open m parent (named depth open m parent)).
  intros o v c (q & R & S) G. unfold evaluate_resolved. rewrite R. now apply H.
Qed.

Lemma folded {K A} `{Eqb K} (l : list (K * A)) q v : forall d, dget q (fold_left (fun d x => dset (fst x) (snd x) d) l d) = Some v ->
  In (q, v) l \/ dget q d = Some v.
Proof.
  induction l as [|[q' v'] l IH]; intros d D; [now right|]. cbn [fold_left fst snd] in D. destruct (IH _ D) as [X|X]; [left; now right|].
  rewrite dget_dset in X. destruct (eqb_reflect q q') as [->|N]; [|now right]. injection X as ->. left. now left.
Qed.
Lemma folded_same {K A} `{Eqb K} (l : list (K * A)) q v : (forall w, ~ In (q, w) l) -> forall d, dget q d = Some v ->
  dget q (fold_left (fun d x => dset (fst x) (snd x) d) l d) = Some v.
Proof.
  induction l as [|[q' v'] l IH]; intros N d D; [exact D|]. cbn [fold_left fst snd]. apply IH; [intros w X; exact (N w (or_intror X))|].
  rewrite dget_dset. destruct (eqb_reflect q q') as [->|X]; [|exact D]. destruct (N v'). now left.
Qed.
Lemma grown_made q v c g : grown py stubs made_classes made_modules new (classes c) g (globals c) -> dget q made_classes = Some v -> dget q (classes c) = Some v.
Proof.
  intros (l & l' & L & -> & _) D. apply folded_same; [|exact D]. intros w X. destruct (L q w) as (_ & _ & _ & Y); [apply in_app_iff; now left|]. congruence.
Qed.
Lemma grown_new q v c g : grown py stubs made_classes made_modules new (classes c) g (globals c) -> dget q made_classes = None -> dget q (classes c) = Some v ->
  exists depth, class_value py stubs (amounts_to depth []) q v.
Proof.
  intros (l & l' & L & E & _) D X. rewrite E in X. destruct (folded _ _ _ _ X) as [Y|Y]; [|congruence].
  destruct (L q v) as (_ & Z & _); [apply in_app_iff; now left|exact Z].
Qed.
Lemma sound_names kept open ns c : sound_with kept open c -> sound_with kept open (with_names ns c).
Proof. intros H. exact H. Qed.
Definition keys_in (kept : list (qualified_path * V)) (open : list qualified_path) : Prop := forall q w, In (q, w) kept -> In q open.
Lemma sound_more kept open q c w : keys_in kept open -> ~ In q open -> sound_with kept open c -> sound_with kept (q :: open) (with_alias q w c).
Proof.
  intros K O (A & B & D & P & W). split; [exact A|]. split; [exact B|]. split; [|split; [|exact W]].
  - intros q' w' E. cbn [with_alias aliases] in E.
    rewrite dget_dset in E. destruct (eqb_reflect q' q) as [->|N]; [left; now left|].
    destruct (D _ _ E) as [X|X]; [left; now right|now right].
  - intros q' w' I. cbn [with_alias aliases]. rewrite dget_dset. destruct (eqb_reflect q' q) as [->|N]; [|auto].
    exfalso. exact (O (K _ _ I)).
Qed.
Lemma sound_fewer kept open open' c : incl open open' -> sound_with kept open c -> sound_with kept open' c.
Proof. intros I (A & B & D & P & W). split; [exact A|]. split; [exact B|]. split; [|split; [exact P|exact W]]. intros q w E. destruct (D _ _ E); auto. Qed.
Lemma sound_keep kept open q w c : sound_with kept open c -> dget q (aliases c) = Some w -> sound_with ((q, w) :: kept) open c.
Proof.
  intros (A & B & D & P & W) E. split; [exact A|]. split; [exact B|]. split; [exact D|]. split; [|exact W].
  intros q' w' [I|I]; [|auto]. injection I as <- <-. exact E.
Qed.
Lemma sound_drop kept open x c : sound_with (x :: kept) open c -> sound_with kept open c.
Proof. intros (A & B & D & P & W). split; [exact A|]. split; [exact B|]. split; [exact D|]. split; [|exact W]. intros q' w' I. apply P. now right. Qed.
Lemma sound_stored kept open q c v : keys_in kept open -> ~ In q open -> sound_with kept (q :: open) c ->
  (forall depth w, assigned_value (amounts_to depth) [] q w -> v = w) -> sound_with kept open (with_alias q v c).
Proof.
  intros K O (A & B & D & P & W) S. split; [exact A|]. split; [exact B|]. split; [|split; [|exact W]].
  - intros q' w' E. cbn [with_alias aliases] in E.
    rewrite dget_dset in E. destruct (eqb_reflect q' q) as [->|N].
    + right. injection E as <-. exact S.
    + destruct (D _ _ E) as [[X|X]|X]; [congruence|now left|now right].
  - intros q' w' I. cbn [with_alias aliases]. rewrite dget_dset. destruct (eqb_reflect q' q) as [->|N]; [|auto].
    exfalso. exact (O (K _ _ I)).
Qed.
Lemma keys_more kept open open' : incl open open' -> keys_in kept open -> keys_in kept open'.
Proof. intros I K q w X. exact (I _ (K _ _ X)). Qed.
Lemma store_sound kept open v : keys_in kept open -> forall ts c, NoDup ts -> (forall t, In t ts -> ~ In t open) -> sound_with kept (ts ++ open) c ->
  (forall t, In t ts -> forall depth w, assigned_value (amounts_to depth) [] t w -> v = w) -> sound_with kept open (store ts v c).
Proof.
  intros K. induction ts as [|t ts IH]; intros c N O G H; [exact G|]. inversion N as [|? ? N1 N2]; subst. cbn [store fold_left].
  apply IH; [exact N2|intros t' T; apply O; now right| |intros t' T; apply H; now right].
  apply sound_stored; [revert K; apply keys_more, incl_appr, incl_refl| |exact G|apply H; now left].
  intros I. apply in_app_iff in I as [I|I]; [contradiction|]. exact (O t (or_introl eq_refl) I).
Qed.
Lemma search_sound v kept : forall ts open c, keys_in kept open -> (forall t, In t ts -> ~ In t open) -> sound_with kept open c -> NoDup ts ->
  (forall t w, In t ts -> dget t (aliases c) = Some w -> w = v) ->
  exists c', sound_with kept (ts ++ open) c'
    /\ ((search_cache py ts c = (c', None) /\ forall t, ts = [t] -> dget t (aliases c') = Some (forward_ref py (path_to_string (snd t))))
        \/ search_cache py ts c = (c', Some v)).
Proof.
  induction ts as [|t ts IH]; intros open c K O G N H; [exists c; split; [exact G|]; left; split; [reflexivity|discriminate]|].
  inversion N as [|? ? N1 N2]; subst. cbn [search_cache].
  destruct (dget t (aliases c)) as [w|] eqn:D.
  - exists c. split; [apply (sound_fewer _ open); [apply incl_appr, incl_refl|exact G]|]. right. rewrite (H t w); [reflexivity|now left|exact D].
  - destruct (IH (t :: open) (with_alias t (forward_ref py (path_to_string (snd t))) c)) as (c' & G' & E).
    + revert K. apply keys_more, incl_tl, incl_refl.
    + intros t' T [X|X]; [congruence|]. exact (O t' (or_intror T) X).
    + apply sound_more; [exact K| |exact G]. apply O. now left.
    + exact N2.
    + intros t' w T D'. cbn [with_alias aliases] in D'. rewrite dget_dset in D'. destruct (eqb_reflect t' t) as [->|X]; [contradiction|].
      apply (H t'); [now right|exact D'].
    + exists c'. split.
      * revert G'. apply sound_fewer. intros x X. apply in_app_iff in X as [X|[X|X]].
        -- right. apply in_app_iff. now left.
        -- now left.
        -- right. apply in_app_iff. now right.
      * destruct E as [(E & _)|E]; [left|now right]. split; [exact E|]. intros t' [= <- ->]. cbn [search_cache] in E. injection E as <-.
        cbn [with_alias aliases]. rewrite dget_dset. destruct (eqb_reflect t t); [reflexivity|contradiction].
Qed.
Lemma targets_found m parent ns e s ts : assigned_to ns e s -> map (fun n => resolve stubs m parent [n]) ns = map Ok ts ->
  targets_paths stubs m parent s = Ok ts.
Proof.
  intros A E. unfold targets_paths.
  assert (N : to_names s = Ok ns).
  { destruct A as [ns e|n a e]; [|reflexivity]. cbn [to_names]. clear E. induction ns as [|n ns IH]; [reflexivity|]. cbn [map map_m target_name bind_res].
    rewrite IH. reflexivity. }
  rewrite N. cbn [bind_res]. clear A N. revert ts E. induction ns as [|n ns IH]; intros [|t ts]; try discriminate; [reflexivity|].
  cbn [map map_m]. intros [= E1 E2]. rewrite E1. cbn [bind_res]. now rewrite (IH _ E2).
Qed.

Lemma remember_sound kept open m o assigned : keys_in kept open -> forall c,
  (forall name w, In (name, w) assigned -> ~ In (m, o ++ [name]) open /\ forall d x, assigned_value (amounts_to d) [] (m, o ++ [name]) x -> w = x) ->
  sound_with kept open c -> sound_with kept open (remember m o assigned c).
Proof.
  intros K. induction assigned as [|[n w] assigned IH]; intros c H G; [exact G|].
  change (sound_with kept open (remember m o assigned (with_alias (m, o ++ [n]) w c))). apply IH; [intros n' w' I; apply H; now right|].
  destruct (H n w (or_introl eq_refl)) as (A & B). apply sound_stored; [exact K|exact A| |exact B].
  revert G. apply sound_fewer, incl_tl, incl_refl.
Qed.
(** An alias whose placeholder is remembered is its placeholder. *)
Lemma placeholder_sound ts e kept open fuel q w c : alias_for stubs q ts e -> itself py made_classes ts q w -> In (q, w) kept -> sound_with kept open c -> 0 < fuel ->
  exists c', evaluate_qualified_path py stubs fuel q c = (c', Ok w) /\ sound_with kept open c'.
Proof.
  destruct q as [qm qo], fuel as [|fuel]; [lia|]. intros A (-> & I1 & I2 & I3 & _) K G _. cbn [fst snd] in *.
  assert (C0 : dget (qm, qo) (classes c) = None).
  { destruct (dget (qm, qo) (classes c)) as [x|] eqn:C; [|reflexivity]. exfalso. destruct (grown_new _ _ _ _ (proj1 G) I3 C) as (d & F).
    exact (class_no_alias _ _ _ _ _ _ _ F A). }
  destruct A as (ns & s & nodes & kinds & A1 & A4 & A2 & A3 & A7 & A8 & A9). cbn [fst snd] in *.
  destruct (A2 _ A7) as (_ & _ & A2' & k & A5 & A6). cbn [snd] in A2', A5.
  pose proof (proj1 (proj2 (proj2 (proj2 G))) _ _ K) as D.
  assert (X : exists c', evaluate_object py stubs (evaluate_qualified_path py stubs fuel) qm qo c = (c', Ok w) /\ sound_with kept open c').
  { unfold evaluate_object. replace (dget (qm, qo) (classes c)) with (@None V) by (symmetry; exact C0).
    unfold fetch. rewrite A1, A4. cbn [bind_res]. rewrite A5. cbn [bind_res].
    replace (is_CLASS k) with false by (destruct k; try reflexivity; contradiction). rewrite A2'. cbn [evaluate_nodes].
    replace (evaluate_statement py stubs (evaluate_qualified_path py stubs fuel) qm (removelast qo) s c)
      with (evaluate_assignment py stubs (evaluate_qualified_path py stubs fuel) qm (removelast qo) s (Some e) c)
      by (destruct A3; reflexivity).
    unfold evaluate_assignment. rewrite (targets_found _ _ _ _ _ _ A3 A9). cbn [search_cache].
    replace (dget (qm, qo) (aliases c)) with (Some w) by (symmetry; exact D). cbn [ebind store fold_left].
    eexists. split; [reflexivity|]. apply sound_names. destruct G as (G1 & G2 & G3 & G4 & G5). split; [exact G1|]. split; [exact G2|]. split; [|split; [|exact G5]].
    - intros q' w' E. cbn [with_alias aliases] in E. rewrite dget_dset in E. destruct (eqb_reflect q' (qm, qo)) as [->|N]; [|auto].
      injection E as <-. auto.
    - intros q' w' I. cbn [with_alias aliases]. rewrite dget_dset. destruct (eqb_reflect q' (qm, qo)) as [->|N]; [|auto].
      pose proof (G4 _ _ I). congruence. }
  cbn [evaluate_qualified_path fst snd]. destruct X as (c' & X & G'). destruct (import_object py (qm, qo)) as [| |x] eqn:I; [|eauto|now apply I1 in I].
  destruct qo; [contradiction|]. cbn [is_nil]. eauto.
Qed.
End Own.

(** Classes are made after their base classes, and annotated once they are there. *)
Lemma NoDup_snoc {A} (l : list A) a : NoDup l -> ~ In a l -> NoDup (l ++ [a]).
Proof. intros N I. apply NoDup_Add with (a := a) (l := l); [|now split]. rewrite <- (app_nil_r l) at 1. apply Add_app. Qed.
Lemma class_sound depth own absent kept open fuel m o v c :
  (forall own absent kept q v c, stands_among depth own ((m, o) :: open) q v -> keys_in kept ((m, o) :: open) -> incl absent ((m, o) :: open) -> sound_at (own, absent) kept ((m, o) :: open) c ->
     exists c', evaluate_qualified_path py stubs (S fuel) q c = (c', Ok v) /\ sound_at (own, absent) kept ((m, o) :: open) c') ->
  not_imported py (m, o) -> dget (m, o) made_classes = None -> In (m, o) new -> not_open (m, o) open ->
  class_value py stubs (stands_among depth own ((m, o) :: open)) (m, o) v ->
  annotations_mean py stubs (stands_among depth ((m, o) :: own) ((m, o) :: open)) (m, o) -> keys_in kept open -> incl absent open -> sound_at (own, absent) kept open c -> dget (m, o) (classes c) = None ->
  exists c', evaluate_qualified_path py stubs (S (S fuel)) (m, o) c = (c', Ok v) /\ sound_at (own, absent) kept open c'.
Proof.
  intros H NI NM Nw NO' CV AM K Ab G NC. pose proof (proj1 NO') as NO. pose proof CV as CV0.
  destruct CV as (nodes & kinds & definitions & sc & ns & assigned & annotated & bases & F1 & F2 & F3 & F4 & F5 & F6 & F7 & F8 & F9 & F10 & F12 & F13 & F14 & _ & F15).
  cbn [fst snd] in *. set (q := (m, o)) in *.
  assert (Loose : forall b x, stands_among depth own (q :: open) b x -> exists d, amounts_to d [] b x).
  { intros b x S. destruct (among_loosely _ _ _ _ _ _ _ _ _ _ S) as (d & S'). exists d. revert S'. apply amounts_more; [apply le_n|apply incl_nil_l]. }
  assert (Made : may_be_made py stubs made_classes made_modules new q v) by (split; [exact Nw|]; split; [|split; [exact NI|exact NM]]; apply (class_loosely _ _ _ _ _ _ _ _ _ Loose CV0)).
  assert (Uq : ~ In q own) by (intros I; exact (proj1 (proj2 (proj2 (proj2 (proj2 G)))) q I NC)).
  assert (K' : keys_in kept (q :: open)) by (revert K; apply keys_more, incl_tl, incl_refl).
  assert (Ab' : incl absent (q :: open)) by (intros x X; right; auto).
  assert (G0 : sound_at (own, q :: absent) kept (q :: open) c).
  { apply (sound_fewer _ _ open (q :: open)); [apply incl_tl, incl_refl|]. destruct G as (X1 & X2 & X3 & X4 & X5 & X6 & X7).
    split; [exact X1|]. split; [exact X2|]. split; [exact X3|]. split; [exact X4|]. split; [exact X5|]. split; [|exact X7].
    intros q' [<-|I]; [exact NC|exact (X6 _ I)]. }
  assert (Mb : forall name w, In (name, w) assigned -> ~ In (m, o ++ [name]) (q :: open)
    /\ assigned_value (amounts_to 0) [] (m, o ++ [name]) w /\ forall d x, assigned_value (amounts_to d) [] (m, o ++ [name]) x -> w = x).
  { intros name w I. destruct (F15 name (in_map fst _ _ I)) as (e & A). pose proof (member_value py stubs made_classes made_modules new _ _ _ _ _ _ _ _ _ F10 F2 I A) as Va.
    split; [|split; [exact Va|]].
    - intros [X|X]; [unfold q in X; injection X as X; apply (f_equal (@length _)) in X; rewrite app_length in X; cbn in X; lia|].
      destruct NO' as (_ & NO'). apply (NO' _ X); [reflexivity|]. cbn [fst snd]. apply removelast_last.
    - intros d x. exact (assigned_one _ _ _ _ _ _ _ _ _ _ _ _ _ _ _ Va A (or_introl eq_refl)). }
  destruct (class_fields py stubs m o nodes _ ns assigned annotated fuel c F7 F8 F9 F10) as (annotations & md & E & B & W).
  { intros name w I. destruct (Mb _ _ I) as (M1 & M2 & _). destruct (dget (m, o ++ [name]) (aliases c)) as [x|] eqn:D; [right|now left].
    destruct (proj1 (proj2 (proj2 G0)) _ _ D) as [X|X]; [contradiction|]. now rewrite (X _ _ M2). }
  { exact F12. }
  assert (G0' : sound_at (own, q :: absent) kept (q :: open) (remember m o assigned c)).
  { apply remember_sound; [exact K'| |exact G0]. intros name w I. destruct (Mb _ _ I) as (M1 & _ & M3). auto. }
  clear G0. rename G0' into G0.
  assert (Ab'' : incl (q :: absent) (q :: open)) by (intros x [X|X]; [now left|right; auto]).
  assert (Ps : forall qs vs, Forall2 (stands_among depth own (q :: open)) qs vs -> forall c, sound_at (own, q :: absent) kept (q :: open) c ->
    exists c', evaluate_paths (evaluate_qualified_path py stubs (S fuel)) qs c = (c', Ok vs) /\ sound_at (own, q :: absent) kept (q :: open) c').
  { induction 1 as [|q' w qs vs S _ IH]; intros c0 G1; [exists c0; auto|]. cbn [evaluate_paths].
    destruct (H _ _ _ _ _ _ S K' Ab'' G1) as (c1 & E1 & G2). rewrite E1. cbn [ebind]. destruct (IH _ G2) as (c2 & E2 & G3). rewrite E2. cbn [ebind]. eauto. }
  destruct (Ps _ _ F13 (with_names [md] (remember m o assigned c)) (sound_names _ _ _ _ _ G0)) as (c1 & E1 & G1).
  set (c2 := bind_name (last o []) v (with_class q v (with_names (names (remember m o assigned c)) c1))).
  assert (G2 : sound_at (q :: own, absent) kept (q :: open) c2).
  { destruct G1 as ((l & l' & L1 & L2 & L3) & X & Y & Z & U). split; [|split; [exact X|split; [exact Y|split; [exact Z|]]]].
    - exists (l ++ [(q, v)]), l'. split; [|split; [|exact L3]].
      + intros q' v' I. apply in_app_iff in I as [I|I]; [apply in_app_iff in I as [I|[I|[]]]|].
        * apply L1, in_app_iff. now left.
        * injection I as <- <-. exact Made.
        * apply L1, in_app_iff. now right.
      + rewrite fold_left_app. cbn [fold_left fst snd]. subst c2. cbn [bind_name with_names with_class classes]. now f_equal.
    - destruct U as (U1 & U2 & m0 & U3 & U4 & U0 & U5 & U6 & U7 & U8). cbn [fst snd] in U1, U2, U8. unfold in_state. subst c2. cbn [bind_name with_names with_class classes Evaluation.annotations new_classes globals fst snd].
      assert (Qn : dget q (classes c1) = None) by (apply U2; now left).
      split; [|split; [|exists (m0 ++ [q]); split; [rewrite U3; now rewrite app_assoc|split; [|split; [|split; [|split; [|split]]]]]]].
      + intros q' I. rewrite dget_dset. destruct (eqb_reflect q' q) as [->|N]; [discriminate|]. destruct I as [I|I]; [congruence|]. exact (U1 _ I).
      + intros q' I. rewrite dget_dset. destruct (eqb_reflect q' q) as [->|N]; [destruct (NO (Ab _ I))|]. apply U2. now right.
      + apply NoDup_snoc; [exact U4|]. intros I. now destruct (U5 _ I) as (X' & _).
      + intros q' [<-|I]; apply in_app_iff; [right; now left|left; exact (U0 _ I)].
      + intros q' I. rewrite dget_dset. apply in_app_iff in I as [I|[<-|[]]].
        * destruct (U5 _ I) as (X1 & X2). split; [|exact X2]. destruct (eqb_reflect q' q); [let E := fresh in intros E; discriminate E|exact X1].
        * split; [|split; [exact Nw|exact NM]]. rewrite eqb_refl. let E := fresh in intros E; discriminate E.
      + intros q' I O. apply in_app_iff in I as [I|[<-|[]]]; [|destruct O; now left]. apply U6; [exact I|]. intros I'. apply O. now right.
      + intros q' I. apply U7. intros I'. apply I, in_app_iff. now left.
      + intros q' I O. apply in_app_iff in I as [I|[<-|[]]]; [|destruct O; now left].
        destruct (U8 q' I ltac:(intros Y'; apply O; now right)) as (q1 & v1 & Y1 & Y2 & Y3 & Y4 & Y5). exists q1, v1.
        assert (N1 : q1 <> q) by (intros ->; let E0 := fresh in pose proof (eq_trans (eq_sym Qn) Y5) as E0; discriminate E0).
        split; [apply in_app_iff; now left|]. split; [intros [Y'|Y']; [congruence|contradiction]|]. split; [exact Y3|]. split; [exact Y4|].
        rewrite dget_dset. destruct (eqb_reflect q1 q); [contradiction|exact Y5]. }
  set (right_value := fun (x : pystr * expr) (y : pystr * V) => fst x = fst y
    /\ means py (fun o' w => exists q' depth, resolve stubs m o o' = Ok q' /\ amounts_to depth [] q' w) (snd x) (snd y)).
  assert (As : forall l, (forall name a, In (name, a) l -> exists ss t, In name (dkeys (entries sc)) /\ dget (o ++ [name]) nodes = Some ss /\ In (SAnnAssign t a None) ss) ->
    forall c, sound_at (q :: own, absent) kept (q :: open) c ->
    exists c' values, evaluate_annotations py stubs (evaluate_qualified_path py stubs (S fuel)) m o l c = (c', Ok values) /\ sound_at (q :: own, absent) kept (q :: open) c' /\ Forall2 right_value l values).
  { induction l as [|[name a] l IH]; intros Wl c0 G3; [exists c0, []; split; [reflexivity|split; [exact G3|constructor]]|]. cbn [evaluate_annotations].
    destruct (Wl name a (or_introl eq_refl)) as (ss & t & X & Y & Z). destruct (AM _ _ _ _ _ _ _ F2 F5 F6 X Y Z) as (w & M).
    enough (Q : exists c', evaluate_expression py stubs (evaluate_qualified_path py stubs (S fuel)) m o a c0 = (c', Ok w)
                           /\ sound_at (q :: own, absent) kept (q :: open) c').
    { destruct Q as (c3 & E3 & G4). rewrite E3. cbn [ebind].
      destruct (IH (fun n b I => Wl n b (or_intror I)) _ G4) as (c4 & values & E4 & G5 & R5). rewrite E4. cbn [ebind].
      exists c4, ((name, w) :: values). split; [reflexivity|]. split; [exact G5|]. constructor; [|exact R5]. split; [reflexivity|]. cbn [fst snd].
      revert M. apply (means_more py). intros o' u (q' & R & S). destruct (among_loosely _ _ _ _ _ _ _ _ _ _ S) as (d & S'). exists q', d. split; [exact R|].
      revert S'. apply amounts_more; [apply le_n|apply incl_nil_l]. }
    refine (proj1 (expressions_sound (q :: own, absent) (S fuel) kept _ m o _ _) a w M c0 G3).
    intros o' u c3 (q' & R & S) G4. unfold evaluate_resolved. change (resolve stubs m o o' = Ok q') in R. rewrite R. now apply H. }
  destruct (As annotations W c2 G2) as (c3 & values & E3 & G3 & R3).
  assert (X : evaluate_object py stubs (evaluate_qualified_path py stubs (S fuel)) m o c = (with_global (path_to_string o) v (annotate q values c3), Ok v)).
  { unfold evaluate_object. fold q. replace (dget q (classes c)) with (@None V) by (symmetry; exact NC). unfold fetch. rewrite F2, F3. cbn [bind_res]. rewrite F4.
    cbn [bind_res is_CLASS]. unfold evaluate_class. unfold fetch. rewrite F5. cbn [bind_res]. rewrite F6. rewrite E. cbn [ebind fst snd]. unfold inside.
    rewrite E1. cbn [ebind fst snd]. rewrite B, F14. fold q c2. rewrite E3. reflexivity. }
  exists (with_global (path_to_string o) v (annotate q values c3)). split.
  { unfold q. cbn [evaluate_qualified_path fst snd]. fold q. destruct (import_object py q) as [| |u] eqn:I; [|exact X|now apply NI in I].
    destruct o; [contradiction|]. exact X. }
  destruct G3 as ((l & l' & L1 & L2 & L3) & G4 & G5 & G6 & G7).
  assert (Z : forall A (f : memory V -> A), (forall c an, f (mk_memory (aliases c) (classes c) (modules c) (names c) (globals c) (attributes c) an (new_classes c)) = f c) -> f (annotate q values c3) = f c3).
  { intros A f F. unfold annotate. destruct (is_nil values); [reflexivity|apply F]. }
  split; [|split; [|split; [|split]]]; cbn [with_global classes globals modules attributes aliases].
  - exists l, (l' ++ [(q, v)]). split; [|split].
    + intros q' v' I. rewrite app_assoc in I. apply in_app_iff in I as [I|[I|[]]]; [auto|]. injection I as <- <-. exact Made.
    + rewrite (Z _ (@classes V)) by reflexivity. exact L2.
    + rewrite fold_left_app. cbn [fold_left fst snd]. rewrite (Z _ (@globals V)) by reflexivity. now f_equal.
  - rewrite (Z _ (@modules V)), (Z _ (@attributes V)) by reflexivity. exact G4.
  - rewrite (Z _ (@aliases V)) by reflexivity. intros q' w D. destruct (G5 _ _ D) as [[<-|I]|I]; [right|now left|now right].
    intros d x (ts & e & A & _). destruct (class_no_alias _ _ _ _ _ _ _ CV0 A).
  - rewrite (Z _ (@aliases V)) by reflexivity. exact G6.
  - assert (Cv : dget q (classes c3) = Some v).
    { destruct (dget q (classes c3)) as [w|] eqn:C; [|exfalso; exact (proj1 G7 q (or_introl eq_refl) C)]. f_equal.
      assert (Gr : grown py stubs made_classes made_modules new (classes c3) globals_ (globals c3)) by (exists l, l'; auto).
      destruct (grown_new _ _ _ _ Gr NM C) as (d & F). destruct Made as (_ & (d' & F') & _ & _).
      assert (A1 : amounts_to (S d) [] q w) by (right; right; right; auto 6).
      assert (A2 : amounts_to (S d') [] q v) by (right; right; right; auto 6).
      exact (amounts_one _ _ _ _ _ _ _ _ _ _ _ _ A1 A2). }
    destruct G7 as (U1 & U2 & m0 & U3 & U4 & U0 & U5 & U6 & U7 & U8). unfold in_state. cbn [with_global classes new_classes globals Evaluation.annotations fst snd].
    rewrite (Z _ (@classes V)), (Z _ (@new_classes V)), (Z _ (@globals V)) by reflexivity. cbn [fst snd] in U1, U2, U6, U8.
    assert (Nq : In q m0) by (apply U0; now left).
    assert (Oq : forall q', q' <> q -> dget q' (Evaluation.annotations (annotate q values c3)) = dget q' (Evaluation.annotations c3)).
    { intros q' N. unfold annotate. destruct (is_nil values); [reflexivity|]. cbn [Evaluation.annotations]. rewrite dget_dset. now destruct (eqb_reflect q' q). }
    split; [intros q' I; apply U1; now right|]. split; [exact U2|]. exists m0. split; [exact U3|]. split; [exact U4|]. split; [intros q' I; apply U0; now right|]. split; [exact U5|]. split; [|split].
    + intros q' I O. destruct (eqb_reflect q' q) as [->|N].
      * intros nodes' definitions' sc' X1 X2 X3. unfold q in X1, X2, X3. cbn [fst snd] in X1, X2, X3.
        assert (nodes' = nodes) as -> by congruence. assert (definitions' = definitions) as -> by congruence. assert (sc' = sc) as -> by congruence.
        exists annotations, values. split; [exact (fields_annotations _ _ _ _ _ _ _ _ _ _ _ _ _ E)|]. split; [exact R3|]. intros Ne. unfold annotate.
        destruct values as [|y ys]; [inversion R3; subst; contradiction|]. cbn [is_nil Evaluation.annotations]. rewrite dget_dset, eqb_refl. reflexivity.
      * intros nodes' definitions' sc' X1 X2 X3. 
        destruct (U6 q' I ltac:(intros [Y|Y]; [congruence|exact (O Y)]) _ _ _ X1 X2 X3) as (st & vs & Y1 & Y2 & Y3). exists st, vs.
        split; [exact Y1|]. split; [exact Y2|]. intros Ne. transitivity (dget q' (Evaluation.annotations c3)); [exact (Oq _ N)|exact (Y3 Ne)].
    + intros q' I. rewrite Oq; [now apply U7|]. intros ->. contradiction.
    + intros q' I O. change (path_to_string o) with (path_to_string (snd q)).
      destruct (eqb_reflect (path_to_string (snd q')) (path_to_string (snd q))) as [Es|Es].
      * exists q, v. split; [exact Nq|]. split; [exact Uq|]. split; [now symmetry|]. rewrite Es, dget_dset, eqb_refl. auto.
      * destruct (U8 q' I ltac:(intros [Y|Y]; [subst q'; now apply Es|exact (O Y)])) as (q1 & v1 & Y1 & Y2 & Y3 & Y4 & Y5). exists q1, v1.
        split; [exact Y1|]. split; [intros Y; apply Y2; now right|]. split; [exact Y3|]. split; [|exact Y5].
        rewrite dget_dset. destruct (eqb_reflect (path_to_string (snd q')) (path_to_string (snd q))); [contradiction|exact Y4].
Qed.

Lemma path_sound : forall depth own absent kept open fuel q v c, stands_among depth own open q v -> keys_in kept open -> incl absent open -> sound_at (own, absent) kept open c -> depth < fuel ->
  exists c', evaluate_qualified_path py stubs fuel q c = (c', Ok v) /\ sound_at (own, absent) kept open c'.
Proof.
  induction depth as [|depth IH]; intros own absent kept open [|fuel] [qm qo] v c S K Ab G L; try lia; pose proof S as S0; cbn [SpecAliases.stands_among fst snd] in S;
    cbn [evaluate_qualified_path fst snd];
    (destruct S as [S|[(S1 & S2 & S3)|[(S1 & S2 & S3)|S]]]; [rewrite S; eauto| | |]).
  1, 4: assert (X : evaluate_object py stubs (evaluate_qualified_path py stubs fuel) qm qo c = (c, Ok v))
      by (unfold evaluate_object; replace (dget (qm, qo) (classes c)) with (Some v) by (symmetry; exact (grown_made _ _ _ _ (proj1 G) S3)); reflexivity);
    (destruct (import_object py (qm, qo)) as [| |w] eqn:I; [|eauto|now apply S1 in I]);
    (destruct qo; [contradiction|]); cbn [is_nil]; eauto.
  1, 3: rewrite S1; subst qo; cbn [is_nil]; unfold evaluate_module; replace (dget qm (modules c)) with (Some v) by (symmetry; rewrite (proj1 (proj1 (proj2 G))); exact S3); eauto.
  1: contradiction.
  destruct S as (S1 & S2 & S3 & [(S4 & S5)|S4]).
  { destruct (dget (qm, qo) (classes c)) as [w|] eqn:C.
    - destruct (grown_new _ _ _ _ (proj1 G) S3 C) as (d & F). destruct (among_loosely _ _ _ _ _ _ _ _ _ _ S0) as (d' & S').
      assert (w = v).
      { assert (F' : amounts_to (S d) [] (qm, qo) w) by (right; right; right; auto 6). exact (amounts_one _ _ _ _ _ _ _ _ _ _ _ _ F' S'). }
      subst w. exists c. split; [|exact G].
      assert (X : evaluate_object py stubs (evaluate_qualified_path py stubs fuel) qm qo c = (c, Ok v))
        by (unfold evaluate_object; replace (dget (qm, qo) (classes c)) with (Some v) by (symmetry; exact C); reflexivity).
      destruct (import_object py (qm, qo)) as [| |u] eqn:I; [|exact X|now apply S1 in I]. destruct qo; [contradiction|]. exact X.
    - destruct S5 as [(S5 & _)|(S5 & S6 & S7)]; [destruct (proj1 (proj2 (proj2 (proj2 (proj2 G)))) _ S5 C)|].
      destruct fuel as [|fuel]; [lia|]. apply class_sound with (depth := depth); auto.
      intros own' absent' kept' q' v' c' X Y Z U. apply IH with (open := (qm, qo) :: open); auto. lia. }
  pose proof S4 as S7. destruct S7 as (ts & e & S5 & S6 & S7).
  assert (X : exists c', evaluate_object py stubs (evaluate_qualified_path py stubs fuel) qm qo c = (c', Ok v) /\ sound_at (own, absent) kept open c').
  { destruct (assigned_loosely _ _ _ _ _ _ _ _ _ (fun o b x => among_loosely _ _ _ _ _ _ _ _ _ _) S4) as (d & Z0).
    assert (Z : assigned_value (amounts_to d) [] (qm, qo) v).
    { revert Z0. apply assigned_more; [|apply incl_nil_l]. intros o q w _ o' I. apply amounts_more; [apply le_n|exact I]. }
    assert (Zs : forall t, In t ts -> forall depth' w, assigned_value (amounts_to depth') [] t w -> v = w).
    { intros t T depth' w. exact (assigned_one _ _ _ _ _ _ _ _ _ _ _ _ _ _ _ Z S5 T). }
    assert (Zt : forall t, In t ts -> assigned_value (amounts_to d) [] t v).
    { intros t T. destruct Z as (ts1 & e1 & Z1 & _ & Z2). destruct (alias_one _ _ _ _ _ _ Z1 S5) as [-> ->]. exists ts, e.
      destruct (alias_target _ _ _ _ _ _ _ S5 T (alias_others _ _ _ _ _ S5 T)) as (_ & _ & T1 & T2).
      split; [exact (alias_others _ _ _ _ _ S5 T)|]. split; [now intros|]. rewrite T1, T2. exact Z2. }
    assert (C0 : dget (qm, qo) (classes c) = None).
    { destruct (dget (qm, qo) (classes c)) as [w|] eqn:C; [|reflexivity]. exfalso. destruct (grown_new _ _ _ _ (proj1 G) S3 C) as (d0 & F).
      exact (class_no_alias _ _ _ _ _ _ _ F S5). }
    pose proof S5 as S5'. destruct S5 as (ns & s & nodes & kinds & A1 & A4 & A2 & A3 & A7 & A8 & A9). cbn [fst snd] in *.
    destruct (A2 _ A7) as (_ & _ & A2' & k & A5 & A6). cbn [snd] in A2', A5.
    unfold evaluate_object. replace (dget (qm, qo) (classes c)) with (@None V) by (symmetry; exact C0).
    unfold fetch. rewrite A1, A4. cbn [bind_res]. rewrite A5. cbn [bind_res].
    replace (is_CLASS k) with false by (destruct k; try reflexivity; contradiction). rewrite A2'. cbn [evaluate_nodes].
    replace (evaluate_statement py stubs (evaluate_qualified_path py stubs fuel) qm (removelast qo) s c)
      with (evaluate_assignment py stubs (evaluate_qualified_path py stubs fuel) qm (removelast qo) s (Some e) c)
      by (destruct A3; reflexivity).
    assert (Y : exists c', evaluate_assignment py stubs (evaluate_qualified_path py stubs fuel) qm (removelast qo) s (Some e) c = (c', Ok v)
                           /\ sound_at (own, absent) kept open c').
    { unfold evaluate_assignment. rewrite (targets_found _ _ _ _ _ _ A3 A9).
      destruct (search_sound (own, absent) v kept ts open c K S6 G A8) as (c1 & G1 & [(E & F)|E]); rewrite ?E.
      - intros t w T D. destruct G as (_ & _ & G & _). destruct (G _ _ D) as [X|X]; [now apply S6 in X|]. exact (X _ _ (Zt t T)).
      - assert (M : exists c', evaluate_expression py stubs (evaluate_qualified_path py stubs fuel) qm (removelast qo) e c1 = (c', Ok v)
                             /\ sound_at (own, absent) kept (ts ++ open) c').
        { assert (K' : keys_in kept (ts ++ open)) by (revert K; apply keys_more, incl_appr, incl_refl).
          assert (Ab' : incl absent (ts ++ open)) by (intros x X; apply in_app_iff; right; auto).
          destruct ts as [|t [|t' ts]]; [destruct A7| |].
          - assert (t = (qm, qo)) by (destruct A7 as [A7|[]]; exact A7). subst t. pose proof (F _ eq_refl) as F'.
            set (w := forward_ref py (path_to_string (snd (qm, qo)))) in *.
            enough (M : exists c', evaluate_expression py stubs (evaluate_qualified_path py stubs fuel) qm (removelast qo) e c1 = (c', Ok v)
                                   /\ sound_at (own, absent) (((qm, qo), w) :: kept) ([(qm, qo)] ++ open) c').
            { destruct M as (c' & E' & G'). exists c'. split; [exact E'|]. exact (sound_drop _ _ _ _ _ G'). }
            refine (proj1 (expressions_sound (own, absent) fuel _ _ qm (removelast qo) _ _) e v S7 c1 (sound_keep _ _ _ _ _ _ G1 F')).
            intros o u c2 (q' & R & H) G2. unfold evaluate_resolved. rewrite R. destruct H as [H|H].
            + pose proof H as (E0 & _ & _ & _ & E1). injection E0 as <-. apply (placeholder_sound _ _ _ _ _ _ _ _ _ S5' H); [left; now rewrite E1|exact G2|lia].
            + apply IH; [exact H| |exact Ab'|exact G2|lia]. intros x y [X|X]; [injection X as <- <-; now left|eauto].
          - refine (proj1 (expressions_sound (own, absent) fuel kept _ qm (removelast qo) _ _) e v S7 c1 G1).
            intros o u c2 (q' & R & H) G2. unfold evaluate_resolved. rewrite R. destruct H as [(H & _)|H]; [discriminate|].
            eapply IH; [exact H|exact K'|exact Ab'|exact G2|lia]. }
        destruct M as (c' & E' & G'). rewrite E'. cbn [ebind]. eexists. split; [reflexivity|]. now apply store_sound.
      - eexists. split; [reflexivity|]. now apply store_sound. }
    destruct Y as (c' & E & G'). rewrite E. cbn [ebind]. eexists. split; [reflexivity|]. exact G'. }
  destruct X as (c' & X & G'). destruct (import_object py (qm, qo)) as [| |w] eqn:I; [|eauto|now apply S1 in I].
  destruct qo; [contradiction|]. cbn [is_nil]. eauto.
Qed.

(** From what is remembered on *)
Lemma sound_start open c : classes c = made_classes -> modules c = made_modules -> globals c = globals_ -> attributes c = attributes_ -> (new_classes c, annotations c) = made ->
  remembers_right py stubs made_classes made_modules new open (aliases c) -> sound open c.
Proof.
  intros A B C D0 N0 R. split; [exists [], []; split; [intros ? ? []|split; [exact A|exact C]]|]. split; [split; [exact B|exact D0]|]. split; [|split; [intros ? ? []|split; [intros ? []|split; [intros ? []|exists []; rewrite app_nil_r, <- N0; split; [reflexivity|split; [constructor|split; [intros ? []|split; [intros ? []|split; [intros ? []|split; [reflexivity|intros ? []]]]]]]]]]]. intros q w D. destruct (in_dec_path q open) as [I|I]; [now left|right].
  intros d v S. exact (R _ _ _ _ D I S).
Qed.
Lemma sound_end open c : sound open c -> remembers_right py stubs made_classes made_modules new open (aliases c).
Proof. intros (_ & _ & X & _) q w d v D N S. destruct (X _ _ D) as [I|I]; [contradiction|]. exact (I _ _ S). Qed.
End Evaluate.

Section Whole.
Context {V : Type}.
Variable py : python V.
Variable stubs : tables.
Variable new : list qualified_path.
Lemma paths_evaluated fuel depth open q v c : stands_for py stubs (classes c) (modules c) new depth open q v -> depth < fuel ->
  remembers_right py stubs (classes c) (modules c) new open (aliases c) ->
  exists c', evaluate_qualified_path py stubs fuel q c = (c', Ok v)
    /\ grown py stubs (classes c) (modules c) new (classes c') (globals c) (globals c') /\ modules c' = modules c /\ attributes c' = attributes c
    /\ remembers_right py stubs (classes c) (modules c) new open (aliases c').
Proof.
  intros S L R. destruct (path_sound py stubs (classes c) (modules c) (globals c) (attributes c) new (new_classes c, annotations c) depth [] [] [] open fuel q v c S) as (c' & E & G); [intros ? ? []|intros ? []| |exact L|].
  - now apply sound_start.
  - exists c'. pose proof (sound_end _ _ _ _ _ _ _ _ _ _ G). destruct G as (A & (B & C) & _). auto.
Qed.
Lemma expressions_evaluated fuel depth open m parent e v c : means py (named py stubs (classes c) (modules c) new depth open m parent) e v ->
  depth < fuel -> remembers_right py stubs (classes c) (modules c) new open (aliases c) ->
  exists c', evaluate_expression_node py stubs fuel m parent e c = (c', Ok v)
    /\ grown py stubs (classes c) (modules c) new (classes c') (globals c) (globals c') /\ modules c' = modules c /\ attributes c' = attributes c
    /\ remembers_right py stubs (classes c) (modules c) new open (aliases c').
Proof.
  intros S L R.
  destruct (expression_sound py stubs (classes c) (modules c) (globals c) (attributes c) new (new_classes c, annotations c) ([], []) fuel depth [] open m parent
    ltac:(intros q' v' c' Hs Hg; eapply path_sound; eauto; [intros ? ? []|intros ? []]) e v S c) as (c' & E & G).
  - now apply sound_start.
  - exists c'. pose proof (sound_end _ _ _ _ _ _ _ _ _ _ G). destruct G as (A & (B & C) & _). auto.
Qed.
(** Of several assignments to a name, the first counts. *)
Lemma first_counts fuel depth q v c n e s rest nodes kinds k :
  not_imported py q -> snd q <> [] -> dget q (classes c) = None -> dget q (aliases c) = None ->
  dget (fst q) (stub_nodes stubs) = Some nodes -> dget (snd q) nodes = Some (s :: rest) ->
  dget (fst q) (stub_kinds stubs) = Some kinds -> dget (snd q) kinds = Some k -> k <> CLASS ->
  resolve stubs (fst q) (removelast (snd q)) [n] = Ok q ->
  assigned_to [n] e s -> (forall s', In s' rest -> exists e', assigned_to [n] e' s') ->
  means py (named py stubs (classes c) (modules c) new depth [q] (fst q) (removelast (snd q))) e v -> depth < fuel ->
  remembers_right py stubs (classes c) (modules c) new [] (aliases c) ->
  exists c', evaluate_qualified_path py stubs (S fuel) q c = (c', Ok v).
Proof.
  destruct q as [qm qo]. intros I Q C D N1 N2 K1 K2 K R A As M L G. cbn [fst snd] in *. set (q := (qm, qo)) in *.
  assert (T : forall s' e', assigned_to [n] e' s' -> targets_paths stubs qm (removelast qo) s' = Ok [q]).
  { intros s' e' A'. apply (targets_found _ _ _ _ _ _ _ A'). cbn [map]. now rewrite R. }
  assert (X : exists c', evaluate_object py stubs (evaluate_qualified_path py stubs fuel) qm qo c = (c', Ok v)).
  { unfold evaluate_object. fold q. replace (dget q (classes c)) with (@None V) by (symmetry; exact C). unfold fetch. rewrite N1, K1. cbn [bind_res]. rewrite K2. cbn [bind_res].
    replace (is_CLASS k) with false by (destruct k; try reflexivity; contradiction). rewrite N2. cbn [evaluate_nodes].
    replace (evaluate_statement py stubs (evaluate_qualified_path py stubs fuel) qm (removelast qo) s c)
      with (evaluate_assignment py stubs (evaluate_qualified_path py stubs fuel) qm (removelast qo) s (Some e) c)
      by (inversion A; reflexivity).
    unfold evaluate_assignment at 1. rewrite (T _ _ A). cbn [search_cache].
    replace (dget q (aliases c)) with (@None V) by (symmetry; exact D).
    destruct (expressions_evaluated fuel depth [q] qm (removelast qo) e v (with_alias q (forward_ref py (path_to_string qo)) c))
      as (c1 & E & _); [exact M|exact L| |].
    - intros q' w d x D' N. cbn [with_alias aliases] in D'. rewrite dget_dset in D'. destruct (eqb_reflect q' q) as [->|Y].
      + exfalso. apply N. now left.
      + apply (G _ _ _ _ D'). intros [].
    - unfold evaluate_expression_node in E. change (snd q) with qo. rewrite E. cbn [ebind store fold_left]. clear E.
      assert (D1 : dget q (aliases (bind_name (last qo []) v (with_alias q v c1))) = Some v).
      { cbn [bind_name with_alias with_names aliases]. rewrite dget_dset. destruct (eqb_reflect q q); congruence. }
      revert D1. generalize (bind_name (last qo []) v (with_alias q v c1)). clear -As T.
      induction rest as [|s' rest IH]; intros c D; [exists c; reflexivity|]. cbn [evaluate_nodes].
      destruct (As s' (or_introl eq_refl)) as (e' & A').
      replace (evaluate_statement py stubs (evaluate_qualified_path py stubs fuel) qm (removelast qo) s' c)
        with (evaluate_assignment py stubs (evaluate_qualified_path py stubs fuel) qm (removelast qo) s' (Some e') c)
        by (inversion A'; reflexivity).
      unfold evaluate_assignment at 1. rewrite (T _ _ A'). cbn [search_cache].
      replace (dget q (aliases c)) with (Some v) by (symmetry; exact D). cbn [ebind store fold_left].
      apply IH; [intros x Y; apply As; now right|]. cbn [bind_name with_alias with_names aliases]. rewrite dget_dset.
      destruct (eqb_reflect q q); congruence. }
  destruct X as (c' & X). exists c'. cbn [evaluate_qualified_path]. destruct (import_object py q) as [| |w] eqn:Y; [|exact X|now apply I in Y].
  destruct qo; [contradiction|]. exact X.
Qed.
End Whole.

(** Two tables that answer every lookup alike *)
Section Same.
Context {V : Type}.
Variable py : python V.
Variables (stubs stubs' : tables).
Definition same_answers {A} (d d' : dict path (dict path A)) : Prop :=
  forall m o, match dget m d with Some t => dget o t | None => None end = match dget m d' with Some t => dget o t | None => None end.
Hypothesis same_resolve : forall m p o, resolve stubs m p o = resolve stubs' m p o.
Hypothesis same_nodes : same_answers (stub_nodes stubs) (stub_nodes stubs').
Hypothesis same_kinds : same_answers (stub_kinds stubs) (stub_kinds stubs').
Lemma alias_same q ts e : alias_for stubs q ts e -> alias_for stubs' q ts e.
Proof.
  intros (n & s & ns & ks & A1 & A2 & A3 & A4 & A5 & A6 & A7). pose proof (same_nodes (fst q)) as X. pose proof (same_kinds (fst q)) as Y.
  rewrite A1 in X. rewrite A2 in Y. destruct (A3 _ A5) as (_ & _ & Q1 & k & Q2 & _). pose proof (X (snd q)) as X'. rewrite Q1 in X'.
  pose proof (Y (snd q)) as Y'. rewrite Q2 in Y'.
  destruct (dget (fst q) (stub_nodes stubs')) as [ns'|] eqn:B1; [|discriminate].
  destruct (dget (fst q) (stub_kinds stubs')) as [ks'|] eqn:B2; [|discriminate].
  exists n, s, ns', ks'. split; [exact B1|]. split; [exact B2|]. split.
  - intros t T. destruct (A3 _ T) as (T1 & T2 & T3 & k' & T4 & T5). rewrite X in T3. rewrite Y in T4. eauto 10.
  - repeat (split; [assumption|]). rewrite <- A7. apply map_ext. intros a. symmetry. apply same_resolve.
Qed.
Lemma amounts_same made_classes made_modules : forall depth open q v, amounts_to py stubs made_classes made_modules [] depth open q v ->
  amounts_to py stubs' made_classes made_modules [] depth open q v.
Proof.
  induction depth as [|depth IH]; intros open q v; cbn [amounts_to]; (intros [A|[A|[A|A]]]; [auto|auto|auto|]); [contradiction|].
  right. right. right. destruct A as (A1 & A2 & A3 & [([] & _)|(ts & e & A4 & A5 & A6)]). repeat (split; [assumption|]). right. exists ts, e. split; [now apply alias_same|].
  split; [exact A5|]. revert A6. apply (means_more py). intros o w (q' & R & [S|S]); exists q'; rewrite <- same_resolve; auto.
Qed.
Lemma stands_for_same made_classes made_modules : forall depth open q v, stands_for py stubs made_classes made_modules [] depth open q v ->
  stands_for py stubs' made_classes made_modules [] depth open q v.
Proof.
  unfold stands_for. induction depth as [|depth IH]; intros open q v; cbn [stands_among]; (intros [A|[A|[A|A]]]; [auto|auto|auto|]); [contradiction|].
  right. right. right. destruct A as (A1 & A2 & A3 & [([] & _)|(ts & e & A4 & A5 & A6)]). repeat (split; [assumption|]). right. exists ts, e. split; [now apply alias_same|].
  split; [exact A5|]. revert A6. apply (means_more py). intros o w (q' & R & [S|S]); exists q'; rewrite <- same_resolve; auto.
Qed.
Lemma assigned_same made_classes made_modules depth open q v : assigned_value py stubs made_classes (amounts_to py stubs made_classes made_modules [] depth) open q v ->
  assigned_value py stubs' made_classes (amounts_to py stubs' made_classes made_modules [] depth) open q v.
Proof.
  intros (ts & e & A4 & A5 & A6). exists ts, e. split; [now apply alias_same|]. split; [exact A5|].
  revert A6. apply (means_more py). intros o w (q' & R & [S|S]); exists q'; rewrite <- same_resolve; (split; [exact R|]); [now left|right; now apply amounts_same].
Qed.
End Same.
