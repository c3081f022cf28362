(** Proofs about classes that stay what they are, whatever is evaluated. *)
From Verif Require Import Base Ast Conversion Catalog Scoping Signatures Stubs Evaluation SpecEvaluation EvaluationProofs SpecForgetting.

Section Proofs.
Context {V : Type} (py : python V) (stubs : tables).
Notation memory := (memory V).
Notation evaluated := (evaluated V).

Definition class_of_stubs (q : qualified_path) : Prop :=
  exists kinds, dget (fst q) (stub_kinds stubs) = Some kinds /\ dget (snd q) kinds = Some CLASS.
(** Classes that are remembered stay what they are, with the annotations they have, and are not made
    again; global names stay what
    they are but for those of classes that are made. *)
Definition lasts (c c' : memory) : Prop :=
  exists l, new_classes c' = new_classes c ++ l /\ Forall class_of_stubs l
    /\ (forall q v, dget q (classes c) = Some v -> dget q (classes c') = Some v /\ ~ In q l /\ dget q (annotations c') = dget q (annotations c))
    /\ (forall name, (forall q, In q l -> path_to_string (snd q) <> name) -> dget name (globals c') = dget name (globals c)).
Definition quiet (c c' : memory) : Prop := classes c' = classes c /\ globals c' = globals c /\ new_classes c' = new_classes c /\ annotations c' = annotations c.
Lemma lasts_quiet c c' : quiet c c' -> lasts c c'.
Proof. intros (A & B & C & E). exists []. rewrite A, B, C, E, app_nil_r. split; [reflexivity|]. split; [constructor|]. split; [intros q v D; split; [exact D|split; [intros []|reflexivity]]|reflexivity]. Qed.
Lemma lasts_refl c : lasts c c.
Proof. apply lasts_quiet. repeat split. Qed.
Lemma lasts_trans a b c : lasts a b -> lasts b c -> lasts a c.
Proof.
  intros (l & A1 & A0 & A2 & A3) (k & B1 & B0 & B2 & B3). exists (l ++ k). split; [rewrite B1, A1; now rewrite app_assoc|].
  split; [apply Forall_app; now split|]. split.
  - intros q v D. destruct (A2 q v D) as (D1 & N1 & M1). destruct (B2 q v D1) as (D2 & N2 & M2). split; [exact D2|].
    split; [rewrite in_app_iff; tauto|exact (eq_trans M2 M1)].
  - intros name N. rewrite B3, A3; [reflexivity| |]; intros q I; apply N, in_app_iff; tauto.
Qed.
Lemma quiet_store ts v c : quiet c (store ts v c).
Proof.
  unfold store. revert c. induction ts as [|t r IH]; intros c; [repeat split|]. cbn [fold_left]. destruct (IH (with_alias t v c)) as (A & B & C & E).
  split; [exact A|]. split; [exact B|]. split; [exact C|exact E].
Qed.
Lemma quiet_search ts c : quiet c (fst (search_cache py ts c)).
Proof.
  revert c. induction ts as [|t r IH]; intros c; [repeat split|]. cbn.
  destruct (dget t (aliases c)); [repeat split|]. destruct (IH (with_alias t (forward_ref py (path_to_string (snd t))) c)) as (A & B & C & E).
  split; [exact A|]. split; [exact B|]. split; [exact C|exact E].
Qed.

Definition steady {A} (f : memory -> evaluated A) : Prop := forall c, lasts c (fst (f c)).
Lemma steady_ret {A} (x : res A) : steady (fun c => (c, x)).
Proof. intros c. apply lasts_refl. Qed.
Lemma steady_bind {A B} (f : memory -> evaluated A) (F : memory -> A -> evaluated B) :
  steady f -> (forall a, steady (fun c => F c a)) -> steady (fun c => ebind (f c) F).
Proof.
  intros H K c. specialize (H c). destruct (f c) as [c1 [a|e]]; cbn in *; [|exact H]. eapply lasts_trans; [exact H|apply (K a)].
Qed.
Lemma steady_inside {A} ns (f : memory -> evaluated A) : steady f -> steady (inside ns f).
Proof.
  intros H c. unfold inside. specialize (H (with_names ns c)). destruct (f (with_names ns c)) as [c1 [a|e]]; exact H.
Qed.
Lemma steady_then {A B} (f : memory -> evaluated A) (h : A -> memory -> memory) (F : A -> memory -> evaluated B) :
  steady f -> (forall a c, quiet c (h a c)) -> (forall a, steady (F a)) -> steady (fun c => ebind (f c) (fun c a => F a (h a c))).
Proof.
  intros H Q K. apply steady_bind; [exact H|]. intros a c. eapply lasts_trans; [apply lasts_quiet, (Q a c)|apply K].
Qed.

Section Steps.
Variable p : qualified_path -> memory -> evaluated V.
Hypothesis Hp : forall q, steady (p q).
Lemma steady_resolved m parent o : steady (evaluate_resolved stubs p m parent o).
Proof. unfold evaluate_resolved. destruct (resolve stubs m parent o); [apply Hp|apply steady_ret]. Qed.
Lemma steady_list f es : (forall e, In e es -> steady (f e)) -> steady (evaluate_list (V := V) f es).
Proof.
  induction es as [|e r IH]; intros H; cbn [evaluate_list]; [apply steady_ret|].
  apply steady_bind; [apply H; now left|]. intros v. apply steady_bind; [apply IH; intros; apply H; now right|]. intros vs. apply steady_ret.
Qed.
Lemma steady_keywords f ks : (forall k, In k ks -> steady (f (snd k))) -> steady (evaluate_keywords (V := V) f ks).
Proof.
  induction ks as [|[k e] r IH]; intros H; cbn [evaluate_keywords]; [apply steady_ret|].
  apply steady_bind; [apply (H (k, e)); now left|]. intros v. apply steady_bind; [apply IH; intros; apply H; now right|]. intros vs. apply steady_ret.
Qed.
Lemma steady_items f items : (forall i, In i items -> (forall k, fst i = Some k -> steady (f k)) /\ steady (f (snd i))) -> steady (evaluate_items (V := V) f items).
Proof.
  induction items as [|[[k|] e] r IH]; intros H; cbn [evaluate_items]; try apply steady_ret.
  destruct (H (Some k, e) (or_introl eq_refl)) as [Hk He]. apply steady_bind; [now apply Hk|]. intros w.
  apply steady_bind; [exact He|]. intros v. apply steady_bind; [apply IH; intros; apply H; now right|]. intros vs. apply steady_ret.
Qed.
Lemma steady_expression m parent e : steady (evaluate_expression py stubs p m parent e).
Proof.
  induction e as [id|v a IH|v s IHv IHs|es IH|es IH|items IH|f es ks IHf IHes IHks|l o r IHl IHr|o e IH|k|es IH] using expr_ind';
    cbn [evaluate_expression].
  - apply steady_resolved.
  - apply steady_bind; [exact IH|]. intros x. destruct (getattr py x a) as [y|[]]; try apply steady_ret.
    destruct (to_path (Attribute v a)); [apply steady_resolved|apply steady_ret].
  - apply steady_bind; [exact IHv|]. intros x. apply steady_bind; [exact IHs|]. intros y.
    destruct (getitem py x y) as [z|[]]; apply steady_ret.
  - rewrite Forall_forall in IH. apply steady_bind; [now apply steady_list|]. intros vs. apply steady_ret.
  - rewrite Forall_forall in IH. apply steady_bind; [now apply steady_list|]. intros vs. apply steady_ret.
  - destruct (forallb _ items); [|apply steady_ret]. rewrite Forall_forall in IH. apply steady_bind; [now apply steady_items|]. intros vs. apply steady_ret.
  - rewrite Forall_forall in IHes, IHks. apply steady_bind; [now apply steady_list|]. intros vs.
    apply steady_bind; [now apply steady_keywords|]. intros kvs. apply steady_bind; [exact IHf|]. intros x. apply steady_ret.
  - apply steady_bind; [exact IHl|]. intros x. apply steady_bind; [exact IHr|]. intros y.
    destruct (apply_binary py o x y) as [z|[]]; try apply steady_ret. destruct o; apply steady_ret.
  - destruct o; [| |apply steady_ret]; (apply steady_bind; [exact IH|]; intros x; apply steady_ret).
  - apply steady_ret.
  - apply steady_ret.
Qed.
Lemma steady_assignment m parent s value : steady (evaluate_assignment py stubs p m parent s value).
Proof.
  intros c. unfold evaluate_assignment. destruct (targets_paths stubs m parent s) as [ts|e]; [|apply lasts_refl].
  pose proof (lasts_quiet _ _ (quiet_search ts c)) as H. destruct (search_cache py ts c) as [c1 [v|]]; cbn in H |- *.
  - eapply lasts_trans; [exact H|apply lasts_quiet, quiet_store].
  - eapply lasts_trans; [exact H|]. clear H.
    apply (steady_bind (fun c => match value with Some e => evaluate_expression py stubs p m parent e c | None => (c, Err TypeError) end)).
    + destruct value; [apply steady_expression|apply steady_ret].
    + intros v c2. apply lasts_quiet, quiet_store.
Qed.
Lemma steady_statement m parent s : steady (evaluate_statement py stubs p m parent s).
Proof.
  unfold evaluate_statement. destruct s; try apply steady_ret; try apply steady_assignment;
    intros c; match goal with |- context [execute py ?a ?b ?d] => destruct (execute py a b d) end; apply lasts_quiet; repeat split.
Qed.
Lemma steady_nodes m parent name ns last : steady (evaluate_nodes py stubs p m parent name ns last).
Proof.
  revert last. induction ns as [|s r IH]; intros last; cbn [evaluate_nodes]; [apply steady_ret|].
  apply (steady_then _ (fun v c => bind_name name v c) (fun v => evaluate_nodes py stubs p m parent name r (Ok v)));
    [apply steady_statement|repeat split|]. intros v. apply IH.
Qed.
Lemma steady_dependencies m o names : forall md, steady (evaluate_dependencies stubs p m o names md).
Proof.
  induction names as [|x r IH]; intros md; cbn [evaluate_dependencies]; [apply steady_ret|].
  destruct (resolve stubs m o [x]) as [q|e]; [|apply steady_ret]. destruct (fst q == builtins_path); [apply IH|].
  apply steady_bind; [apply steady_inside, Hp|]. intros y. apply IH.
Qed.
Lemma steady_definitions m o ds : forall last cls md, steady (evaluate_definitions py stubs p m o ds last cls md).
Proof.
  induction ds as [|s r IH]; intros last cls md; cbn [evaluate_definitions]; [apply steady_ret|].
  apply steady_bind; [apply steady_dependencies|]. intros md'. apply steady_bind; [apply steady_inside, steady_statement|]. intros v. apply IH.
Qed.
Lemma steady_fields m o module_nodes names : forall cls md, steady (evaluate_fields py stubs p m o module_nodes names cls md).
Proof.
  induction names as [|x r IH]; intros cls md; cbn [evaluate_fields]; [apply steady_ret|].
  destruct (fetch (o ++ [x]) module_nodes) as [ns|e]; [|apply steady_ret].
  apply steady_bind; [apply steady_definitions|]. intros v. apply steady_bind; [apply IH|]. intros rest. apply steady_ret.
Qed.
Lemma steady_paths qs : steady (evaluate_paths p qs).
Proof.
  induction qs as [|q r IH]; cbn [evaluate_paths]; [apply steady_ret|].
  apply steady_bind; [apply Hp|]. intros v. apply steady_bind; [exact IH|]. intros vs. apply steady_ret.
Qed.
Lemma steady_annotations m o l : steady (evaluate_annotations py stubs p m o l).
Proof.
  induction l as [|[x e] r IH]; cbn [evaluate_annotations]; [apply steady_ret|].
  apply steady_bind; [apply steady_expression|]. intros v. apply steady_bind; [exact IH|]. intros vs. apply steady_ret.
Qed.
(** A class that is not remembered; when it is made, it is remembered, and a global name. *)
Lemma steady_class m o module_nodes c : class_of_stubs (m, o) -> dget (m, o) (classes c) = None ->
  lasts c (fst (evaluate_class py stubs p m o module_nodes c))
  /\ forall c' v, evaluate_class py stubs p m o module_nodes c = (c', Ok v) -> dget (m, o) (classes c') = Some v /\ dget (path_to_string o) (globals c') = Some v.
Proof.
  intros S D. unfold evaluate_class. destruct (let* s := fetch m (stub_definitions stubs) in scope_at s o) as [s|e]; [|split; [apply lasts_refl|discriminate]].
  match goal with |- context [ebind ?x _] => pose proof (steady_fields m o module_nodes (dkeys (entries s)) [($"__module__", module_name py)] [($"__name__", module_name py)] c : lasts c (fst x)) as L1;
    destruct x as [c1 [fields|e]] end; cbn [ebind fst] in L1 |- *; [|split; [exact L1|discriminate]].
  match goal with |- context [ebind ?x _] => pose proof (steady_inside [snd (fst fields)] _ (steady_paths (dget_or o [] (dget_or m [] (stub_superclasses stubs)))) c1 : lasts c1 (fst x)) as L2;
    destruct x as [c2 [bases|e]] end; cbn [ebind fst] in L2 |- *; pose proof (lasts_trans _ _ _ L1 L2) as L; [|split; [exact L|discriminate]].
  destruct (new_class py (path_to_string o) (fst bases) (with_annotations py (snd fields) (fst (fst fields)))) as [v|e]; [|split; [exact L|discriminate]].
  cbv zeta. pose proof (steady_annotations m o (snd fields) (bind_name (last o []) v (with_class (m, o) v c2))) as L3.
  assert (L4 : lasts c (bind_name (last o []) v (with_class (m, o) v c2))).
  { destruct L as (l & A1 & A0 & A2 & A3). exists (l ++ [(m, o)]). split; [change (new_classes c2 ++ [(m, o)] = new_classes c ++ l ++ [(m, o)]); rewrite A1; now rewrite app_assoc|].
    split; [apply Forall_app; split; [exact A0|constructor; [exact S|constructor]]|].
    change (classes (bind_name (last o []) v (with_class (m, o) v c2))) with (dset (m, o) v (classes c2)). change (globals (bind_name (last o []) v (with_class (m, o) v c2))) with (globals c2). split.
    - intros q w D'. assert (N : q <> (m, o)) by (intros ->; pose proof (eq_trans (eq_sym D) D') as X; discriminate X).
      destruct (A2 q w D') as (D2 & N2 & M2). rewrite dget_dset. destruct (eqb_reflect q (m, o)) as [->|_]; [now destruct N|]. split; [exact D2|].
      split; [rewrite in_app_iff; cbn [In]; intuition congruence|exact M2].
    - intros name N. apply A3. intros q I. apply N, in_app_iff. now left. }
  assert (M : exists l, new_classes (bind_name (last o []) v (with_class (m, o) v c2)) = new_classes c ++ l /\ In (m, o) l).
  { destruct L as (l & A1 & _). exists (l ++ [(m, o)]). split; [change (new_classes c2 ++ [(m, o)] = new_classes c ++ l ++ [(m, o)]); rewrite A1; now rewrite app_assoc|]. apply in_app_iff. right. now left. }
  assert (K : dget (m, o) (classes (bind_name (last o []) v (with_class (m, o) v c2))) = Some v).
  { change (dget (m, o) (dset (m, o) v (classes c2)) = Some v). rewrite dget_dset. destruct (eqb_reflect (m, o) (m, o)) as [_|X]; [reflexivity|now destruct X]. }
  destruct (evaluate_annotations py stubs p m o (snd fields) (bind_name (last o []) v (with_class (m, o) v c2))) as [c3 [values|e]]; cbn [ebind fst] in L3 |- *;
    [|split; [exact (lasts_trans _ _ _ L4 L3)|discriminate]].
  assert (C4 : classes (annotate (m, o) values c3) = classes c3) by (unfold annotate; now destruct (is_nil values)).
  assert (G4 : globals (annotate (m, o) values c3) = globals c3) by (unfold annotate; now destruct (is_nil values)).
  assert (N4 : new_classes (annotate (m, o) values c3) = new_classes c3) by (unfold annotate; now destruct (is_nil values)).
  split.
  - destruct M as (k & M1 & M2). destruct (lasts_trans _ _ _ L4 L3) as (l & A1 & A0 & A2 & A3). exists l. unfold with_global. cbn [new_classes classes globals]. rewrite C4, G4, N4.
    split; [exact A1|]. split; [exact A0|]. split.
    { intros q w D'. assert (N : q <> (m, o)) by (intros ->; pose proof (eq_trans (eq_sym D) D') as X; discriminate X).
      destruct (A2 q w D') as (D2 & N2 & M3). split; [exact D2|]. split; [exact N2|]. rewrite <- M3. cbn [annotations]. unfold annotate. destruct (is_nil values); [reflexivity|].
      cbn [annotations]. rewrite dget_dset. destruct (eqb_reflect q (m, o)) as [->|_]; [now destruct N|reflexivity]. }
    intros name N. rewrite dget_dset. destruct (eqb_reflect name (path_to_string o)) as [->|_]; [|now apply A3].
    destruct L3 as (l3 & B1 & _). assert (I : In (m, o) l); [|destruct (N (m, o) I); reflexivity].
    rewrite B1, M1, <- app_assoc in A1. apply app_inv_head in A1. rewrite <- A1. apply in_app_iff. now left.
  - intros c' w E. injection E as <- <-. unfold with_global. cbn [classes globals]. rewrite C4, G4, dget_dset. split.
    + destruct L3 as (l3 & _ & _ & B2 & _). apply (B2 _ _ K).
    + destruct (eqb_reflect (path_to_string o) (path_to_string o)) as [_|X]; [reflexivity|now destruct X].
Qed.
Lemma steady_module_fields m names : steady (evaluate_module_fields p m names).
Proof.
  induction names as [|x r IH]; cbn [evaluate_module_fields]; [apply steady_ret|].
  apply (steady_then _ (fun v c => bind_name x v (with_attribute m x v c)) (fun _ => evaluate_module_fields p m r));
    [apply Hp|repeat split|]. intros _. exact IH.
Qed.
Lemma steady_module m : steady (evaluate_module py stubs p m).
Proof.
  intros c. unfold evaluate_module. destruct (dget m (modules c)); [apply lasts_refl|].
  destruct (fetch m (stub_definitions stubs)) as [s|e]; cbn; [|apply lasts_quiet; repeat split].
  eapply lasts_trans; [apply (lasts_quiet c (with_module m (new_module py (path_to_string m)) c)); repeat split|].
  apply (steady_bind (evaluate_module_fields p m (dkeys (entries s)))); [apply steady_module_fields|intros _; apply steady_ret].
Qed.
Lemma steady_object m o : steady (evaluate_object py stubs p m o).
Proof.
  intros c. unfold evaluate_object. destruct (dget (m, o) (classes c)) eqn:D; [apply lasts_refl|].
  destruct (fetch m (stub_nodes stubs)) as [module_nodes|e]; cbn [bind_res]; [|apply lasts_refl]. unfold fetch.
  destruct (dget m (stub_kinds stubs)) as [kinds|] eqn:K1; cbn [bind_res]; [|apply lasts_refl].
  destruct (dget o kinds) as [kind|] eqn:K2; cbn [bind_res]; [|apply lasts_refl].
  destruct (is_CLASS kind) eqn:K3; [apply steady_class; [|exact D]; exists kinds; split; [exact K1|]; destruct kind; try discriminate K3; exact K2|]. destruct (dget o module_nodes); [apply steady_nodes|apply lasts_refl].
Qed.
End Steps.
Lemma steady_path fuel q : steady (evaluate_qualified_path py stubs fuel q).
Proof.
  revert q. induction fuel as [|fuel IH]; intros q; cbn [evaluate_qualified_path]; [apply steady_ret|].
  destruct (import_object py q); [|now apply steady_object|apply steady_ret].
  destruct (is_nil (snd q)); [now apply steady_module|now apply steady_object].
Qed.
End Proofs.
