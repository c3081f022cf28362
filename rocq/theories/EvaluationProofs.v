(** Proofs about evaluation.py. *)
From Verif Require Import Base Ast Conversion Catalog Scoping Signatures Stubs Evaluation SpecEvaluation.
From Verif Require StubsProofs.

Lemma means_items_keys {V} (py : python V) named items vs : means_items py named items vs ->
  forallb (fun i : option expr * expr => match fst i with Some _ => true | None => false end) items = true.
Proof.
  revert vs. induction items as [|[k e] items IH]; intros vs X; inversion X; subst; [reflexivity|]. cbn [forallb fst]. eapply IH; eassumption.
Qed.

Section Proofs.
Context {V : Type} (py : python V) (stubs : tables).
Notation memory := (memory V).
Notation evaluated := (evaluated V).

(** ** Caches only grow *)
Definition known (t : qualified_path) (c : memory) : Prop := dget t (aliases c) <> None.
Definition made (m : path) (c : memory) : Prop := dget m (modules c) <> None.
(** Every class that is made is remembered, and no other becomes remembered. *)
Definition held (c c' : memory) : Prop :=
  exists l, new_classes c' = new_classes c ++ l /\ forall q, dget q (classes c') <> None <-> dget q (classes c) <> None \/ In q l.
Definition le (c c' : memory) : Prop := (forall t, known t c -> known t c') /\ (forall m, made m c -> made m c') /\ held c c'.
Lemma held_same (c c' : memory) : classes c' = classes c -> new_classes c' = new_classes c -> held c c'.
Proof. intros E N. exists []. rewrite E, N, app_nil_r. split; [reflexivity|]. intros q. cbn. tauto. Qed.
Lemma le_refl c : le c c.
Proof. split; [auto|]. split; [auto|]. now apply held_same. Qed.
Lemma le_trans a b c : le a b -> le b c -> le a c.
Proof.
  intros (A & B & l & E & H) (C & D & l' & E' & H'). split; [auto|]. split; [auto|]. exists (l ++ l'). split; [rewrite E', E; now rewrite app_assoc|].
  intros q. rewrite H', H, in_app_iff. tauto.
Qed.
Lemma known_with_alias t t' v c : known t (with_alias t' v c) <-> t = t' \/ known t c.
Proof.
  unfold known, with_alias. cbn. rewrite dget_dset. destruct (eqb_reflect t t') as [->|N]; [|tauto].
  split; [auto|discriminate].
Qed.
Lemma le_with_alias t v c : le c (with_alias t v c).
Proof. split; [intros t' H; apply known_with_alias; auto|]. split; [auto|]. now apply held_same. Qed.
Lemma le_with_class q v c : le c (with_class q v c).
Proof.
  split; [auto|]. split; [auto|]. exists [q]. split; [reflexivity|]. intros q'. cbn [with_class classes]. rewrite dget_dset.
  destruct (eqb_reflect q' q) as [->|N]; cbn [In]; [|intuition congruence]. split; [auto|]. intros _. intros X. discriminate X.
Qed.
Lemma made_with_module m m' v c : made m (with_module m' v c) <-> m = m' \/ made m c.
Proof.
  unfold made, with_module. cbn. rewrite dget_dset. destruct (eqb_reflect m m') as [->|N]; [|tauto].
  split; [auto|discriminate].
Qed.
Lemma le_with_module m v c : le c (with_module m v c).
Proof. split; [auto|]. split; [|now apply held_same]. intros m' H. apply made_with_module. auto. Qed.
Lemma le_names a b (c : memory) : le (with_names a c) (with_names b c).
Proof. split; [auto|]. split; [auto|]. now apply held_same. Qed.
Lemma le_with_names ns c c' : le c c' -> le c (with_names ns c').
Proof. intros H. exact H. Qed.
Lemma le_bind_name n v c : le c (bind_name n v c).
Proof. split; [auto|]. split; [auto|]. now apply held_same. Qed.
Lemma le_with_attribute m n v c : le c (with_attribute m n v c).
Proof. split; [auto|]. split; [auto|]. now apply held_same. Qed.
Lemma le_annotate q vs c : le c (annotate q vs c).
Proof. unfold annotate. destruct (is_nil vs); (split; [auto|]); (split; [auto|]); now apply held_same. Qed.
Lemma le_with_global n v c : le c (with_global n v c).
Proof. split; [auto|]. split; [auto|]. now apply held_same. Qed.
Lemma le_store ts v c : le c (store ts v c).
Proof.
  unfold store. revert c. induction ts as [|t r IH]; intros c; [apply le_refl|]. cbn.
  eapply le_trans; [apply le_with_alias|apply IH].
Qed.
Lemma le_search ts c : le c (fst (search_cache py ts c)).
Proof.
  revert c. induction ts as [|t r IH]; intros c; [apply le_refl|]. cbn.
  destruct (dget t (aliases c)); [apply le_refl|]. eapply le_trans; [apply le_with_alias|apply IH].
Qed.

(** ** How much can still be added *)
Definition targets_of (m o : path) (s : stmt) : list qualified_path :=
  match targets_paths stubs m (removelast o) s with Ok ts => ts | Err _ => [] end.
Definition universe : list qualified_path :=
  flat_map (fun mn => flat_map (fun on => flat_map (targets_of (fst mn) (fst on)) (snd on)) (snd mn)) (stub_nodes stubs).
Definition class_universe : list qualified_path :=
  flat_map (fun mk => flat_map (fun ok => if is_CLASS (snd ok) then [(fst mk, fst ok)] else []) (snd mk)) (stub_kinds stubs).
Definition count {A} (f : A -> bool) (l : list A) : nat := length (filter f l).
Definition measure (c : memory) : nat :=
  count (fun t => match dget t (aliases c) with Some _ => false | None => true end) universe
  + count (fun m => match dget m (modules c) with Some _ => false | None => true end) (dkeys (stub_definitions stubs))
  + count (fun q => match dget q (classes c) with Some _ => false | None => true end) class_universe.
Lemma count_le {A} (f g : A -> bool) l : (forall x, f x = true -> g x = true) -> count f l <= count g l.
Proof.
  intros H. unfold count. induction l as [|x r IH]; [reflexivity|]. cbn.
  destruct (f x) eqn:F; [rewrite (H x F); cbn; lia|]. destruct (g x); cbn; lia.
Qed.
Lemma count_lt {A} (f g : A -> bool) l x : (forall x, f x = true -> g x = true) -> In x l -> f x = false -> g x = true ->
  count f l < count g l.
Proof.
  intros H. unfold count. induction l as [|y r IH]; [intros []|]. intros [->|Hi] F G; cbn.
  - rewrite F, G. pose proof (count_le f g r H) as L. unfold count in L. cbn. lia.
  - specialize (IH Hi F G). destruct (f y) eqn:Fy; [rewrite (H y Fy); cbn; lia|]. destruct (g y); cbn; lia.
Qed.
Lemma fewer_aliases c c' : le c c' -> forall t, match dget t (aliases c') with Some _ => false | None => true end = true ->
  match dget t (aliases c) with Some _ => false | None => true end = true.
Proof.
  intros (A & _) t. specialize (A t). unfold known in A. destruct (dget t (aliases c')); [discriminate|].
  destruct (dget t (aliases c)); [|reflexivity]. destruct (A ltac:(discriminate) eq_refl).
Qed.
Lemma fewer_modules c c' : le c c' -> forall m, match dget m (modules c') with Some _ => false | None => true end = true ->
  match dget m (modules c) with Some _ => false | None => true end = true.
Proof.
  intros (_ & B & _) m. specialize (B m). unfold made in B. destruct (dget m (modules c')); [discriminate|].
  destruct (dget m (modules c)); [|reflexivity]. destruct (B ltac:(discriminate) eq_refl).
Qed.
Lemma fewer_classes c c' : le c c' -> forall q, match dget q (classes c') with Some _ => false | None => true end = true ->
  match dget q (classes c) with Some _ => false | None => true end = true.
Proof.
  intros (_ & _ & l & _ & H) q. destruct (dget q (classes c')) eqn:E'; [discriminate|]. intros _.
  destruct (dget q (classes c)) eqn:E; [|reflexivity]. exfalso. apply (proj2 (H q)); [left|exact E'].
  intros X. pose proof (eq_trans (eq_sym E) X) as Y. discriminate Y.
Qed.
Lemma measure_le c c' : le c c' -> measure c' <= measure c.
Proof.
  intros L. unfold measure. apply Nat.add_le_mono; [apply Nat.add_le_mono|]; apply count_le; [now apply fewer_aliases|now apply fewer_modules|now apply fewer_classes].
Qed.
Lemma measure_lt_alias c c' t : le c c' -> In t universe -> ~ known t c -> known t c' -> measure c' < measure c.
Proof.
  intros L Hi N K. unfold measure. apply Nat.add_lt_le_mono; [apply Nat.add_lt_le_mono|].
  - apply count_lt with (x := t); [now apply fewer_aliases|exact Hi| |].
    + unfold known in K. now destruct (dget t (aliases c')).
    + unfold known in N. destruct (dget t (aliases c)); [|reflexivity]. destruct N. discriminate.
  - apply count_le. now apply fewer_modules.
  - apply count_le. now apply fewer_classes.
Qed.
Lemma measure_lt_module c c' m : le c c' -> In m (dkeys (stub_definitions stubs)) -> ~ made m c -> made m c' -> measure c' < measure c.
Proof.
  intros L Hi N K. unfold measure. apply Nat.add_lt_le_mono; [apply Nat.add_le_lt_mono|].
  - apply count_le. now apply fewer_aliases.
  - apply count_lt with (x := m); [now apply fewer_modules|exact Hi| |].
    + unfold made in K. now destruct (dget m (modules c')).
    + unfold made in N. destruct (dget m (modules c)); [|reflexivity]. destruct N. discriminate.
  - apply count_le. now apply fewer_classes.
Qed.
Lemma measure_lt_class c c' q : le c c' -> In q class_universe -> dget q (classes c) = None -> dget q (classes c') <> None -> measure c' < measure c.
Proof.
  intros L Hi N K. unfold measure. apply Nat.add_le_lt_mono; [apply Nat.add_le_mono|].
  - apply count_le. now apply fewer_aliases.
  - apply count_le. now apply fewer_modules.
  - apply count_lt with (x := q); [now apply fewer_classes|exact Hi| |].
    + now destruct (dget q (classes c')).
    + match goal with |- match ?x with _ => _ end = _ => replace x with (@None V) by (symmetry; exact N) end. reflexivity.
Qed.
Lemma in_class_universe m o kinds : dget m (stub_kinds stubs) = Some kinds -> dget o kinds = Some CLASS -> In (m, o) class_universe.
Proof.
  intros A B. unfold class_universe. apply in_flat_map. exists (m, kinds). split; [now apply dget_Some_In|].
  apply in_flat_map. exists (o, CLASS). split; [now apply dget_Some_In|]. now left.
Qed.

(** ** Computations that agree as long as the caches are full enough *)
Definition same {A} (n : nat) (f g : memory -> evaluated A) : Prop :=
  forall c, measure c <= n -> f c = g c /\ le c (fst (f c)).
Lemma same_ret {A} n (x : res A) : same n (fun c => (c, x)) (fun c => (c, x)).
Proof. intros c _. split; [reflexivity|apply le_refl]. Qed.
Lemma same_bind {A B} n (f g : memory -> evaluated A) (F G : memory -> A -> evaluated B) :
  same n f g -> (forall a, same n (fun c => F c a) (fun c => G c a)) ->
  same n (fun c => ebind (f c) F) (fun c => ebind (g c) G).
Proof.
  intros H K c L. destruct (H c L) as [E I]. rewrite <- E. destruct (f c) as [c1 [a|e]]; cbn in *.
  - destruct (K a c1) as [E1 I1]; [pose proof (measure_le _ _ I); lia|]. split; [exact E1|]. eapply le_trans; eauto.
  - split; auto.
Qed.
Lemma same_inside {A} n ns (f g : memory -> evaluated A) : same n f g -> same n (inside ns f) (inside ns g).
Proof.
  intros H c L. unfold inside. destruct (H (with_names ns c) L) as [E I]. rewrite <- E.
  destruct (f (with_names ns c)) as [c1 [a|e]]; (split; [reflexivity|exact I]).
Qed.
Lemma same_then {A B} n (f g : memory -> evaluated A) (h : A -> memory -> memory) (F G : A -> memory -> evaluated B) :
  same n f g -> (forall a c, le c (h a c)) -> (forall a, same n (F a) (G a)) ->
  same n (fun c => ebind (f c) (fun c a => F a (h a c))) (fun c => ebind (g c) (fun c a => G a (h a c))).
Proof.
  intros H Hh K. apply same_bind; [exact H|]. intros a c L.
  destruct (K a (h a c)) as [E I]; [pose proof (measure_le _ _ (Hh a c)); lia|]. split; [exact E|].
  eapply le_trans; [apply Hh|exact I].
Qed.
Lemma same_weaken {A} n k (f g : memory -> evaluated A) : k <= n -> same n f g -> same k f g.
Proof. intros L H c M. apply H. lia. Qed.

Section Agreement.
Variables (n : nat) (p1 p2 : qualified_path -> memory -> evaluated V).
Hypothesis Hp : forall q, same n (p1 q) (p2 q).

Lemma same_resolved m parent o : same n (evaluate_resolved stubs p1 m parent o) (evaluate_resolved stubs p2 m parent o).
Proof. unfold evaluate_resolved. destruct (resolve stubs m parent o); [apply Hp|apply same_ret]. Qed.
Lemma same_list f g es : (forall e, In e es -> same n (f e) (g e)) -> same n (evaluate_list (V := V) f es) (evaluate_list g es).
Proof.
  induction es as [|e r IH]; intros H; cbn [evaluate_list]; [apply same_ret|].
  apply same_bind; [apply H; now left|]. intros v. apply same_bind; [apply IH; intros; apply H; now right|].
  intros vs. apply same_ret.
Qed.
Lemma same_keywords f g ks : (forall k, In k ks -> same n (f (snd k)) (g (snd k))) ->
  same n (evaluate_keywords (V := V) f ks) (evaluate_keywords g ks).
Proof.
  induction ks as [|[k e] r IH]; intros H; cbn [evaluate_keywords]; [apply same_ret|].
  apply same_bind; [apply (H (k, e)); now left|]. intros v. apply same_bind; [apply IH; intros; apply H; now right|].
  intros vs. apply same_ret.
Qed.
Lemma same_items f g items : (forall i, In i items -> (forall k, fst i = Some k -> same n (f k) (g k)) /\ same n (f (snd i)) (g (snd i))) ->
  same n (evaluate_items (V := V) f items) (evaluate_items g items).
Proof.
  induction items as [|[[k|] e] r IH]; intros H; cbn [evaluate_items]; try apply same_ret.
  destruct (H (Some k, e) (or_introl eq_refl)) as [Hk He]. apply same_bind; [now apply Hk|]. intros w.
  apply same_bind; [exact He|]. intros v. apply same_bind; [apply IH; intros; apply H; now right|]. intros vs. apply same_ret.
Qed.
Lemma same_expression m parent e :
  same n (evaluate_expression py stubs p1 m parent e) (evaluate_expression py stubs p2 m parent e).
Proof.
  induction e as [id|v a IH|v s IHv IHs|es IH|es IH|items IH|f es ks IHf IHes IHks|l o r IHl IHr|o e IH|k|es IH] using expr_ind';
    cbn [evaluate_expression].
  - apply same_resolved.
  - apply same_bind; [exact IH|]. intros x. destruct (getattr py x a) as [y|[]]; try apply same_ret.
    destruct (to_path (Attribute v a)); [apply same_resolved|apply same_ret].
  - apply same_bind; [exact IHv|]. intros x. apply same_bind; [exact IHs|]. intros y.
    destruct (getitem py x y) as [z|[]]; apply same_ret.
  - rewrite Forall_forall in IH. apply same_bind; [now apply same_list|]. intros vs. apply same_ret.
  - rewrite Forall_forall in IH. apply same_bind; [now apply same_list|]. intros vs. apply same_ret.
  - destruct (forallb _ items); [|apply same_ret]. rewrite Forall_forall in IH. apply same_bind; [now apply same_items|]. intros vs. apply same_ret.
  - rewrite Forall_forall in IHes, IHks. apply same_bind; [now apply same_list|]. intros vs.
    apply same_bind; [now apply same_keywords|]. intros kvs. apply same_bind; [exact IHf|]. intros x. apply same_ret.
  - apply same_bind; [exact IHl|]. intros x. apply same_bind; [exact IHr|]. intros y.
    destruct (apply_binary py o x y) as [z|[]]; try apply same_ret. destruct o; apply same_ret.
  - destruct o; [| |apply same_ret]; (apply same_bind; [exact IH|]; intros x; apply same_ret).
  - apply same_ret.
  - apply same_ret.
Qed.
Lemma same_value m parent value :
  same n (fun c => match value with Some e => evaluate_expression py stubs p1 m parent e c | None => (c, Err TypeError) end)
         (fun c => match value with Some e => evaluate_expression py stubs p2 m parent e c | None => (c, Err TypeError) end).
Proof. destruct value; [apply same_expression|apply same_ret]. Qed.
Lemma same_module_fields m names : same n (evaluate_module_fields p1 m names) (evaluate_module_fields p2 m names).
Proof.
  induction names as [|x r IH]; cbn [evaluate_module_fields]; [apply same_ret|].
  apply (same_then n _ _ (fun v c => bind_name x v (with_attribute m x v c)) (fun _ => evaluate_module_fields p1 m r) (fun _ => evaluate_module_fields p2 m r));
    [apply Hp|intros; eapply le_trans; [apply le_with_attribute|apply le_bind_name]|]. intros _. exact IH.
Qed.
End Agreement.

(** A search that finds nothing makes all targets known. *)
Lemma search_none ts c c' : search_cache py ts c = (c', None) ->
  (forall t, In t ts -> known t c') /\ (forall t, hd_error ts = Some t -> ~ known t c).
Proof.
  revert c. induction ts as [|t r IH]; intros c; cbn; [intros H; split; [intros t []|discriminate]|].
  destruct (dget t (aliases c)) eqn:E; [discriminate|]. intros H. split.
  - intros u [<-|Hu]; [|now apply (IH _ H)].
    pose proof (le_search r (with_alias t (forward_ref py (path_to_string (snd t))) c)) as L. rewrite H in L. apply L.
    apply known_with_alias. auto.
  - intros u Hu. injection Hu as <-. unfold known. now rewrite E.
Qed.

Definition proper (s : stmt) : Prop := match s with SAssign ts _ => ts <> [] | _ => True end.
Lemma targets_nonempty m parent s ts : proper s -> (exists a b v, s = SAnnAssign a b v) \/ (exists a v, s = SAssign a v) ->
  targets_paths stubs m parent s = Ok ts -> ts <> [].
Proof.
  intros P H E. unfold targets_paths in E. destruct (to_names s) as [names|] eqn:T; [|discriminate]. cbn in E.
  assert (N : names <> []).
  { destruct H as [(a & b & v & ->)|(a & v & ->)]; cbn in T, P.
    - destruct (target_name a); [|discriminate]. cbn in T. now injection T as <-.
    - destruct a as [|x r]; [easy|]. cbn in T. destruct (target_name x); [|discriminate]. cbn in T.
      destruct (map_m target_name r); [|discriminate]. cbn in T. now injection T as <-. }
  destruct names as [|x r]; [easy|]. cbn in E. destruct (resolve stubs m parent [x]); [|discriminate]. cbn in E.
  destruct (map_m (fun name => resolve stubs m parent [name]) r); [|discriminate]. cbn in E. now injection E as <-.
Qed.

Lemma same_assignment n p1 p2 m parent s value :
  (forall ts, targets_paths stubs m parent s = Ok ts -> ts <> [] /\ forall t, In t ts -> In t universe) ->
  (forall k q, k < n -> same k (p1 q) (p2 q)) ->
  same n (evaluate_assignment py stubs p1 m parent s value) (evaluate_assignment py stubs p2 m parent s value).
Proof.
  intros HT Hp c L. unfold evaluate_assignment. destruct (targets_paths stubs m parent s) as [ts|e]; [|split; [reflexivity|apply le_refl]].
  destruct (HT ts eq_refl) as [NE HU]. destruct (search_cache py ts c) as [c1 [v|]] eqn:S.
  - split; [reflexivity|]. cbn. eapply le_trans; [|apply le_store]. pose proof (le_search ts c) as H. now rewrite S in H.
  - pose proof (le_search ts c) as H. rewrite S in H. cbn in H. destruct (search_none _ _ _ S) as [K1 K2].
    destruct ts as [|t r]; [easy|].
    assert (M : measure c1 < measure c).
    { eapply measure_lt_alias; [exact H|apply HU; now left|now apply K2|apply K1; now left]. }
    pose proof (@same_bind _ _ (measure c1) _ _ (fun c v => (store (t :: r) v c, Ok v)) (fun c v => (store (t :: r) v c, Ok v))
                  (@same_value (measure c1) p1 p2 (fun q => Hp (measure c1) q (Nat.lt_le_trans _ _ _ M L)) m parent value)) as B.
    destruct (B ltac:(intros a c2 _; split; [reflexivity|apply le_store]) c1 ltac:(lia)) as [B1 B2].
    split; [exact B1|]. eapply le_trans; [exact H|exact B2].
Qed.

(** The statements recorded for an object, and their targets. *)
Lemma recorded_targets m o module_nodes ns s ts :
  dget m (stub_nodes stubs) = Some module_nodes -> dget o module_nodes = Some ns -> In s ns ->
  targets_paths stubs m (removelast o) s = Ok ts -> forall t, In t ts -> In t universe.
Proof.
  intros A B C D t Ht. unfold universe. apply in_flat_map. exists (m, module_nodes). split; [now apply dget_Some_In|].
  apply in_flat_map. exists (o, ns). split; [now apply dget_Some_In|]. apply in_flat_map. exists s. split; [exact C|].
  unfold targets_of. cbn. now rewrite D.
Qed.

(** ** All evaluation only adds to the caches *)
Definition grows {A} (f : memory -> evaluated A) : Prop := forall c, le c (fst (f c)).
Lemma grows_same {A} (f : memory -> evaluated A) : (forall n, same n f f) -> grows f.
Proof. intros H c. exact (proj2 (H (measure c) c (Nat.le_refl _))). Qed.
Lemma same_grows {A} (f : memory -> evaluated A) n : grows f -> same n f f.
Proof. intros H c _. split; [reflexivity|apply H]. Qed.
Lemma grows_ret {A} (x : res A) : grows (fun c => (c, x)).
Proof. intros c. apply le_refl. Qed.
Lemma grows_bind {A B} (f : memory -> evaluated A) (F : memory -> A -> evaluated B) :
  grows f -> (forall a, grows (fun c => F c a)) -> grows (fun c => ebind (f c) F).
Proof. intros H K. apply grows_same. intros n. apply same_bind; [now apply same_grows|]. intros a. now apply same_grows. Qed.
Lemma grows_inside {A} ns (f : memory -> evaluated A) : grows f -> grows (inside ns f).
Proof. intros H. apply grows_same. intros n. apply same_inside. now apply same_grows. Qed.
Lemma grows_then {A B} (f : memory -> evaluated A) (h : A -> memory -> memory) (F : A -> memory -> evaluated B) :
  grows f -> (forall a c, le c (h a c)) -> (forall a, grows (F a)) -> grows (fun c => ebind (f c) (fun c a => F a (h a c))).
Proof. intros H K L. apply grows_same. intros n. apply same_then; [now apply same_grows|exact K|]. intros a. now apply same_grows. Qed.
Section Growth.
Variable p : qualified_path -> memory -> evaluated V.
Hypothesis Hp : forall q, grows (p q).
Lemma grows_expression m parent e : grows (evaluate_expression py stubs p m parent e).
Proof. apply grows_same. intros n. apply same_expression. intros q. now apply same_grows. Qed.
Lemma grows_assignment m parent s value : grows (evaluate_assignment py stubs p m parent s value).
Proof.
  intros c. unfold evaluate_assignment. destruct (targets_paths stubs m parent s) as [ts|e]; [|apply le_refl].
  pose proof (le_search ts c) as H. destruct (search_cache py ts c) as [c1 [v|]]; cbn in H |- *.
  - eapply le_trans; [exact H|apply le_store].
  - eapply le_trans; [exact H|]. revert c1 H. refine (fun c1 _ => _).
    apply (grows_bind (fun c => match value with Some e => evaluate_expression py stubs p m parent e c | None => (c, Err TypeError) end)).
    + destruct value; [apply grows_expression|apply grows_ret].
    + intros v c2. apply le_store.
Qed.
Lemma grows_statement m parent s : grows (evaluate_statement py stubs p m parent s).
Proof.
  unfold evaluate_statement. destruct s; try apply grows_ret; try apply grows_assignment;
    intros c; match goal with |- context [execute py ?a ?b ?d] => destruct (execute py a b d) end; (apply le_bind_name || apply le_refl).
Qed.
Lemma grows_nodes m parent name ns last : grows (evaluate_nodes py stubs p m parent name ns last).
Proof.
  revert last. induction ns as [|s r IH]; intros last; cbn [evaluate_nodes]; [apply grows_ret|].
  apply (grows_then _ (fun v c => bind_name name v c) (fun v => evaluate_nodes py stubs p m parent name r (Ok v)));
    [apply grows_statement|intros; apply le_bind_name|]. intros v. apply IH.
Qed.
Lemma grows_dependencies m o names : forall md, grows (evaluate_dependencies stubs p m o names md).
Proof.
  induction names as [|x r IH]; intros md; cbn [evaluate_dependencies]; [apply grows_ret|].
  destruct (resolve stubs m o [x]) as [q|e]; [|apply grows_ret]. destruct (fst q == builtins_path); [apply IH|].
  apply grows_bind; [apply grows_inside, Hp|]. intros y. apply IH.
Qed.
Lemma grows_definitions m o ds : forall last cls md, grows (evaluate_definitions py stubs p m o ds last cls md).
Proof.
  induction ds as [|s r IH]; intros last cls md; cbn [evaluate_definitions]; [apply grows_ret|].
  apply grows_bind; [apply grows_dependencies|]. intros md'. apply grows_bind; [apply grows_inside, grows_statement|]. intros v. apply IH.
Qed.
Lemma grows_fields m o module_nodes names : forall cls md, grows (evaluate_fields py stubs p m o module_nodes names cls md).
Proof.
  induction names as [|x r IH]; intros cls md; cbn [evaluate_fields]; [apply grows_ret|].
  destruct (fetch (o ++ [x]) module_nodes) as [ns|e]; [|apply grows_ret].
  apply grows_bind; [apply grows_definitions|]. intros v. apply grows_bind; [apply IH|]. intros rest. apply grows_ret.
Qed.
Lemma grows_paths qs : grows (evaluate_paths p qs).
Proof.
  induction qs as [|q r IH]; cbn [evaluate_paths]; [apply grows_ret|].
  apply grows_bind; [apply Hp|]. intros v. apply grows_bind; [exact IH|]. intros vs. apply grows_ret.
Qed.
Lemma grows_annotations m o l : grows (evaluate_annotations py stubs p m o l).
Proof.
  induction l as [|[x e] r IH]; cbn [evaluate_annotations]; [apply grows_ret|].
  apply grows_bind; [apply grows_expression|]. intros v. apply grows_bind; [exact IH|]. intros vs. apply grows_ret.
Qed.
Lemma grows_class m o module_nodes : grows (evaluate_class py stubs p m o module_nodes).
Proof.
  unfold evaluate_class. destruct (let* s := fetch m (stub_definitions stubs) in scope_at s o) as [s|e]; [|apply grows_ret].
  apply grows_bind; [apply grows_fields|]. intros fields. apply grows_bind; [apply grows_inside, grows_paths|]. intros bases.
  destruct (new_class py (path_to_string o) (fst bases) (with_annotations py (snd fields) (fst (fst fields)))) as [v|e]; [|apply grows_ret].
  intros c. eapply le_trans; [apply (le_with_class (m, o) v)|]. eapply le_trans; [apply (le_bind_name (last o []) v)|]. 
  apply (grows_bind (evaluate_annotations py stubs p m o (snd fields))); [apply grows_annotations|]. intros vs c'.
  eapply le_trans; [apply le_annotate|apply le_with_global].
Qed.
Lemma grows_module m : grows (evaluate_module py stubs p m).
Proof.
  intros c. unfold evaluate_module. destruct (dget m (modules c)); [apply le_refl|].
  destruct (fetch m (stub_definitions stubs)) as [s|e]; cbn; [|apply le_with_module].
  eapply le_trans; [apply (le_with_module m (new_module py (path_to_string m)))|].
  apply (grows_bind (evaluate_module_fields p m (dkeys (entries s)))); [|intros _; apply grows_ret].
  apply grows_same. intros n. apply same_module_fields. intros q. now apply same_grows.
Qed.
Lemma grows_object m o : grows (evaluate_object py stubs p m o).
Proof.
  intros c. unfold evaluate_object. destruct (dget (m, o) (classes c)); [apply le_refl|].
  destruct (let* module_nodes := fetch m (stub_nodes stubs) in _) as [[module_nodes kind]|e]; [|apply le_refl].
  destruct (is_CLASS kind); [apply grows_class|]. destruct (dget o module_nodes); [apply grows_nodes|apply le_refl].
Qed.
End Growth.
Lemma grows_path fuel q : grows (evaluate_qualified_path py stubs fuel q).
Proof.
  revert q. induction fuel as [|fuel IH]; intros q; cbn [evaluate_qualified_path]; [apply grows_ret|].
  destruct (import_object py q); [|now apply grows_object|apply grows_ret].
  destruct (is_nil (snd q)); [now apply grows_module|now apply grows_object].
Qed.

(** ** Assignments and their cache *)
Lemma dset_same {K A} `{Eqb K} (k : K) (v : A) d : dget k d = Some v -> dset k v d = d.
Proof.
  induction d as [|[k0 v0] r IH]; [discriminate|]. change (dget k ((k0, v0) :: r)) with (if k == k0 then Some v0 else dget k r).
  change (dset k v ((k0, v0) :: r)) with (if k == k0 then (k0, v) :: r else (k0, v0) :: dset k v r).
  destruct (k == k0); intros E; [now injection E as -> | f_equal; auto].
Qed.
Lemma with_alias_same t (v : V) c : dget t (aliases c) = Some v -> with_alias t v c = c.
Proof. intros H. unfold with_alias. rewrite (dset_same t v _ H). now destruct c. Qed.
Lemma store_same ts (v : V) c : (forall t, In t ts -> dget t (aliases c) = Some v) -> store ts v c = c.
Proof.
  unfold store. revert c. induction ts as [|t r IH]; intros c H; [reflexivity|]. cbn.
  rewrite with_alias_same by (apply H; now left). apply IH. intros u Hu. apply H. now right.
Qed.
Lemma store_get ts (v : V) c t : dget t (aliases (store ts v c)) = if mem t ts then Some v else dget t (aliases c).
Proof.
  unfold store. revert c. induction ts as [|u r IH]; intros c; [reflexivity|]. cbn [fold_left]. rewrite IH. cbn.
  rewrite dget_dset. unfold mem. cbn [existsb]. destruct (t == u), (existsb (eqb t) r); reflexivity.
Qed.
Lemma search_found t r c (v : V) : dget t (aliases c) = Some v -> search_cache py (t :: r) c = (c, Some v).
Proof. intros H. cbn. now rewrite H. Qed.

(** The value of an assignment's targets after it succeeded *)
Lemma assignment_stored p m parent s value c c' v ts :
  targets_paths stubs m parent s = Ok ts ->
  evaluate_assignment py stubs p m parent s value c = (c', Ok v) ->
  forall t, In t ts -> dget t (aliases c') = Some v.
Proof.
  intros T H t Ht. unfold evaluate_assignment in H. rewrite T in H. destruct (search_cache py ts c) as [c1 [w|]].
  - injection H as <- <-. rewrite store_get. apply mem_In in Ht. now rewrite Ht.
  - destruct value as [e|]; [|discriminate].
    destruct (evaluate_expression py stubs p m parent e c1) as [c2 [w|x]]; cbn in H; [|discriminate].
    injection H as <- <-. rewrite store_get. apply mem_In in Ht. now rewrite Ht.
Qed.
(** An assignment whose first target is cached *)
Lemma assignment_cached p m parent s value c v t r :
  targets_paths stubs m parent s = Ok (t :: r) -> dget t (aliases c) = Some v ->
  evaluate_assignment py stubs p m parent s value c = (store (t :: r) v c, Ok v).
Proof. intros T H. unfold evaluate_assignment. now rewrite T, search_found with (v := v). Qed.

Lemma In_dedupe (x : pystr) l : In x (dedupe l) <-> In x l.
Proof.
  induction l as [|y r IH]; cbn [dedupe]; [easy|]. split.
  - intros [->|H]; [now left|]. apply filter_In in H as [H _]. right. now apply IH.
  - intros [->|H]; [now left|]. destruct (eqb_reflect x y) as [->|N]; [now left|]. right. apply filter_In. split; [now apply IH|].
    apply eqb_neq in N. now rewrite ?(eqb_sym y x), N.
Qed.
(** ** Enough fuel *)
Section Termination.
Hypothesis all_proper : forall m o module_nodes ns s,
  dget m (stub_nodes stubs) = Some module_nodes -> dget o module_nodes = Some ns -> In s ns -> proper s.
(** What the making of a class needs: its base classes and the names its definitions look up *)
Definition needed (q q' : qualified_path) : Prop :=
  In q' (dget_or (snd q) [] (dget_or (fst q) [] (stub_superclasses stubs)))
  \/ exists module_nodes x ns s name, dget (fst q) (stub_nodes stubs) = Some module_nodes /\ dget (snd q ++ [x]) module_nodes = Some ns /\ In s ns
       /\ annotation_of s = None /\ In name (lazy_names s) /\ resolve stubs (fst q) (snd q) [name] = Ok q'.
Definition unimported_class (q : qualified_path) : Prop :=
  (forall v, import_object py q <> Imported v) /\ exists kinds, dget (fst q) (stub_kinds stubs) = Some kinds /\ dget (snd q) kinds = Some CLASS.
Variable rank : qualified_path -> nat.
Hypothesis ranked : forall q q', unimported_class q -> unimported_class q' -> needed q q' -> rank q' < rank q.

Lemma same_statement n p1 p2 m o module_nodes ns s :
  dget m (stub_nodes stubs) = Some module_nodes -> dget o module_nodes = Some ns -> In s ns ->
  (forall k q, k < n -> same k (p1 q) (p2 q)) ->
  same n (evaluate_statement py stubs p1 m (removelast o) s) (evaluate_statement py stubs p2 m (removelast o) s).
Proof.
  intros A B Hs Hp.
  pose proof (fun ts H => recorded_targets m o module_nodes ns s ts A B Hs H) as HU.
  pose proof (all_proper m o module_nodes ns s A B Hs) as HP.
  unfold evaluate_statement. destruct s; try apply same_ret;
    try (intros c L; split; [reflexivity|];
         match goal with |- context [execute py ?a ?b ?d] => destruct (execute py a b d) end; (apply le_bind_name || apply le_refl));
    apply same_assignment; auto; intros ts E;
    (split; [eapply targets_nonempty; eauto 6|now apply HU]).
Qed.
Lemma same_nodes n p1 p2 m o module_nodes name ns last :
  dget m (stub_nodes stubs) = Some module_nodes -> (exists ns', dget o module_nodes = Some ns' /\ forall s, In s ns -> In s ns') ->
  (forall k q, k < n -> same k (p1 q) (p2 q)) ->
  same n (evaluate_nodes py stubs p1 m (removelast o) name ns last) (evaluate_nodes py stubs p2 m (removelast o) name ns last).
Proof.
  intros A (ns' & B & I) Hp. revert last I. induction ns as [|s r IH]; intros last I; cbn [evaluate_nodes]; [apply same_ret|].
  apply (same_then n _ _ (fun v c => bind_name name v c) (fun v => evaluate_nodes py stubs p1 m (removelast o) name r (Ok v))
           (fun v => evaluate_nodes py stubs p2 m (removelast o) name r (Ok v)));
    [|intros; apply le_bind_name|intros v; apply IH; intros; apply I; now right].
  apply (same_statement n p1 p2 m o module_nodes ns'); auto. apply I. now left.
Qed.

Section Classes.
Variables (n : nat) (p1 p2 : qualified_path -> memory -> evaluated V).
Hypothesis Hp : forall k q, k < n -> same k (p1 q) (p2 q).
Variables (m o : path) (module_nodes : dict path (list stmt)) (module_kinds : dict path node_kind).
Hypothesis nodes_of_module : dget m (stub_nodes stubs) = Some module_nodes.
Hypothesis kinds_of_module : dget m (stub_kinds stubs) = Some module_kinds.
Hypothesis is_class : dget o module_kinds = Some CLASS.
Hypothesis Hn : forall q, needed (m, o) q -> same n (p1 q) (p2 q).
Lemma same_dependencies names : (forall x q, In x names -> resolve stubs m o [x] = Ok q -> needed (m, o) q) ->
  forall md, same n (evaluate_dependencies stubs p1 m o names md) (evaluate_dependencies stubs p2 m o names md).
Proof.
  induction names as [|x r IH]; intros H md; cbn [evaluate_dependencies]; [apply same_ret|].
  assert (H' : forall x q, In x r -> resolve stubs m o [x] = Ok q -> needed (m, o) q) by (intros; eapply H; [right|]; eassumption).
  destruct (resolve stubs m o [x]) as [q|e] eqn:E; [|apply same_ret]. destruct (fst q == builtins_path); [now apply IH|].
  apply same_bind; [apply same_inside, Hn, (H x q); [now left|exact E]|]. intros y. now apply IH.
Qed.
Lemma same_definitions x ns ds : dget (o ++ [x]) module_nodes = Some ns -> (forall s, In s ds -> In s ns /\ annotation_of s = None) ->
  forall last cls md, same n (evaluate_definitions py stubs p1 m o ds last cls md) (evaluate_definitions py stubs p2 m o ds last cls md).
Proof.
  intros N. induction ds as [|s r IH]; intros H last cls md; cbn [evaluate_definitions]; [apply same_ret|].
  destruct (H s (or_introl eq_refl)) as (I & A).
  apply same_bind.
  - apply same_dependencies. intros name q J R. right. exists module_nodes, x, ns, s, name. cbn [fst snd].
    split; [exact nodes_of_module|]. split; [exact N|]. split; [exact I|]. split; [exact A|]. split; [now apply In_dedupe|exact R].
  - intros md'. apply same_bind.
    + apply same_inside. pose proof (same_statement n p1 p2 m (o ++ [x]) module_nodes ns s nodes_of_module N I Hp) as S. rewrite removelast_last in S. exact S.
    + intros v. apply IH. intros s' J. apply H. now right.
Qed.
Lemma same_fields names : forall cls md, same n (evaluate_fields py stubs p1 m o module_nodes names cls md) (evaluate_fields py stubs p2 m o module_nodes names cls md).
Proof.
  induction names as [|x r IH]; intros cls md; cbn [evaluate_fields]; [apply same_ret|].
  unfold fetch. destruct (dget (o ++ [x]) module_nodes) as [ns|] eqn:E; [|apply same_ret].
  apply same_bind.
  - apply (same_definitions x ns); [exact E|]. intros s I. unfold definitions_nodes in I. apply filter_In in I. destruct I as (I & A). split; [exact I|].
    now destruct (annotation_of s).
  - intros v. apply same_bind; [apply IH|]. intros rest. apply same_ret.
Qed.
Lemma same_evaluated_paths qs : (forall q, In q qs -> needed (m, o) q) -> same n (evaluate_paths p1 qs) (evaluate_paths p2 qs).
Proof.
  induction qs as [|q r IH]; intros H; cbn [evaluate_paths]; [apply same_ret|].
  apply same_bind; [apply Hn, H; now left|]. intros v. apply same_bind; [apply IH; intros; apply H; now right|]. intros vs. apply same_ret.
Qed.
Lemma same_annotations k l : k < n -> same k (evaluate_annotations py stubs p1 m o l) (evaluate_annotations py stubs p2 m o l).
Proof.
  intros K. induction l as [|[x e] r IH]; cbn [evaluate_annotations]; [apply same_ret|].
  apply same_bind; [apply same_expression; intros q; now apply Hp|]. intros v. apply same_bind; [exact IH|]. intros vs. apply same_ret.
Qed.
Lemma same_class c : measure c <= n -> dget (m, o) (classes c) = None ->
  evaluate_class py stubs p1 m o module_nodes c = evaluate_class py stubs p2 m o module_nodes c /\ le c (fst (evaluate_class py stubs p1 m o module_nodes c)).
Proof.
  intros L D. unfold evaluate_class. destruct (let* s := fetch m (stub_definitions stubs) in scope_at s o) as [s|e]; [|split; [reflexivity|apply le_refl]].
  destruct (same_fields (dkeys (entries s)) [($"__module__", module_name py)] [($"__name__", module_name py)] c L) as [E1 I1]. rewrite <- E1.
  destruct (evaluate_fields py stubs p1 m o module_nodes (dkeys (entries s)) [($"__module__", module_name py)] [($"__name__", module_name py)] c) as [c1 [fields|e]];
    cbn [ebind fst] in I1 |- *; [|split; [reflexivity|exact I1]].
  pose proof (measure_le _ _ I1) as M1.
  destruct (same_inside n [snd (fst fields)] _ _ (same_evaluated_paths (dget_or o [] (dget_or m [] (stub_superclasses stubs))) (fun q I => or_introl I)) c1 ltac:(lia)) as [E2 I2].
  rewrite <- E2. destruct (inside [snd (fst fields)] (evaluate_paths p1 (dget_or o [] (dget_or m [] (stub_superclasses stubs)))) c1) as [c2 [bases|e]];
    cbn [ebind fst] in I2 |- *; pose proof (le_trans _ _ _ I1 I2) as I; [|split; [reflexivity|exact I]].
  destruct (new_class py (path_to_string o) (fst bases) (with_annotations py (snd fields) (fst (fst fields)))) as [v|e]; [|split; [reflexivity|exact I]].
  cbv zeta. set (c3 := bind_name (last o []) v (with_class (m, o) v c2)).
  assert (I3 : le c c3) by (eapply le_trans; [exact I|]; eapply le_trans; [apply (le_with_class (m, o) v)|apply le_bind_name]).
  assert (M3 : measure c3 < measure c).
  { apply (measure_lt_class c c3 (m, o) I3); [eapply in_class_universe; eassumption|exact D|].
    change (dget (m, o) (dset (m, o) v (classes c2)) <> None). rewrite dget_dset, eqb_refl. discriminate. }
  destruct (same_annotations (measure c3) (snd fields) ltac:(lia) c3 ltac:(lia)) as [E4 I4]. rewrite <- E4.
  destruct (evaluate_annotations py stubs p1 m o (snd fields) c3) as [c4 [values|e]]; cbn [ebind fst] in I4 |- *; [|split; [reflexivity|eapply le_trans; eassumption]].
  split; [reflexivity|]. eapply le_trans; [exact I3|]. eapply le_trans; [exact I4|]. eapply le_trans; [apply le_annotate|apply le_with_global].
Qed.
End Classes.

(** How much fuel is enough: the ranks of classes are at most [highest]. *)
Definition highest : nat := list_max (map rank class_universe).
Lemma rank_highest q : unimported_class q -> rank q <= highest.
Proof.
  intros (_ & kinds & K1 & K2). unfold highest. pose proof (proj1 (list_max_le (map rank class_universe) _) (Nat.le_refl _)) as F. rewrite Forall_forall in F.
  apply F. apply in_map. destruct q. eapply in_class_universe; eassumption.
Qed.
Definition enough (n : nat) (q : qualified_path) (f : nat) : Prop := n * (highest + 3) < f /\ (unimported_class q -> n * (highest + 3) + S (rank q) < f).
Lemma same_path n : forall f1 f2 q, enough n q f1 -> enough n q f2 ->
  same n (evaluate_qualified_path py stubs f1 q) (evaluate_qualified_path py stubs f2 q).
Proof.
  induction n as [n IH] using (well_founded_induction Wf_nat.lt_wf). intros f1. induction f1 as [|f1 IHf]; intros [|f2] q [L1 L1c] [L2 L2c]; try lia.
  cbn [evaluate_qualified_path].
  assert (Hp : forall k q, k < n -> same k (evaluate_qualified_path py stubs f1 q) (evaluate_qualified_path py stubs f2 q)).
  { intros k q' Lk. assert (B : k * (highest + 3) + (highest + 3) <= n * (highest + 3)) by (replace (k * (highest + 3) + (highest + 3)) with (S k * (highest + 3)) by lia; apply Nat.mul_le_mono_r; lia).
    apply IH; [exact Lk| |]; (split; [lia|intros U; pose proof (rank_highest q' U); lia]). }
  assert (Ob : import_object py q = NotImportable \/ import_object py q = NotThere ->
               same n (evaluate_object py stubs (evaluate_qualified_path py stubs f1) (fst q) (snd q))
                      (evaluate_object py stubs (evaluate_qualified_path py stubs f2) (fst q) (snd q))).
  { intros NI c L. unfold evaluate_object. destruct (dget (fst q, snd q) (classes c)) eqn:D; [split; [reflexivity|apply le_refl]|].
    unfold fetch. destruct (dget (fst q) (stub_nodes stubs)) as [module_nodes|] eqn:E1; cbn [bind_res]; [|split; [reflexivity|apply le_refl]].
    destruct (dget (fst q) (stub_kinds stubs)) as [module_kinds|] eqn:E2; cbn [bind_res]; [|split; [reflexivity|apply le_refl]].
    destruct (dget (snd q) module_kinds) as [kind|] eqn:E3; cbn [bind_res]; [|split; [reflexivity|apply le_refl]].
    destruct (is_CLASS kind) eqn:K.
    { destruct kind; try discriminate.
      assert (U : unimported_class q) by (split; [intros v X; destruct NI as [NI|NI]; congruence|exists module_kinds; auto]).
      apply (same_class n _ _ Hp (fst q) (snd q) module_nodes module_kinds E1 E2 E3); [|exact L|exact D].
      intros q' N. rewrite <- surjective_pairing in N. pose proof (L1c U). pose proof (L2c U).
      apply IHf; (split; [lia|intros U'; pose proof (ranked q q' U U' N); lia]). }
    destruct (dget (snd q) module_nodes) as [ns|] eqn:E4; [|split; [reflexivity|apply le_refl]].
    eapply same_nodes; eauto. }
  destruct (import_object py q) as [| |v] eqn:I; [|apply Ob; auto|apply same_ret].
  destruct (is_nil (snd q)); [|apply Ob; auto].
  intros c L. unfold evaluate_module. destruct (dget (fst q) (modules c)) eqn:M; [split; [reflexivity|apply le_refl]|].
  unfold fetch. set (c1 := with_module (fst q) (new_module py (path_to_string (fst q))) c).
  assert (L1' : le c c1) by apply le_with_module.
  destruct (dget (fst q) (stub_definitions stubs)) as [sc|] eqn:D; [|split; [reflexivity|exact L1']].
  assert (Lt : measure c1 < measure c).
  { eapply measure_lt_module with (m := fst q); [exact L1'| | |apply made_with_module; auto].
    - apply dget_Some_In in D. apply in_map_iff. now exists (fst q, sc).
    - unfold made. now rewrite M. }
  pose proof (@same_bind _ _ (measure c1) _ _ (fun c (_ : unit) => (c, Ok (new_module py (path_to_string (fst q)))))
                (fun c (_ : unit) => (c, Ok (new_module py (path_to_string (fst q)))))
                (@same_module_fields (measure c1) _ _ (fun q => Hp (measure c1) q (Nat.lt_le_trans _ _ _ Lt L)) (fst q) (dkeys (entries sc)))) as B.
  destruct (B ltac:(intros a; apply same_ret) c1 ltac:(lia)) as [B1 B2].
  split; [exact B1|]. eapply le_trans; [exact L1'|exact B2].
Qed.
Lemma enough_for_all n q f : n * (highest + 3) + highest + 1 < f -> enough n q f.
Proof. intros L. split; [lia|]. intros U. pose proof (rank_highest q U). lia. Qed.
End Termination.
End Proofs.

(** ** Evaluation that only imports *)
Section Imports.
Context {V : Type}.
Variable py : python V.
Variable stubs : tables.
(** the memory is neither used nor changed *)
Definition steady {A} (f : memory V -> evaluated V A) : Prop := exists r, forall c, f c = (c, r).
Lemma steady_ret {A} (r : res A) : steady (fun c => (c, r)).
Proof. exists r. reflexivity. Qed.
Lemma steady_bind {A B} (f : memory V -> evaluated V A) (g : A -> memory V -> evaluated V B) :
  steady f -> (forall x, steady (g x)) -> steady (fun c => ebind (f c) (fun c x => g x c)).
Proof.
  intros [[x|e] F] G.
  - destruct (G x) as [r Gx]. exists r. intros c. rewrite F. cbn. apply Gx.
  - exists (Err e). intros c. now rewrite F.
Qed.
Variables m parent : path.
Notation importable := (importable py stubs m parent).
Variable fuel : nat.
Let p := evaluate_qualified_path py stubs (S fuel).
Lemma steady_resolved o : importable o -> steady (evaluate_resolved stubs p m parent o).
Proof.
  intros H. unfold evaluate_resolved. destruct (resolve stubs m parent o) as [q|e] eqn:R; [|apply steady_ret].
  destruct (H q R) as [v I]. exists (Ok v). intros c. unfold p. cbn [evaluate_qualified_path]. now rewrite I.
Qed.
Lemma steady_list f es : (forall e, In e es -> steady (f e)) -> steady (evaluate_list (V:=V) f es).
Proof.
  induction es as [|e r IH]; intros H; cbn [evaluate_list]; [apply steady_ret|].
  apply steady_bind; [apply H; now left|]. intros v. apply steady_bind; [apply IH; intros; apply H; now right|].
  intros vs. apply steady_ret.
Qed.
Lemma steady_keywords f (ks : list (option pystr * expr)) :
  (forall k, In k ks -> steady (f (snd k))) -> steady (evaluate_keywords (V:=V) f ks).
Proof.
  induction ks as [|[k e] r IH]; intros H; cbn [evaluate_keywords]; [apply steady_ret|].
  apply steady_bind; [apply (H (k, e)); now left|]. intros v. apply steady_bind; [apply IH; intros; apply H; now right|].
  intros vs. apply steady_ret.
Qed.
Lemma steady_items f (items : list (option expr * expr)) :
  (forall i, In i items -> (forall k, fst i = Some k -> steady (f k)) /\ steady (f (snd i))) -> steady (evaluate_items (V:=V) f items).
Proof.
  induction items as [|[[k|] e] r IH]; intros H; cbn [evaluate_items]; try apply steady_ret.
  destruct (H (Some k, e) (or_introl eq_refl)) as [Hk He]. apply steady_bind; [now apply Hk|]. intros w.
  apply steady_bind; [exact He|]. intros v. apply steady_bind; [apply IH; intros; apply H; now right|]. intros vs. apply steady_ret.
Qed.
Lemma dotted_to_path e o : dotted e o <-> to_path e = Ok o.
Proof.
  split.
  - induction 1 as [|e o a _ IH]; cbn [to_path]; [reflexivity|]. now rewrite IH.
  - revert o. induction e; intros o H; cbn [to_path] in H; try discriminate H.
    + injection H as <-. constructor.
    + destruct (to_path e) as [q|]; [|discriminate H]. cbn in H. injection H as <-. constructor. now apply IHe.
Qed.
Lemma steady_expression e : (forall o, mentions e o -> importable o) ->
  steady (evaluate_expression py stubs p m parent e).
Proof.
  induction e as [id|v a IH|v s IHv IHs|es IH|es IH|items IH|f es ks IHf IHes IHks|l o r IHl IHr|o e IH|k|es IH] using expr_ind';
    intros W; cbn [evaluate_expression].
  - apply steady_resolved, W. constructor. constructor.
  - apply steady_bind; [apply IH; intros; apply W; now constructor|]. intros x. destruct (getattr py x a) as [y|[]]; try apply steady_ret.
    destruct (to_path (Attribute v a)) eqn:T; [apply steady_resolved, W, mentions_dotted; now apply dotted_to_path|apply steady_ret].
  - apply steady_bind; [apply IHv; intros; apply W; now constructor|]. intros x.
    apply steady_bind; [apply IHs; intros; apply W; now apply mentions_slice|]. intros y.
    destruct (getitem py x y) as [z|[]]; apply steady_ret.
  - rewrite Forall_forall in IH. apply steady_bind; [apply steady_list; intros; apply IH; auto; intros; apply W; now econstructor; eauto|].
    intros vs. apply steady_ret.
  - rewrite Forall_forall in IH. apply steady_bind; [apply steady_list; intros; apply IH; auto; intros; apply W; now econstructor; eauto|].
    intros vs. apply steady_ret.
  - destruct (forallb _ items); [|apply steady_ret]. rewrite Forall_forall in IH.
    apply steady_bind; [|intros vs; apply steady_ret]. apply steady_items. intros [k e] I. destruct (IH _ I) as [Ik Ie]. cbn [fst snd] in *. split.
    + intros k' ->. apply Ik; [reflexivity|]. intros; apply W; eapply mentions_key; eauto.
    + apply Ie. intros; apply W; eapply mentions_entry; eauto.
  - rewrite Forall_forall in IHes, IHks.
    apply steady_bind; [apply steady_list; intros; apply IHes; auto; intros; apply W; eapply mentions_argument; eauto|]. intros vs.
    apply steady_bind; [apply steady_keywords; intros [n e] I; apply (IHks (n, e) I); intros; apply W; eapply mentions_keyword; eauto|].
    intros kvs. apply steady_bind; [apply IHf; intros; apply W; now apply mentions_function|]. intros x. apply steady_ret.
  - apply steady_bind; [apply IHl; intros; apply W; now apply mentions_left|]. intros x.
    apply steady_bind; [apply IHr; intros; apply W; now apply mentions_right|]. intros y.
    destruct (apply_binary py o x y) as [z|[]]; try apply steady_ret. destruct o; apply steady_ret.
  - destruct o; [| |apply steady_ret]; (apply steady_bind; [apply IH; intros; apply W; now apply mentions_operand|]; intros x; apply steady_ret).
  - apply steady_ret.
  - apply steady_ret.
Qed.

(** ** The value is the one the expression means *)
Notation imported := (imported py stubs m parent).
Notation ev := (evaluate_expression py stubs p m parent).
Lemma resolved_means o v c c' : importable o -> evaluate_resolved stubs p m parent o c = (c', Ok v) <-> c' = c /\ imported o v.
Proof.
  intros K. unfold evaluate_resolved, SpecEvaluation.imported. destruct (resolve stubs m parent o) as [q|e] eqn:R.
  - destruct (K q R) as [w I]. unfold p. cbn [evaluate_qualified_path]. rewrite I. split.
    + intros H. inv H. eauto.
    + intros (-> & q' & Q & J). inv Q. congruence.
  - split; [discriminate|]. intros (_ & q & Q & _). discriminate Q.
Qed.
Definition agrees (e : expr) : Prop := forall c c' v, ev e c = (c', Ok v) <-> c' = c /\ means py imported e v.
Lemma list_agrees es : Forall agrees es ->
  forall c c' vs, evaluate_list ev es c = (c', Ok vs) <-> c' = c /\ means_all py imported es vs.
Proof.
  induction 1 as [|e r He Hr IH]; intros c c' vs; cbn [evaluate_list].
  - split; [intros X; inv X; split; [reflexivity|constructor]|intros (-> & X); now inv X].
  - destruct (ev e c) as [c1 [v|x]] eqn:Ev; cbn [ebind].
    + apply He in Ev as (-> & Mv). destruct (evaluate_list ev r c) as [c2 [ws|x]] eqn:El; cbn [ebind].
      * apply IH in El as (-> & Ms). split.
        -- intros X; inv X. split; [reflexivity|now constructor].
        -- intros (-> & X). inv X. f_equal. f_equal.
           match goal with A : means _ _ e ?u, B : means_all _ _ r ?us |- _ =>
             pose proof (proj2 (He c c u) (conj eq_refl A)) as A'; pose proof (proj2 (IH c c us) (conj eq_refl B)) as B' end.
           pose proof (proj2 (He c c v) (conj eq_refl Mv)) as A''. pose proof (proj2 (IH c c ws) (conj eq_refl Ms)) as B''. congruence.
      * split; [discriminate|]. intros (-> & X). inv X.
        match goal with B : means_all _ _ r ?us |- _ => pose proof (proj2 (IH c c us) (conj eq_refl B)) as B' end. congruence.
    + split; [discriminate|]. intros (-> & X). inv X.
      match goal with A : means _ _ e ?u |- _ => pose proof (proj2 (He c c u) (conj eq_refl A)) as A' end. congruence.
Qed.
Lemma keywords_agree (ks : list (option pystr * expr)) : Forall (fun k => agrees (snd k)) ks ->
  forall c c' vs, evaluate_keywords ev ks c = (c', Ok vs) <-> c' = c /\ means_keywords py imported ks vs.
Proof.
  induction 1 as [|[n e] r He Hr IH]; intros c c' vs; cbn [evaluate_keywords].
  - split; [intros X; inv X; split; [reflexivity|constructor]|intros (-> & X); now inv X].
  - cbn [snd] in He. destruct (ev e c) as [c1 [v|x]] eqn:Ev; cbn [ebind].
    + apply He in Ev as (-> & Mv). destruct (evaluate_keywords ev r c) as [c2 [ws|x]] eqn:El; cbn [ebind].
      * apply IH in El as (-> & Ms). split.
        -- intros X; inv X. split; [reflexivity|now constructor].
        -- intros (-> & X). inv X. f_equal. f_equal.
           match goal with A : means _ _ e ?u, B : means_keywords _ _ r ?us |- _ =>
             pose proof (proj2 (He c c u) (conj eq_refl A)) as A'; pose proof (proj2 (IH c c us) (conj eq_refl B)) as B' end.
           pose proof (proj2 (He c c v) (conj eq_refl Mv)) as A''. pose proof (proj2 (IH c c ws) (conj eq_refl Ms)) as B''. congruence.
      * split; [discriminate|]. intros (-> & X). inv X.
        match goal with B : means_keywords _ _ r ?us |- _ => pose proof (proj2 (IH c c us) (conj eq_refl B)) as B' end. congruence.
    + split; [discriminate|]. intros (-> & X). inv X.
      match goal with A : means _ _ e ?u |- _ => pose proof (proj2 (He c c u) (conj eq_refl A)) as A' end. congruence.
Qed.

Lemma items_agree (items : list (option expr * expr)) :
  Forall (fun i => (forall k, fst i = Some k -> agrees k) /\ agrees (snd i)) items ->
  forall c c' vs, evaluate_items ev items c = (c', Ok vs) <-> c' = c /\ means_items py imported items vs.
Proof.
  induction 1 as [|[[k|] e] r [Hk He] Hr IH]; intros c c' vs; cbn [evaluate_items].
  - split; [intros X; inv X; split; [reflexivity|constructor]|intros (-> & X); now inv X].
  - cbn [fst snd] in Hk, He. specialize (Hk k eq_refl). split.
    + destruct (ev k c) as [c1 [w|x]] eqn:Ek; cbn [ebind]; [|discriminate]. apply Hk in Ek as (-> & Mk).
      destruct (ev e c) as [c1 [v|x]] eqn:Ev; cbn [ebind]; [|discriminate]. apply He in Ev as (-> & Mv).
      destruct (evaluate_items ev r c) as [c2 [ws|x]] eqn:El; cbn [ebind]; [|discriminate]. apply IH in El as (-> & Ms).
      intros X; inv X. split; [reflexivity|now constructor].
    + intros (-> & X). inversion X as [|? ? ? w v ws Mk Mv Ms]; subst.
      rewrite (proj2 (Hk c c w) (conj eq_refl Mk)). cbn [ebind]. rewrite (proj2 (He c c v) (conj eq_refl Mv)). cbn [ebind].
      rewrite (proj2 (IH c c ws) (conj eq_refl Ms)). reflexivity.
  - split; [discriminate|]. intros (_ & X). inversion X.
Qed.

(** Replaces what is known to be meant by what is evaluated. *)
Ltac evaluated_as :=
  repeat match goal with
  | A : agrees ?e, B : means _ _ ?e ?v |- context [ev ?e ?c] => rewrite (proj2 (A c c v) (conj eq_refl B)); cbn [ebind]
  end.
Lemma expression_agrees e : (forall o, mentions e o -> importable o) -> agrees e.
Proof.
  induction e as [id|v a IH|v s IHv IHs|es IH|es IH|items IH|f es ks IHf IHes IHks|l o r IHl IHr|o e IH|k|es IH] using expr_ind';
    intros W; try (specialize (IH ltac:(intros; apply W; now constructor)));
    try (specialize (IHv ltac:(intros; apply W; now constructor)); specialize (IHs ltac:(intros; apply W; now apply mentions_slice)));
    try (specialize (IHl ltac:(intros; apply W; now constructor)); specialize (IHr ltac:(intros; apply W; now apply mentions_right)));
    try (specialize (IHf ltac:(intros; apply W; now constructor)));
    try (assert (IH' : Forall agrees es) by
           (rewrite Forall_forall in *; intros; apply IH; auto; intros; apply W; econstructor; eauto; fail); clear IH; rename IH' into IH);
    try (assert (IHes' : Forall agrees es) by
           (rewrite Forall_forall in *; intros; apply IHes; auto; intros; apply W; eapply mentions_argument; eauto);
         assert (IHks' : Forall (fun k => agrees (snd k)) ks) by
           (rewrite Forall_forall in *; intros [n e] I; apply (IHks (n, e) I); intros; apply W; eapply mentions_keyword; eauto);
         clear IHes IHks; rename IHes' into IHes; rename IHks' into IHks);
    try (assert (IH' : Forall (fun i => (forall k, fst i = Some k -> agrees k) /\ agrees (snd i)) items) by
           (rewrite Forall_forall in *; intros [k e] I; destruct (IH _ I) as [Ik Ie]; cbn [fst snd] in *; split;
            [intros k' ->; apply Ik; [reflexivity|]; intros; apply W; eapply mentions_key; eauto|apply Ie; intros; apply W; eapply mentions_entry; eauto]);
         clear IH; rename IH' into IH);
    intros c c' x; cbn [evaluate_expression].
  - rewrite resolved_means by (apply W; repeat constructor). split; intros (-> & H); (split; [reflexivity|]); [now constructor|now inv H].
  - split.
    + destruct (ev v c) as [c1 [y|e]] eqn:Ev; cbn [ebind]; [|discriminate]. apply IH in Ev as (-> & M).
      destruct (getattr py y a) as [w|e] eqn:G.
      * intros X; inv X. split; [reflexivity|]. eapply means_attribute; eauto.
      * destruct e; try discriminate. destruct (to_path (Attribute v a)) as [q|e] eqn:T; [|discriminate].
        intros X. apply resolved_means in X as (-> & N); [|apply W, mentions_dotted; now apply dotted_to_path]. split; [reflexivity|].
        eapply means_stub_attribute; eauto. now apply dotted_to_path.
    + intros (-> & H). inv H; evaluated_as.
      * match goal with G : getattr _ _ _ = _ |- _ => now rewrite G end.
      * match goal with G : getattr _ _ _ = _, D : dotted _ _ |- _ => rewrite G; pose proof D as D'; apply dotted_to_path in D'; rewrite D';
          apply resolved_means; [now apply W, mentions_dotted|auto] end.
  - split.
    + destruct (ev v c) as [c1 [y|e]] eqn:Ev; cbn [ebind]; [|discriminate]. apply IHv in Ev as (-> & M).
      destruct (ev s c) as [c1 [z|e]] eqn:Es; cbn [ebind]; [|discriminate]. apply IHs in Es as (-> & N).
      destruct (getitem py y z) as [w|e] eqn:G.
      * intros X; inv X. split; [reflexivity|]. eapply means_item; eauto.
      * destruct e; try discriminate. intros X; inv X. split; [reflexivity|]. eapply means_no_item; eauto.
    + intros (-> & H). inv H; evaluated_as; match goal with G : getitem _ _ _ = _ |- _ => now rewrite G end.
  - split.
    + destruct (evaluate_list ev es c) as [c1 [vs|e]] eqn:El; cbn [ebind]; [|discriminate].
      apply (list_agrees es IH) in El as (-> & M). intros X; inv X. split; [reflexivity|now constructor].
    + intros (-> & H). inv H. match goal with M : means_all _ _ _ ?vs |- _ => rewrite (proj2 (list_agrees es IH c c vs) (conj eq_refl M)) end.
      reflexivity.
  - split.
    + destruct (evaluate_list ev es c) as [c1 [vs|e]] eqn:El; cbn [ebind]; [|discriminate].
      apply (list_agrees es IH) in El as (-> & M). intros X; inv X. split; [reflexivity|now constructor].
    + intros (-> & H). inv H. match goal with M : means_all _ _ _ ?vs |- _ => rewrite (proj2 (list_agrees es IH c c vs) (conj eq_refl M)) end.
      reflexivity.
  - split.
    + destruct (forallb _ items); [|discriminate]. destruct (evaluate_items ev items c) as [c1 [vs|e]] eqn:El; cbn [ebind]; [|discriminate].
      apply (items_agree items IH) in El as (-> & M). intros X. injection X as <- X. split; [reflexivity|]. eapply means_dict; eauto.
    + intros (-> & H). inversion H as [| | | | | | | |? vs ? M D| | | |]; subst. rewrite (means_items_keys _ _ _ _ M).
      rewrite (proj2 (items_agree items IH c c vs) (conj eq_refl M)). cbn [ebind]. now rewrite D.
  - split.
    + destruct (evaluate_list ev es c) as [c1 [vs|e]] eqn:El; cbn [ebind]; [|discriminate].
      apply (list_agrees es IHes) in El as (-> & M).
      destruct (evaluate_keywords ev ks c) as [c1 [kvs|e]] eqn:Ek; cbn [ebind]; [|discriminate].
      apply (keywords_agree ks IHks) in Ek as (-> & N).
      destruct (ev f c) as [c1 [g|e]] eqn:Ef; cbn [ebind]; [|discriminate]. apply IHf in Ef as (-> & F).
      intros X. injection X as <- X. split; [reflexivity|]. eapply means_call; eauto.
    + intros (-> & H). inv H.
      match goal with M : means_all _ _ _ ?vs, N : means_keywords _ _ _ ?kvs |- _ =>
        rewrite (proj2 (list_agrees es IHes c c vs) (conj eq_refl M)); cbn [ebind];
        rewrite (proj2 (keywords_agree ks IHks c c kvs) (conj eq_refl N)); cbn [ebind] end.
      evaluated_as. match goal with G : call _ _ _ _ = _ |- _ => now rewrite G end.
  - split.
    + destruct (ev l c) as [c1 [y|e]] eqn:El; cbn [ebind]; [|discriminate]. apply IHl in El as (-> & M).
      destruct (ev r c) as [c1 [z|e]] eqn:Er; cbn [ebind]; [|discriminate]. apply IHr in Er as (-> & N).
      destruct (apply_binary py o y z) as [w|e] eqn:B.
      * intros X; inv X. split; [reflexivity|].
        assert (o <> OtherOperator) by (intros ->; discriminate B).
        eapply means_binary; eauto. now destruct o.
      * destruct e; try discriminate. destruct o; try discriminate. intros X. injection X as <- X. split; [reflexivity|].
        eapply means_union; eauto.
    + intros (-> & H). inv H; evaluated_as; unfold apply_binary; match goal with G : binary _ _ _ _ = _ |- _ => rewrite G end.
      * now destruct o.
      * match goal with G : union _ _ _ = _ |- _ => now rewrite G end.
  - split.
    + intros X. assert (N : o <> OtherUnary) by (intros ->; discriminate X). revert X.
      replace (match o with OtherUnary => (c, Err TypeError) | _ => ebind (ev e c) (fun c v => (c, apply_unary py o v)) end)
        with (ebind (ev e c) (fun c v => (c, apply_unary py o v))) by (now destruct o).
      destruct (ev e c) as [c1 [y|x']] eqn:Ev; cbn [ebind]; [|discriminate]. apply IH in Ev as (-> & M).
      intros X. injection X as <- X. split; [reflexivity|]. eapply means_unary; eauto. now destruct o.
    + intros (-> & H). inv H. evaluated_as. unfold apply_unary. match goal with G : unary _ _ _ = _ |- _ => rewrite G end. now destruct o.
  - split; [intros X; inv X; split; [reflexivity|constructor]|intros (-> & H); now inv H].
  - split; [discriminate|]. intros (_ & H). inv H.
Qed.
(** ** Classes of functions and annotations *)
Section Functions.
Variable own : list pystr.
Notation runs := (runs py stubs m parent own).
Notation provides := (provides py stubs m parent).
(** What dependencies are in *)
Definition good (md : dict pystr V) : Prop :=
  NoDup (dkeys md) /\ ~ In $"__builtins__" (dkeys md) /\ forall name w, dget name md = Some w -> name <> $"__name__" ->
    exists q, resolve stubs m parent [name] = Ok q /\ fst q <> builtins_path /\ import_object py q = Imported w.
Lemma with_names_back ns (c : memory V) : with_names (names c) (with_names ns c) = c.
Proof. now destruct c. Qed.
Lemma In_dset (n k : pystr) (v : V) d : In n (dkeys (dset k v d)) -> n = k \/ In n (dkeys d).
Proof. rewrite dkeys_dset. destruct (dmem k d); [tauto|]. intros H. apply in_app_or in H as [H|[->|[]]]; tauto. Qed.
Lemma dependencies_ok names c : forall md, good md -> (forall name, In name names -> (exists w, imported [name] w) /\ name <> $"__builtins__") ->
  exists md', evaluate_dependencies stubs p m parent names md c = (c, Ok md') /\ good md'
    /\ (forall name, dget name md <> None -> dget name md' <> None)
    /\ (forall name q, In name names -> resolve stubs m parent [name] = Ok q -> fst q <> builtins_path -> dget name md' <> None).
Proof.
  induction names as [|n r IH]; intros md G H; cbn [evaluate_dependencies]; [exists md; repeat split; try apply G; auto; easy|].
  destruct (H n (or_introl eq_refl)) as ((v & q & Q & I) & NB). rewrite Q.
  destruct (eqb_reflect (fst q) builtins_path) as [B|B].
  - destruct (IH md G) as (md' & E & G' & K & N); [intros; apply H; now right|]. exists md'. repeat split; try apply G'; auto.
    intros name q' [<-|X] Q' B'; [congruence|]. eauto.
  - unfold inside, p at 1. cbn [evaluate_qualified_path]. rewrite I. cbn [ebind fst snd hd with_names names]. rewrite with_names_back.
    destruct (IH (dset n v md)) as (md' & E & G' & K & N).
    + destruct G as (ND & B' & G). split; [now apply NoDup_dset|]. split; [intros X; apply In_dset in X as [X|X]; [now symmetry in X|contradiction]|].
      intros name w. rewrite dget_dset.
      destruct (eqb_reflect name n) as [->|_]; [|apply G]. intros X _. inv X. eauto.
    + intros; apply H; now right.
    + exists md'. repeat split; try apply G'; auto.
      * intros name X. apply K. rewrite dget_dset. now destruct (name == n).
      * intros name q' [<-|X] Q' B'; [|eauto]. apply K. rewrite dget_dset, eqb_refl. easy.
Qed.
Lemma dget_update (d : dict pystr V) : forall n all, ~ In n (dkeys d) ->
  dget n (fold_left (fun all kv => dset (fst kv) (snd kv) all) d all) = dget n all.
Proof.
  induction d as [|[k v] r IH]; intros n all H; [reflexivity|]. cbn [fold_left fst snd]. cbn in H.
  rewrite IH by tauto. rewrite dget_dset. destruct (eqb_reflect n k) as [->|_]; tauto.
Qed.
Lemma dget_updated (d : dict pystr V) : forall n v all, NoDup (dkeys d) -> dget n d = Some v ->
  dget n (fold_left (fun all kv => dset (fst kv) (snd kv) all) d all) = Some v.
Proof.
  induction d as [|[k w] r IH]; intros n v all ND; [discriminate|]. cbn in ND. inv ND. cbn [fold_left fst snd].
  change (dget n ((k, w) :: r)) with (if n == k then Some w else dget n r). destruct (eqb_reflect n k) as [->|_].
  - intros X. inv X. rewrite dget_update by assumption. now rewrite dget_dset, eqb_refl.
  - intros X. now apply IH.
Qed.
Lemma merged_get n (cls md : dict pystr V) : ~ In n (dkeys cls) -> NoDup (dkeys md) -> dget n (merged [cls; md]) = dget n md.
Proof.
  intros A B. cbn [merged]. rewrite dget_update by assumption. destruct (dget n md) as [v|] eqn:E.
  - now apply dget_updated.
  - rewrite dget_update; [reflexivity|]. now apply dget_None.
Qed.
Lemma NoDup_updated (d : dict pystr V) : forall all, NoDup (dkeys all) -> NoDup (dkeys (fold_left (fun all kv => dset (fst kv) (snd kv) all) d all)).
Proof. induction d as [|kv d IH]; intros all N; [exact N|]. cbn [fold_left]. now apply IH, NoDup_dset. Qed.
Lemma In_updated (d : dict pystr V) n : forall all, In n (dkeys (fold_left (fun all kv => dset (fst kv) (snd kv) all) d all)) ->
  In n (dkeys d) \/ In n (dkeys all).
Proof.
  induction d as [|[k v] d IH]; intros all I; [now right|]. cbn [fold_left fst snd] in I. apply IH in I as [I|I]; [left; now right|].
  apply In_dset in I as [->|I]; [left; now left|now right].
Qed.
Definition within (cls : dict pystr V) : Prop := forall n, In n (dkeys cls) -> In n ($"__module__" :: own).
Lemma at_once_names s f n : s = SFunctionDef f \/ s = SAsyncFunctionDef f -> looked_up_at_once n s <-> In n (lazy_names s).
Proof.
  intros S. assert (E : lazy_names s = flat_map names_opt (kw_defaults (fd_args f)) ++ flat_map names_in (defaults (fd_args f))
      ++ flat_map names_in (fd_decorators f)) by now destruct S as [->| ->].
  rewrite E, !in_app_iff, !in_flat_map. clear E. split.
  - intros (f' & e & S' & O & I). assert (f' = f) as -> by (destruct S as [->| ->], S' as [S'|S']; congruence).
    apply StubsProofs.occurs_names in O. destruct I as [I|[I|I]]; eauto.
  - intros [(o & I & O)|[(e & I & O)|(e & I & O)]].
    + destruct o as [e|]; [|destruct O]. exists f, e. apply StubsProofs.occurs_names in O. auto.
    + exists f, e. apply StubsProofs.occurs_names in O. auto.
    + exists f, e. apply StubsProofs.occurs_names in O. auto.
Qed.
Lemma provided s cls md : (exists f, s = SFunctionDef f \/ s = SAsyncFunctionDef f) ->
  (forall n, looked_up_at_once n s -> (exists w, imported [n] w) /\ ~ In n ($"__module__" :: $"__name__" :: $"__builtins__" :: own)) ->
  ~ In $"__builtins__" own -> good md -> within cls ->
  (forall n q, In n (dedupe (lazy_names s)) -> resolve stubs m parent [n] = Ok q -> fst q <> builtins_path -> dget n md <> None) ->
  provides s (merged [cls; md]).
Proof.
  intros [f S] D OB G' W N. split; [|split].
  { cbn [merged]. apply NoDup_updated, NoDup_updated. constructor. }
  { intros X. cbn [merged] in X. apply In_updated in X as [X|X]; [apply W in X as [X|X]; [discriminate X|contradiction]|].
    apply In_updated in X as [X|[]]. now apply G' in X. }
  intros n Hn. destruct (D n Hn) as [(w & q & Q & I) O]. exists q, w. split; [exact Q|]. split; [exact I|].
  rewrite merged_get; [|intros X; apply W in X; cbn in O, X; tauto|apply G'].
  destruct (eqb_reflect (fst q) builtins_path) as [B|B]; [left|right]; (split; [exact B|]);
    destruct (dget n md) as [w'|] eqn:X.
  - exfalso. apply G' in X as (q' & Q' & B' & _); [congruence|]. intros ->. apply O. cbn. tauto.
  - reflexivity.
  - apply G' in X as (q' & Q' & B' & I'); [congruence|]. intros ->. apply O. cbn. tauto.
  - exfalso. eapply N; eauto. apply In_dedupe. now apply (@at_once_names s f).
Qed.
Lemma run_ok name s v last r cls md c : runs name s v -> good md -> within cls -> exists md', good md' /\
  evaluate_definitions py stubs p m parent (s :: r) last cls md c
  = evaluate_definitions py stubs p m parent r (Some v) (dset name v cls) md' c.
Proof.
  intros (f & S & <- & D & OB & E) G W. cbn [evaluate_definitions].
  destruct (dependencies_ok (dedupe (lazy_names s)) c md G) as (md' & Ev & G' & _ & N).
  { intros n Hn. apply In_dedupe, (@at_once_names s f n S) in Hn. destruct (D n Hn) as [I O]. split; [exact I|]. intros ->. apply O. cbn. tauto. }
  exists md'. split; [exact G'|]. rewrite Ev. cbn [ebind]. unfold inside.
  assert (P : provides s (merged [cls; md'])) by (apply provided; eauto).
  apply E in P. destruct S as [->| ->]; cbn [evaluate_statement names with_names]; rewrite P;
    cbn [ebind fst snd nth bind_name set_name names with_names aliases classes modules globals]; destruct c; reflexivity.
Qed.
Lemma annotation_spec s : is_annotation s <-> exists a, annotation_of s = Some a.
Proof.
  split.
  - intros (t & a & ->). now exists a.
  - intros [a A]. destruct s as [t a' [v|]| | | | | | | |]; try discriminate A. now exists t, a'.
Qed.
Lemma runs_not_annotation name s v : runs name s v -> annotation_of s = None.
Proof. now intros (f & [->| ->] & _). Qed.
Lemma definitions_annotations ns : (forall s, In s ns -> is_annotation s) -> definitions_nodes ns = [].
Proof.
  induction ns as [|s r IH]; intros H; [reflexivity|]. unfold definitions_nodes. cbn [filter].
  destruct (proj1 (annotation_spec s) (H s (or_introl eq_refl))) as [a ->]. apply IH. intros; apply H; now right.
Qed.
Lemma dset_twice (k : pystr) (v w : V) (d : dict pystr V) : dset k v (dset k w d) = dset k v d.
Proof.
  induction d as [|[k0 v0] r IH]; [change (dset k v [(k, w)] = [(k, v)]); change (dset k v [(k, w)]) with (if k == k then [(k, v)] else (k, w) :: dset k v []); now rewrite eqb_refl|].
  change (dset k w ((k0, v0) :: r)) with (if k == k0 then (k0, w) :: r else (k0, v0) :: dset k w r).
  change (dset k v ((k0, v0) :: r)) with (if k == k0 then (k0, v) :: r else (k0, v0) :: dset k v r).
  destruct (k == k0) eqn:E.
  - change (dset k v ((k0, w) :: r)) with (if k == k0 then (k0, v) :: r else (k0, w) :: dset k v r). now rewrite E.
  - change (dset k v ((k0, v0) :: dset k w r)) with (if k == k0 then (k0, v) :: dset k w r else (k0, v0) :: dset k v (dset k w r)).
    now rewrite E, IH.
Qed.
Lemma dset_absent (k : pystr) (v : V) (d : dict pystr V) : ~ In k (dkeys d) -> dset k v d = d ++ [(k, v)].
Proof.
  induction d as [|[k0 v0] r IH]; intros H; [reflexivity|].
  change (dset k v ((k0, v0) :: r)) with (if k == k0 then (k0, v) :: r else (k0, v0) :: dset k v r). cbn in H.
  destruct (eqb_reflect k k0) as [->|_]; [tauto|]. cbn [app]. now rewrite IH by tauto.
Qed.
Lemma within_dset name v cls : In name own -> within cls -> within (dset name v cls).
Proof. intros I W n. intros H. apply In_dset in H as [->|H]; [now right|]. now apply W. Qed.
Lemma definitions_last name before s after v : forall last cls md c, In name own -> good md -> within cls ->
  runs name s v -> (forall s', In s' before -> is_annotation s' \/ exists v', runs name s' v') -> (forall s', In s' after -> is_annotation s') ->
  exists md', good md' /\
  evaluate_definitions py stubs p m parent (definitions_nodes (before ++ s :: after)) last cls md c = (c, Ok (Some v, (dset name v cls, md'))).
Proof.
  induction before as [|x r IH]; intros last cls md c O G W R B A.
  - cbn [app]. unfold definitions_nodes. cbn [filter]. rewrite (runs_not_annotation name s v R).
    replace (filter _ after) with (@nil stmt) by (symmetry; now apply definitions_annotations).
    destruct (run_ok name s v last [] cls md c R G W) as (md' & G' & E). exists md'. split; [exact G'|]. now rewrite E.
  - cbn [app]. unfold definitions_nodes. cbn [filter]. fold (definitions_nodes (r ++ s :: after)).
    destruct (B x (or_introl eq_refl)) as [X|[v' X]].
    + apply annotation_spec in X as [a ->]. apply IH; auto. intros; apply B; now right.
    + rewrite (runs_not_annotation name x v' X).
      destruct (run_ok name x v' last (definitions_nodes (r ++ s :: after)) cls md c X G W) as (md' & G' & E). rewrite E.
      destruct (IH (Some v') (dset name v' cls) md' c O G' (within_dset _ _ _ O W) R) as (md'' & G'' & E'); auto.
      { intros; apply B; now right. }
      exists md''. split; [exact G''|]. rewrite E'. now rewrite dset_twice.
Qed.
(** Assignments *)
Notation assigns := (assigns py stubs m parent).
Definition remember (assigned : list (pystr * V)) (c : memory V) : memory V :=
  mk_memory (fold_left (fun d nv => dset (m, parent ++ [fst nv]) (snd nv) d) assigned (aliases c)) (classes c) (modules c) (names c) (globals c) (attributes c) (annotations c) (new_classes c).
Lemma dset_again {K A} `{Eqb K} (k : K) (v w : A) (d : dict K A) : dset k v (dset k w d) = dset k v d.
Proof.
  induction d as [|[k0 v0] r IH]; [change ((if k == k then [(k, v)] else (k, w) :: dset k v []) = [(k, v)]); now rewrite eqb_refl|].
  change (dset k w ((k0, v0) :: r)) with (if k == k0 then (k0, w) :: r else (k0, v0) :: dset k w r).
  change (dset k v ((k0, v0) :: r)) with (if k == k0 then (k0, v) :: r else (k0, v0) :: dset k v r).
  destruct (k == k0) eqn:E.
  - change (dset k v ((k0, w) :: r)) with (if k == k0 then (k0, v) :: r else (k0, w) :: dset k v r). now rewrite E.
  - change (dset k v ((k0, v0) :: dset k w r)) with (if k == k0 then (k0, v) :: dset k w r else (k0, v0) :: dset k v (dset k w r)).
    now rewrite E, IH.
Qed.
Lemma used_names s name e n : s = SAssign [Name name] e \/ (exists a, s = SAnnAssign (Name name) a (Some e)) ->
  In n (lazy_names s) -> used_by_assignment n s.
Proof.
  intros [->|[a ->]]; cbn [lazy_names names_stmt names_opt].
  - intros I. exists (Name name), e. split; [now apply StubsProofs.occurs_names|auto].
  - intros I. apply in_app_or in I as [I|I]; apply StubsProofs.occurs_names in I.
    + exists (Name name), a. split; [exact I|]. right. right. eauto.
    + exists (Name name), e. split; [exact I|]. right. left. eauto.
Qed.
Lemma assigned_ok name s v last cls md c : assigns name s v -> good md ->
  dget (m, parent ++ [name]) (aliases c) = None \/ dget (m, parent ++ [name]) (aliases c) = Some v ->
  exists md', good md' /\
  evaluate_definitions py stubs p m parent [s] last cls md c = (remember [(name, v)] c, Ok (Some v, (cls, md'))).
Proof.
  intros (e & S & R & U & I & M) G N. cbn [evaluate_definitions].
  destruct (dependencies_ok (dedupe (lazy_names s)) c md G) as (md' & Ev & G' & _ & _).
  { intros n Hn. apply -> In_dedupe in Hn. apply U. exact (@used_names s name e n S Hn). }
  exists md'. split; [exact G'|]. rewrite Ev. cbn [ebind]. unfold inside.
  assert (E : evaluate_statement py stubs p m parent s (with_names [cls; md'] c)
              = (with_names [cls; md'] (remember [(name, v)] c), Ok v)).
  { replace (evaluate_statement py stubs p m parent s (with_names [cls; md'] c))
      with (evaluate_assignment py stubs p m parent s (Some e) (with_names [cls; md'] c)) by (now destruct S as [->|[a ->]]).
    unfold evaluate_assignment.
    replace (targets_paths stubs m parent s) with (Ok [(m, parent ++ [name])])
      by (unfold targets_paths; destruct S as [->|[a ->]]; cbn [to_names map_m target_name bind_res]; now rewrite R).
    cbn [search_cache]. change (aliases (with_names [cls; md'] c)) with (aliases c).
    destruct N as [N|N];
      [|match goal with |- context [match ?x with Some _ => (_, Some _) | None => _ end] => replace x with (Some v) by (symmetry; exact N) end; reflexivity].
    match goal with |- context [match ?x with Some _ => (_, Some _) | None => _ end] => replace x with (@None V) by (symmetry; exact N) end.
    rewrite (proj2 (expression_agrees e I _ _ v) (conj eq_refl M)). cbn [ebind store fold_left].
    unfold with_alias, remember. cbn [aliases classes modules names globals with_names fold_left fst snd]. now rewrite dset_again. }
  rewrite E. cbn [ebind fst snd nth names with_names remember]. now destruct c.
Qed.
Lemma assigns_not_annotation name s v : assigns name s v -> annotation_of s = None.
Proof. now intros (e & [->|[a ->]] & _). Qed.
Lemma definitions_one before s after : annotation_of s = None -> (forall s', In s' (before ++ after) -> is_annotation s') ->
  definitions_nodes (before ++ s :: after) = [s].
Proof.
  intros N A. unfold definitions_nodes. rewrite filter_app. cbn [filter]. rewrite N.
  change (definitions_nodes before ++ s :: definitions_nodes after = [s]).
  rewrite !definitions_annotations; [reflexivity| |]; intros s' I; apply A, in_or_app; auto.
Qed.
Variable module_nodes : dict path (list stmt).
Lemma fields_ok names ns assigned : class_namespace (fun name => dget (parent ++ [name]) module_nodes) runs assigns names ns assigned ->
  forall cls md c, good md -> within cls -> incl names own -> NoDup names -> (forall name, In name names -> ~ In name (dkeys cls)) ->
  (forall name w, In (name, w) assigned ->
     dget (m, parent ++ [name]) (aliases c) = None \/ dget (m, parent ++ [name]) (aliases c) = Some w) ->
  exists annotations md', evaluate_fields py stubs p m parent module_nodes names cls md c = (remember assigned c, Ok ((cls ++ ns, md'), annotations)) /\
    (annotations = [] <-> forall name nodes s, In name names -> dget (parent ++ [name]) module_nodes = Some nodes -> In s nodes -> ~ is_annotation s) /\
    forall name a, In (name, a) annotations ->
      exists nodes t, In name names /\ dget (parent ++ [name]) module_nodes = Some nodes /\ In (SAnnAssign t a None) nodes.
Proof.
  assert (L : forall nodes a, last_annotation nodes = Some a -> exists t, In (SAnnAssign t a None) nodes).
  { induction nodes as [|s r IH]; cbn [last_annotation]; [easy|]. intros a. destruct (last_annotation r) as [b|].
    - intros X; inv X. destruct (IH a eq_refl) as [t T]. exists t. now right.
    - intros X. destruct s as [t a' [v|]| | | | | | | |]; try discriminate X. inv X. exists t. now left. }
  assert (L0 : forall nodes, last_annotation nodes = None -> forall s, In s nodes -> ~ is_annotation s).
  { induction nodes as [|s r IH]; cbn [last_annotation]; [easy|]. destruct (last_annotation r) as [b|]; [easy|].
    intros X s' [<-|I]; [|now apply IH]. intros Y. apply annotation_spec in Y as [a Y]. congruence. }
  assert (Nil : forall name nodes names (annotations : list (pystr * expr)), dget (parent ++ [name]) module_nodes = Some nodes ->
    (annotations = [] <-> forall name nodes s, In name names -> dget (parent ++ [name]) module_nodes = Some nodes -> In s nodes -> ~ is_annotation s) ->
    ((match last_annotation nodes with Some a => (name, a) :: annotations | None => annotations end) = [] <->
     forall n nodes s, In n (name :: names) -> dget (parent ++ [n]) module_nodes = Some nodes -> In s nodes -> ~ is_annotation s)).
  { intros name nodes fs annotations N Z. destruct (last_annotation nodes) as [a|] eqn:LA.
    - split; [discriminate|]. intros H. exfalso. destruct (L _ _ LA) as [t T]. eapply (H name nodes); eauto; [now left|]. now exists t, a.
    - rewrite Z. split.
      + intros H n nodes' s [<-|I] N' I'; [rewrite N in N'; inv N'; eapply L0; eauto|eauto].
      + intros H n nodes' s I. apply H. now right. }
  assert (Ann : forall name nodes names (annotations : list (pystr * expr)), dget (parent ++ [name]) module_nodes = Some nodes ->
    (forall name a, In (name, a) annotations ->
      exists nodes t, In name names /\ dget (parent ++ [name]) module_nodes = Some nodes /\ In (SAnnAssign t a None) nodes) ->
    forall n a, In (n, a) (match last_annotation nodes with Some a => (name, a) :: annotations | None => annotations end) ->
      exists nodes t, In n (name :: names) /\ dget (parent ++ [n]) module_nodes = Some nodes /\ In (SAnnAssign t a None) nodes).
  { intros name nodes fs annotations N W n a I. destruct (last_annotation nodes) as [b|] eqn:LA.
    - destruct I as [X|I].
      + inv X. destruct (L _ _ LA) as [t T]. exists nodes, t. repeat split; auto. now left.
      + destruct (W _ _ I) as (nodes' & t & X & Y & Z). exists nodes', t. repeat split; auto. now right.
    - destruct (W _ _ I) as (nodes' & t & X & Y & Z). exists nodes', t. repeat split; auto. now right. }
  intros CN. assert (Keys : forall names ns assigned,
    class_namespace (fun name => dget (parent ++ [name]) module_nodes) runs assigns names ns assigned -> incl (dkeys assigned) names).
  { clear. induction 1 as [|name fs nodes ns assigned _ _ _ IH|name fs before s after v ns assigned _ _ _ _ _ _ IH|
      name fs before s after v ns assigned _ _ _ _ _ IH]; [easy| | |].
    - intros x H. right. now apply IH. - intros x H. right. now apply IH.
    - intros x [<-|H]; [now left|]. right. now apply IH. }
  induction CN as [|name names nodes ns assigned N A _ IH|name names before s after v ns assigned N R NA B A _ IH|
                   name names before s after v ns assigned N R NA A CN IH]; intros cls md c G W O ND D F.
  - exists [], md. rewrite app_nil_r. split; [now destruct c|]. split; [|easy]. split; [easy|reflexivity].
  - inv ND. destruct (IH cls md c G W) as (annotations & md' & E & Z & I); auto.
    { intros x Hx. apply O. now right. } { intros; apply D; now right. }
    exists (match last_annotation nodes with Some a => (name, a) :: annotations | None => annotations end), md'.
    cbn [evaluate_fields]. unfold fetch. rewrite N, definitions_annotations by exact A.
    cbn [evaluate_definitions ebind fst snd]. rewrite E. cbn [ebind fst snd]. split; [reflexivity|]. split; [now apply Nil|now apply Ann].
  - inv ND. assert (On : In name own) by (apply O; now left).
    destruct (definitions_last name before s after v None cls md c On G W R B A) as (md1 & G1 & E1).
    assert (K : dset name v cls = cls ++ [(name, v)]) by (apply dset_absent, D; now left).
    destruct (IH (dset name v cls) md1 c G1 (within_dset _ _ _ On W)) as (annotations & md' & E & Z & I); auto.
    { intros x Hx. apply O. now right. }
    { intros x Hx X. apply In_dset in X as [->|X]; [contradiction|]. revert X. apply D. now right. }
    exists (match last_annotation (before ++ s :: after) with Some a => (name, a) :: annotations | None => annotations end), md'.
    cbn [evaluate_fields]. unfold fetch. rewrite N, E1. cbn [ebind fst snd]. rewrite dset_twice, E. cbn [ebind fst snd].
    rewrite K, <- app_assoc. cbn [app]. split; [reflexivity|]. split; [now apply Nil|now apply Ann].
  - inv ND. assert (On : In name own) by (apply O; now left).
    destruct (assigned_ok name s v None cls md c R G) as (md1 & G1 & E1); [apply F; now left|].
    assert (K : dset name v cls = cls ++ [(name, v)]) by (apply dset_absent, D; now left).
    destruct (IH (dset name v cls) md1 (remember [(name, v)] c) G1 (within_dset _ _ _ On W)) as (annotations & md' & E & Z & I); auto.
    { intros x Hx. apply O. now right. }
    { intros x Hx X. apply In_dset in X as [->|X]; [contradiction|]. revert X. apply D. now right. }
    { intros x w Hx. cbn [remember aliases fold_left fst snd]. rewrite dget_dset.
      destruct (eqb_reflect (m, parent ++ [x]) (m, parent ++ [name])) as [X|_]; [|apply F; now right].
      exfalso. injection X as X. apply app_inv_head in X. injection X as ->. apply (in_map fst) in Hx. eapply Keys in Hx; eauto. }
    exists (match last_annotation (before ++ s :: after) with Some a => (name, a) :: annotations | None => annotations end), md'.
    cbn [evaluate_fields]. unfold fetch. rewrite N, definitions_one by (eauto using assigns_not_annotation).
    rewrite E1. cbn [ebind fst snd]. rewrite E. cbn [ebind fst snd].
    rewrite K, <- app_assoc. cbn [app]. split; [reflexivity|]. split; [now apply Nil|now apply Ann].
Qed.
Lemma namespace_keys nodes_of fs (ns assigned : list (pystr * V)) : class_namespace nodes_of runs assigns fs ns assigned ->
  incl (dkeys ns) fs /\ incl (dkeys assigned) fs.
Proof.
  induction 1 as [|name fs nodes ns assigned _ _ _ [IH IH']|name fs before s after v ns assigned _ _ _ _ _ _ [IH IH']|
                  name fs before s after v ns assigned _ _ _ _ _ [IH IH']]; [easy| | |]; (split; [intros x H|intros x H]).
  - right. now apply IH.
  - right. now apply IH'.
  - destruct H as [<-|H]; [now left|]. right. now apply IH.
  - right. now apply IH'.
  - destruct H as [<-|H]; [now left|]. right. now apply IH.
  - destruct H as [<-|H]; [now left|]. right. now apply IH'.
Qed.
Lemma remembered assigned : NoDup (dkeys assigned) -> forall c,
  (forall n v, In (n, v) assigned -> dget (m, parent ++ [n]) (aliases (remember assigned c)) = Some v)
  /\ forall t, (forall n, In n (dkeys assigned) -> t <> (m, parent ++ [n])) -> dget t (aliases (remember assigned c)) = dget t (aliases c).
Proof.
  cbn [remember aliases]. intros ND c. generalize (aliases c). clear c. induction assigned as [|[n v] r IH]; intros d; [easy|].
  cbn in ND. inv ND. cbn [fold_left fst snd]. destruct (IH ltac:(assumption) (dset (m, parent ++ [n]) v d)) as [A B]. split.
  - intros n' v' [X|X]; [|now apply A]. inv X. rewrite B; [now rewrite dget_dset, eqb_refl|].
    intros n I X. injection X as X. apply app_inv_head in X. injection X as ->. contradiction.
  - intros t T. rewrite B; [|intros x I; apply T; now right]. rewrite dget_dset.
    destruct (eqb_reflect t (m, parent ++ [n])) as [->|_]; [|reflexivity]. exfalso. now apply (T n (or_introl eq_refl)).
Qed.
Lemma assigned_NoDup nodes_of fs (ns assigned : list (pystr * V)) : NoDup fs -> class_namespace nodes_of runs assigns fs ns assigned -> NoDup (dkeys assigned).
Proof.
  intros ND. induction 1 as [|name fs nodes ns assigned _ _ _ IH|name fs before s after v ns assigned _ _ _ _ _ _ IH|
                  name fs before s after v ns assigned _ _ _ _ CN IH]; [constructor| | |]; inv ND; auto.
  cbn. constructor; [|auto]. intros X. apply namespace_keys in CN as [_ CN]. apply CN in X. contradiction.
Qed.
(** A function that cannot be executed *)
Lemma run_fails name f s last r cls md c : s = SFunctionDef f \/ s = SAsyncFunctionDef f -> fd_name f = name ->
  (forall n, looked_up_at_once n s -> (exists w, imported [n] w) /\ ~ In n ($"__module__" :: $"__name__" :: $"__builtins__" :: own)) ->
  ~ In $"__builtins__" own -> good md -> within cls -> exists ns, provides s ns /\
  forall e, execute py ns (m, parent ++ [name]) s = Err e ->
    evaluate_definitions py stubs p m parent (s :: r) last cls md c = (c, Err e).
Proof.
  intros S <- D OB G W. cbn [evaluate_definitions].
  destruct (dependencies_ok (dedupe (lazy_names s)) c md G) as (md' & Ev & G' & _ & N).
  { intros n Hn. apply In_dedupe, (@at_once_names s f n S) in Hn. destruct (D n Hn) as [I O]. split; [exact I|]. intros ->. apply O. cbn. tauto. }
  exists (merged [cls; md']). split; [apply provided; eauto|]. intros e P. rewrite Ev. cbn [ebind]. unfold inside.
  destruct S as [->| ->]; cbn [evaluate_statement names with_names]; rewrite P; cbn [ebind]; destruct c; reflexivity.
Qed.
End Functions.
Lemma paths_ok qs bases c : Forall2 (fun q b => import_object py q = Imported b) qs bases ->
  evaluate_paths p qs c = (c, Ok bases).
Proof.
  induction 1 as [|q b qs bs Q _ IH]; cbn [evaluate_paths]; [reflexivity|].
  unfold p at 1. cbn [evaluate_qualified_path]. rewrite Q. cbn [ebind]. now rewrite IH.
Qed.

Lemma annotations_ok annotations c :
  (forall name a, In (name, a) annotations -> (forall o, mentions a o -> importable o) /\ exists v, means py imported a v) ->
  exists values, evaluate_annotations py stubs p m parent annotations c = (c, Ok values)
    /\ Forall2 (fun x y => fst x = fst y /\ means py imported (snd x) (snd y)) annotations values.
Proof.
  induction annotations as [|[n a] r IH]; intros H; cbn [evaluate_annotations]; [exists []; split; [reflexivity|constructor]|].
  destruct (H n a (or_introl eq_refl)) as [W [v M]]. rewrite (proj2 (expression_agrees a W c c v) (conj eq_refl M)). cbn [ebind].
  destruct IH as (values & E & F); [intros n' a' I; apply (H n' a'); now right|]. rewrite E. cbn [ebind].
  exists ((n, v) :: values). split; [reflexivity|]. constructor; [split; [reflexivity|exact M]|exact F].
Qed.
Lemma last_annotation_spec nodes : match last_annotation nodes with
  | Some a => exists before t after, nodes = before ++ SAnnAssign t a None :: after /\ forall s, In s after -> ~ is_annotation s
  | None => forall s, In s nodes -> ~ is_annotation s
  end.
Proof.
  induction nodes as [|s r IH]; [intros s []|]. cbn [last_annotation]. destruct (last_annotation r) as [a|].
  - destruct IH as (before & t & after & -> & H). exists (s :: before), t, after. auto.
  - destruct (annotation_of s) as [a|] eqn:A.
    + destruct s as [t a' [v|]| | | | | | | |]; try discriminate A. inv A. exists [], t, r. auto.
    + intros s' [<-|I]; [|now apply IH]. intros X. apply annotation_spec in X as [a X]. congruence.
Qed.
Lemma fields_annotations mn names : forall cls md c c' x annotations,
  evaluate_fields py stubs p m parent mn names cls md c = (c', Ok (x, annotations)) ->
  annotations_stated (fun name => dget (parent ++ [name]) mn) names annotations.
Proof.
  induction names as [|name names IH]; intros cls md c c' x annotations; cbn [evaluate_fields].
  - intros X. inv X. constructor.
  - unfold fetch. destruct (dget (parent ++ [name]) mn) as [nodes|] eqn:N; [|discriminate].
    destruct (evaluate_definitions py stubs p m parent (definitions_nodes nodes) None cls md c) as [c1 [y|e]]; cbn [ebind]; [|discriminate].
    destruct (evaluate_fields py stubs p m parent mn names _ _ c1) as [c2 [[x' rest]|e]] eqn:E; cbn [ebind fst snd]; [|discriminate].
    apply IH in E. intros X. inv X. pose proof (last_annotation_spec nodes) as L. destruct (last_annotation nodes) as [a|].
    + destruct L as (before & t & after & -> & L). eapply stated_last; eauto.
    + eapply stated_not; eauto.
Qed.
End Imports.

(** Stub-only classes of functions, assignments and annotations (C72) *)
Lemma flat_class_made :
  forall V (py : python V) (stubs : tables) fuel (m o : path) module_nodes module_kinds definitions sc c ns assigned annotated bases v,
    o <> [] -> dget (m, o) (classes c) = None -> (forall w, import_object py (m, o) <> Imported w) ->
    dget m (stub_nodes stubs) = Some module_nodes ->
    dget m (stub_kinds stubs) = Some module_kinds -> dget o module_kinds = Some CLASS ->
    dget m (stub_definitions stubs) = Some definitions -> scope_at definitions o = Ok sc ->
    NoDup (dkeys (entries sc)) -> ~ In $"__module__" (dkeys (entries sc)) -> ~ In $"__annotations__" (dkeys (entries sc)) ->
    class_namespace (fun name => dget (o ++ [name]) module_nodes) (runs py stubs m o (dkeys (entries sc))) (assigns py stubs m o)
      (dkeys (entries sc)) ns assigned ->
    (forall name w, In (name, w) assigned ->
       dget (m, o ++ [name]) (aliases c) = None \/ dget (m, o ++ [name]) (aliases c) = Some w) ->
    (forall name nodes t a, In name (dkeys (entries sc)) -> dget (o ++ [name]) module_nodes = Some nodes ->
       In (SAnnAssign t a None) nodes ->
       (forall x, mentions a x -> importable py stubs m o x) /\ exists w, means py (imported py stubs m o) a w) ->
    (annotated = true <-> exists name nodes s, In name (dkeys (entries sc)) /\ dget (o ++ [name]) module_nodes = Some nodes
                                               /\ In s nodes /\ is_annotation s) ->
    Forall2 (fun q b => import_object py q = Imported b) (dget_or o [] (dget_or m [] (stub_superclasses stubs))) bases ->
    new_class py (path_to_string o) bases (class_body py annotated ns) = Ok v ->
    exists c', evaluate_qualified_path py stubs (S (S fuel)) (m, o) c = (c', Ok v)
      /\ modules c' = modules c /\ classes c' = dset (m, o) v (classes c)
      /\ globals c' = dset (path_to_string o) v (globals c)
      /\ (forall name w, In (name, w) assigned -> dget (m, o ++ [name]) (aliases c') = Some w)
      /\ (forall t, (forall name, In name (dkeys assigned) -> t <> (m, o ++ [name])) -> dget t (aliases c') = dget t (aliases c))
      /\ attributes c' = attributes c
      /\ (exists stated values, annotations_stated (fun name => dget (o ++ [name]) module_nodes) (dkeys (entries sc)) stated
            /\ Forall2 (fun x y => fst x = fst y /\ means py (imported py stubs m o) (snd x) (snd y)) stated values
            /\ annotations c' = if annotated then dset (m, o) values (annotations c) else annotations c)
      /\ forall fuel', evaluate_qualified_path py stubs (S fuel') (m, o) c' = (c', Ok v).
Proof.
  intros V py stubs fuel m o mn mk ds sc c ns assigned annotated bases v NE NC NI N K Kc D Sc ND NM NA F Fr A An B C.
  assert (step : forall k c', evaluate_qualified_path py stubs (S k) (m, o) c'
                   = evaluate_object py stubs (evaluate_qualified_path py stubs k) m o c').
  { intros k c'. cbn [evaluate_qualified_path fst snd]. destruct (import_object py (m, o)) as [| |w]; [|reflexivity|now destruct (NI w)].
    destruct o; [easy|reflexivity]. }
  destruct (remembered m o assigned (assigned_NoDup py stubs m o _ _ _ _ _ ND F) c) as [Re1 Re2].
  enough (X : exists stated values, annotations_stated (fun name => dget (o ++ [name]) mn) (dkeys (entries sc)) stated
            /\ Forall2 (fun x y => fst x = fst y /\ means py (imported py stubs m o) (snd x) (snd y)) stated values
            /\ (values = [] <-> annotated = false)
            /\ evaluate_qualified_path py stubs (S (S fuel)) (m, o) c
               = (with_global (path_to_string o) v (annotate (m, o) values (bind_name (last o []) v (with_class (m, o) v (remember m o assigned c)))), Ok v)).
  { destruct X as (stated & values & X1 & X2 & X3 & X4). eexists. split; [exact X4|].
    unfold annotate. destruct values as [|x values]; cbn [is_nil].
    - rewrite (proj1 X3 eq_refl). do 3 (split; [reflexivity|]). split; [exact Re1|]. split; [exact Re2|]. split; [reflexivity|].
      split; [exists stated, []; auto|].
      intros k. rewrite step. unfold evaluate_object. cbn [with_global bind_name with_names with_class classes]. now rewrite dget_dset, eqb_refl.
    - destruct annotated; [|now discriminate (proj2 X3 eq_refl)].
      do 3 (split; [reflexivity|]). split; [exact Re1|]. split; [exact Re2|]. split; [reflexivity|].
      split; [exists stated, (x :: values); auto|].
      intros k. rewrite step. unfold evaluate_object. cbn [with_global bind_name with_names with_class classes]. now rewrite dget_dset, eqb_refl. }
  { destruct (fields_ok py stubs m o fuel (dkeys (entries sc)) mn _ _ _ F [($"__module__", module_name py)] [($"__name__", module_name py)] c)
      as (annotations & md & E & Z & W); auto.
    { split; [repeat constructor; easy|]. split; [intros [X|[]]; discriminate X|]. intros name w G X. exfalso. apply dget_Some_In in G as [G|[]]. now inv G. }
    { intros n [<-|[]]. now left. }
    { intros n. easy. }
    { intros n Hn [<-|[]]. contradiction. }
    destruct (annotations_ok py stubs m o fuel annotations (bind_name (last o []) v (with_class (m, o) v (remember m o assigned c)))) as (values & Ev & Fv).
    { intros name a Ia. destruct (W name a Ia) as (nodes & t & X & Y & Z'). eapply A; eauto. }
    exists annotations, values. split; [eapply fields_annotations; exact E|]. split; [exact Fv|]. split.
    { transitivity (annotations = []); [destruct Fv; split; easy|]. rewrite Z. split.
      - intros H. destruct annotated; [|reflexivity]. destruct (proj1 An eq_refl) as (name & nodes & s & X1 & X2 & X3 & X4). now destruct (H name nodes s X1 X2 X3).
      - intros -> name nodes s X1 X2 X3 X4. enough (false = true) by discriminate. apply An. eauto 8. }
    rewrite step. unfold evaluate_object.
    match goal with |- match ?x with _ => _ end = _ => replace x with (@None V) by (symmetry; exact NC) end. unfold fetch. rewrite N, K. cbn [bind_res]. rewrite Kc. cbn [bind_res is_CLASS].
    unfold evaluate_class. unfold fetch. rewrite D. cbn [bind_res]. rewrite Sc.
    rewrite E. cbn [ebind fst snd]. unfold inside. rewrite (paths_ok py stubs fuel _ _ _ B). cbn [ebind fst snd].
    rewrite with_names_back.
    replace (with_annotations py annotations ([($"__module__", module_name py)] ++ ns)) with (class_body py annotated ns).
    2:{ unfold class_body, with_annotations. destruct annotations as [|a r]; cbn [is_nil].
        - destruct annotated; [|now rewrite app_nil_r]. exfalso. destruct (proj1 An eq_refl) as (name & nodes & s & X1 & X2 & X3 & X4).
          eapply (proj1 Z eq_refl); eauto.
        - destruct annotated.
          + symmetry. change (($"__module__", of_constant py (CStr $"paradigm._core.arboreal.evaluation")) :: ns ++ [($"__annotations__", empty_dict py)])
              with (([($"__module__", module_name py)] ++ ns) ++ [($"__annotations__", empty_dict py)]).
            apply dset_absent. cbn. intros [X|X]; [discriminate|]. apply NA. eapply (proj1 (namespace_keys py stubs m o _ _ _ _ _ F)); eauto.
          + exfalso. assert (X : a :: r = []); [|discriminate]. apply Z. intros name nodes s X1 X2 X3 X4.
            enough (false = true) by discriminate. apply An. eauto 8. }
    rewrite C. rewrite Ev. reflexivity. }
Qed.

(** ** Classes that need each other first *)
Ltac failed E := cbn [snd] in E; injection E as ->; reflexivity.
Section Circles.
Context {V : Type}.
Variable py : python V.
Variable stubs : tables.
Variable circle : qualified_path -> Prop.
Hypothesis in_circle : forall q, circle q -> stub_only_class py stubs q /\ fst q <> builtins_path /\ snd q <> [] /\ needs_first py stubs circle q.
Definition unmade (c : memory V) : Prop := forall q, circle q -> dget q (classes c) = None.
Lemma read_lazy n s : read_when_made n s <-> In n (lazy_names s).
Proof.
  assert (F : forall f, s = SFunctionDef f \/ s = SAsyncFunctionDef f -> read_when_made n s <-> In n (lazy_names s)).
  { intros f H. unfold read_when_made. rewrite <- (@at_once_names s f n H). split; [intros [R|[N _]]; [exact R|destruct (N f); tauto]|now left]. }
  destruct s; try (eapply F; eauto; fail); unfold read_when_made; cbn [lazy_names].
  all: split; [intros [(f & e & [H|H] & _)|[_ H]]; [discriminate H|discriminate H|exact H]|intros H; right; split; [intros f; split; discriminate|exact H]].
Qed.
Section Path.
Variable path_ : qualified_path -> memory V -> evaluated V V.
Hypothesis IH : forall q c, circle q -> unmade c -> snd (path_ q c) = Err RecursionError.
Hypothesis imports : forall q v c, import_object py q = Imported v -> path_ q c = (c, Ok v) \/ snd (path_ q c) = Err RecursionError.
Lemma stuck_dependencies m o names : forall md c,
  (exists n q', In n names /\ resolve stubs m o [n] = Ok q' /\ circle q') ->
  (forall n, In n names -> exists q', resolve stubs m o [n] = Ok q' /\ (circle q' \/ exists v, import_object py q' = Imported v)) ->
  unmade c -> snd (evaluate_dependencies stubs path_ m o names md c) = Err RecursionError.
Proof.
  induction names as [|name r I]; intros md c (n & q' & H1 & H2 & H3) G U; [destruct H1|]. cbn [evaluate_dependencies].
  destruct (G name (or_introl eq_refl)) as (q & R & K). rewrite R.
  assert (Next : circle q -> fst q <> builtins_path) by (intros C; apply in_circle in C; tauto).
  assert (rest : ~ circle q -> exists n q', In n r /\ resolve stubs m o [n] = Ok q' /\ circle q').
  { intros N. destruct H1 as [<-|H1]; [|eauto 6]. rewrite R in H2. injection H2 as ->. contradiction. }
  destruct (fst q == builtins_path) eqn:B.
  - apply I; [|intros x X; apply G; now right|exact U]. apply rest. intros C. apply Next in C. apply C. now apply eqb_eq.
  - unfold inside. destruct K as [K|(v & K)].
    + pose proof (IH q (with_names [md] c) K U) as E. destruct (path_ q (with_names [md] c)) as [c' [a|e]]; [discriminate E|failed E].
    + assert (NC : ~ circle q). { intros C. apply in_circle in C as ((N & _) & _). exact (N v K). }
      destruct (imports q v (with_names [md] c) K) as [E|E].
      * rewrite E. cbn [ebind]. apply I; [now apply rest|intros x X; apply G; now right|exact U].
      * destruct (path_ q (with_names [md] c)) as [c' [a|e]]; [discriminate E|failed E].
Qed.
Lemma stuck_paths qs : forall c,
  (exists q', In q' qs /\ circle q') -> (forall q', In q' qs -> circle q' \/ exists v, import_object py q' = Imported v) ->
  unmade c -> snd (evaluate_paths path_ qs c) = Err RecursionError.
Proof.
  induction qs as [|q r I]; intros c (q' & H1 & H2) G U; [destruct H1|]. cbn [evaluate_paths].
  destruct (G q (or_introl eq_refl)) as [K|(v & K)].
  - pose proof (IH q c K U) as E. destruct (path_ q c) as [c' [a|e]]; [discriminate E|failed E].
  - destruct (imports q v c K) as [E|E].
    + rewrite E. cbn [ebind]. 
      assert (X : snd (evaluate_paths path_ r c) = Err RecursionError).
      { apply I; [|intros x X; apply G; now right|exact U]. destruct H1 as [<-|H1]; [|eauto]. apply in_circle in H2 as ((N & _) & _). destruct (N v K). }
      destruct (evaluate_paths path_ r c) as [c' [a|e]]; [discriminate X|failed X].
    + destruct (path_ q c) as [c' [a|e]]; [discriminate E|failed E].
Qed.
Lemma annotations_no_definitions ss : (forall s, In s ss -> is_annotation s) -> definitions_nodes ss = [].
Proof.
  induction ss as [|s r I]; intros H; [reflexivity|]. unfold definitions_nodes in *. cbn [filter].
  destruct (H s (or_introl eq_refl)) as (t & a & ->). cbn. apply I. intros x X. apply H. now right.
Qed.
Lemma first_definition a s r : (forall s', In s' a -> is_annotation s') -> ~ is_annotation s -> exists r', definitions_nodes (a ++ s :: r) = s :: r'.
Proof.
  intros H N. unfold definitions_nodes. rewrite filter_app.
  replace (filter _ a) with (@nil stmt) by (symmetry; exact (annotations_no_definitions a H)). cbn [app filter].
  assert (E : annotation_of s = None). { destruct s; try reflexivity. match goal with v : option expr |- _ => destruct v end; [reflexivity|]. exfalso. apply N. red. eauto. }
  rewrite E. eauto.
Qed.
Lemma stuck_class q c nodes : circle q -> unmade c -> dget (fst q) (stub_nodes stubs) = Some nodes ->
  snd (evaluate_class py stubs path_ (fst q) (snd q) nodes c) = Err RecursionError.
Proof.
  intros C U N. destruct (in_circle q C) as (_ & _ & _ & defs & scope & nodes' & before & rest & D & S & N' & K & A & R).
  rewrite N in N'. injection N' as <-. unfold evaluate_class, fetch. 
  match goal with |- snd (match ?x with _ => _ end) = _ => replace x with (Ok scope) by (rewrite D; cbn; now rewrite S) end.
  rewrite K.
  assert (F : forall cls md, match rest with
            | [] => exists md' an, evaluate_fields py stubs path_ (fst q) (snd q) nodes (before ++ rest) cls md c = (c, Ok ((cls, md'), an))
            | _ => snd (evaluate_fields py stubs path_ (fst q) (snd q) nodes (before ++ rest) cls md c) = Err RecursionError end).
  { clear K. induction before as [|name before I]; intros cls md.
    - cbn [app]. destruct rest as [|name rest]; [do 2 eexists; reflexivity|].
      destruct R as (a & s & r & R1 & R2 & R3 & (n & q' & R4 & R5 & R6) & R7). cbn [evaluate_fields]. unfold fetch.
      replace (dget (snd q ++ [name]) nodes) with (Some (a ++ s :: r)) by (symmetry; exact R1). cbv iota beta.
      destruct (first_definition a s r R2 R3) as (r' & ->). cbn [evaluate_definitions].
      assert (X : snd (evaluate_dependencies stubs path_ (fst q) (snd q) (dedupe (lazy_names s)) md c) = Err RecursionError).
      { apply stuck_dependencies; [|intros x X; apply R7, read_lazy; now apply In_dedupe|exact U].
        exists n, q'. split; [apply In_dedupe; now apply read_lazy|now split]. }
      destruct (evaluate_dependencies stubs path_ (fst q) (snd q) (dedupe (lazy_names s)) md c) as [c' [x|e]]; [discriminate X|failed X].
    - cbn [app evaluate_fields]. unfold fetch. destruct (A name (or_introl eq_refl)) as (ss & A1 & A2).
      replace (dget (snd q ++ [name]) nodes) with (Some ss) by (symmetry; exact A1). cbv iota beta.
      rewrite (annotations_no_definitions ss A2). cbn [evaluate_definitions ebind fst snd].
      specialize (I (fun x X => A x (or_intror X)) cls md). destruct rest as [|name' rest].
      + destruct I as (md' & an & ->). cbn [ebind fst snd]. eauto.
      + destruct (evaluate_fields py stubs path_ (fst q) (snd q) nodes (before ++ name' :: rest) cls md c) as [c' [x|e]]; [discriminate I|failed I]. }
  specialize (F [($"__module__", module_name py)] [($"__name__", module_name py)]).
  destruct rest as [|name rest].
  - destruct F as (md & an & F). rewrite F. cbn [ebind fst snd]. unfold inside. destruct R as [R1 R2].
    pose proof (stuck_paths _ (with_names [md] c) R1 R2 U) as X.
    destruct (evaluate_paths path_ _ (with_names [md] c)) as [c' [x|e]]; [discriminate X|failed X].
  - match type of F with snd ?x = _ => destruct x as [c' [x'|e]] end; [discriminate F|failed F].
Qed.
End Path.
Lemma circles_for_ever fuel : forall q c, circle q -> unmade c -> snd (evaluate_qualified_path py stubs fuel q c) = Err RecursionError.
Proof.
  induction fuel as [|fuel IH]; intros q c C U; [reflexivity|].
  assert (O : snd (evaluate_object py stubs (evaluate_qualified_path py stubs fuel) (fst q) (snd q) c) = Err RecursionError).
  { unfold evaluate_object. replace (dget (fst q, snd q) (classes c)) with (@None V) by (rewrite <- surjective_pairing; symmetry; now apply U).
    destruct (in_circle q C) as ((_ & kinds & K1 & K2) & _ & _ & defs & scope & nodes & before & rest & D & S & N & _).
    unfold fetch. match goal with |- snd (match ?x with _ => _ end) = _ => replace x with (Ok (nodes, CLASS)) by (rewrite N; cbn; rewrite K1; cbn; now rewrite K2) end.
    cbv iota beta. change (is_CLASS CLASS) with true. cbv iota. apply stuck_class; auto.
    intros q' v c' I. destruct fuel as [|fuel']; [now right|]. left. cbn [evaluate_qualified_path]. now rewrite I. }
  destruct (in_circle q C) as ((NI & _) & _ & NE & _). cbn [evaluate_qualified_path].
  destruct (import_object py q) as [| |v]; [|exact O|now destruct (NI v)].
  destruct (snd q) eqn:E; [easy|exact O].
Qed.
End Circles.

(** ** More depth *)
Section Depth.
Context {V : Type}.
Variable py : python V.
Variable stubs : tables.
Notation memory := (memory V).
Notation evaluated := (evaluated V).
Definition deeper {A} (f g : memory -> evaluated A) : Prop := forall c, snd (f c) = Err RecursionError \/ g c = f c.
Lemma deeper_refl {A} (f : memory -> evaluated A) : deeper f f.
Proof. intros c. now right. Qed.
Lemma deeper_bind {A B} (f g : memory -> evaluated A) (F G : memory -> A -> evaluated B) :
  deeper f g -> (forall a, deeper (fun c => F c a) (fun c => G c a)) -> deeper (fun c => ebind (f c) F) (fun c => ebind (g c) G).
Proof.
  intros H K c. destruct (H c) as [E|E].
  - left. destruct (f c) as [c1 [a|e]]; [discriminate E|failed E].
  - rewrite E. destruct (f c) as [c1 [a|e]]; [exact (K a c1)|now right].
Qed.
Lemma deeper_inside {A} ns (f g : memory -> evaluated A) : deeper f g -> deeper (inside ns f) (inside ns g).
Proof.
  intros H c. unfold inside. destruct (H (with_names ns c)) as [E|E].
  - left. destruct (f (with_names ns c)) as [c1 [a|e]]; [discriminate E|failed E].
  - rewrite E. now right.
Qed.
Section Paths.
Variables p1 p2 : qualified_path -> memory -> evaluated V.
Hypothesis Hp : forall q, deeper (p1 q) (p2 q).
Lemma deeper_resolved m parent o : deeper (evaluate_resolved stubs p1 m parent o) (evaluate_resolved stubs p2 m parent o).
Proof. unfold evaluate_resolved. destruct (resolve stubs m parent o); [apply Hp|apply deeper_refl]. Qed.
Lemma deeper_list f g es : (forall e, In e es -> deeper (f e) (g e)) -> deeper (evaluate_list (V := V) f es) (evaluate_list g es).
Proof.
  induction es as [|e r IH]; intros H; cbn [evaluate_list]; [apply deeper_refl|].
  apply deeper_bind; [apply H; now left|]. intros v. apply deeper_bind; [apply IH; intros; apply H; now right|].
  intros vs. apply deeper_refl.
Qed.
Lemma deeper_keywords f g ks : (forall k, In k ks -> deeper (f (snd k)) (g (snd k))) ->
  deeper (evaluate_keywords (V := V) f ks) (evaluate_keywords g ks).
Proof.
  induction ks as [|[k e] r IH]; intros H; cbn [evaluate_keywords]; [apply deeper_refl|].
  apply deeper_bind; [apply (H (k, e)); now left|]. intros v. apply deeper_bind; [apply IH; intros; apply H; now right|].
  intros vs. apply deeper_refl.
Qed.
Lemma deeper_items f g items : (forall i, In i items -> (forall k, fst i = Some k -> deeper (f k) (g k)) /\ deeper (f (snd i)) (g (snd i))) ->
  deeper (evaluate_items (V := V) f items) (evaluate_items g items).
Proof.
  induction items as [|[[k|] e] r IH]; intros H; cbn [evaluate_items]; try apply deeper_refl.
  destruct (H (Some k, e) (or_introl eq_refl)) as [Hk He]. apply deeper_bind; [now apply Hk|]. intros w.
  apply deeper_bind; [exact He|]. intros v. apply deeper_bind; [apply IH; intros; apply H; now right|]. intros vs. apply deeper_refl.
Qed.
Lemma deeper_expression m parent e : deeper (evaluate_expression py stubs p1 m parent e) (evaluate_expression py stubs p2 m parent e).
Proof.
  induction e as [id|v a IH|v s IHv IHs|es IH|es IH|items IH|f es ks IHf IHes IHks|l o r IHl IHr|o e IH|k|es IH] using expr_ind';
    cbn [evaluate_expression].
  - apply deeper_resolved.
  - apply deeper_bind; [exact IH|]. intros x. destruct (getattr py x a) as [y|[]]; try apply deeper_refl.
    destruct (to_path (Attribute v a)); [apply deeper_resolved|apply deeper_refl].
  - apply deeper_bind; [exact IHv|]. intros x. apply deeper_bind; [exact IHs|]. intros y. apply deeper_refl.
  - rewrite Forall_forall in IH. apply deeper_bind; [now apply deeper_list|]. intros vs. apply deeper_refl.
  - rewrite Forall_forall in IH. apply deeper_bind; [now apply deeper_list|]. intros vs. apply deeper_refl.
  - destruct (forallb _ items); [|apply deeper_refl]. rewrite Forall_forall in IH. apply deeper_bind; [now apply deeper_items|]. intros vs. apply deeper_refl.
  - rewrite Forall_forall in IHes, IHks. apply deeper_bind; [now apply deeper_list|]. intros vs.
    apply deeper_bind; [now apply deeper_keywords|]. intros kvs. apply deeper_bind; [exact IHf|]. intros x. apply deeper_refl.
  - apply deeper_bind; [exact IHl|]. intros x. apply deeper_bind; [exact IHr|]. intros y. apply deeper_refl.
  - destruct o; [| |apply deeper_refl]; (apply deeper_bind; [exact IH|]; intros x; apply deeper_refl).
  - apply deeper_refl.
  - apply deeper_refl.
Qed.
Lemma deeper_assignment m parent s value : deeper (evaluate_assignment py stubs p1 m parent s value) (evaluate_assignment py stubs p2 m parent s value).
Proof.
  intros c. unfold evaluate_assignment. destruct (targets_paths stubs m parent s) as [ts|e]; [|now right].
  destruct (search_cache py ts c) as [c1 [v|]]; [now right|].
  apply (deeper_bind (fun c => match value with Some e => evaluate_expression py stubs p1 m parent e c | None => (c, Err TypeError) end)
                     (fun c => match value with Some e => evaluate_expression py stubs p2 m parent e c | None => (c, Err TypeError) end)).
  - destruct value; [apply deeper_expression|apply deeper_refl].
  - intros v. apply deeper_refl.
Qed.
Lemma deeper_statement m parent s : deeper (evaluate_statement py stubs p1 m parent s) (evaluate_statement py stubs p2 m parent s).
Proof. unfold evaluate_statement. destruct s; try apply deeper_refl; apply deeper_assignment. Qed.
Lemma deeper_nodes m parent name ns : forall last, deeper (evaluate_nodes py stubs p1 m parent name ns last) (evaluate_nodes py stubs p2 m parent name ns last).
Proof.
  induction ns as [|s r IH]; intros last; cbn [evaluate_nodes]; [apply deeper_refl|].
  apply deeper_bind; [apply deeper_statement|]. intros v c. exact (IH (Ok v) (bind_name name v c)).
Qed.
Lemma deeper_dependencies m o names : forall md, deeper (evaluate_dependencies stubs p1 m o names md) (evaluate_dependencies stubs p2 m o names md).
Proof.
  induction names as [|x r IH]; intros md; cbn [evaluate_dependencies]; [apply deeper_refl|].
  destruct (resolve stubs m o [x]) as [q|e]; [|apply deeper_refl]. destruct (fst q == builtins_path); [apply IH|].
  apply deeper_bind; [apply deeper_inside, Hp|]. intros y. apply IH.
Qed.
Lemma deeper_definitions m o ds : forall last cls md, deeper (evaluate_definitions py stubs p1 m o ds last cls md) (evaluate_definitions py stubs p2 m o ds last cls md).
Proof.
  induction ds as [|s r IH]; intros last cls md; cbn [evaluate_definitions]; [apply deeper_refl|].
  apply deeper_bind; [apply deeper_dependencies|]. intros md'. apply deeper_bind; [apply deeper_inside, deeper_statement|]. intros v. apply IH.
Qed.
Lemma deeper_fields m o nodes names : forall cls md, deeper (evaluate_fields py stubs p1 m o nodes names cls md) (evaluate_fields py stubs p2 m o nodes names cls md).
Proof.
  induction names as [|x r IH]; intros cls md; cbn [evaluate_fields]; [apply deeper_refl|].
  destruct (fetch (o ++ [x]) nodes) as [ns|e]; [|apply deeper_refl].
  apply deeper_bind; [apply deeper_definitions|]. intros v. apply deeper_bind; [apply IH|]. intros rest. apply deeper_refl.
Qed.
Lemma deeper_paths qs : deeper (evaluate_paths p1 qs) (evaluate_paths p2 qs).
Proof.
  induction qs as [|q r IH]; cbn [evaluate_paths]; [apply deeper_refl|].
  apply deeper_bind; [apply Hp|]. intros v. apply deeper_bind; [exact IH|]. intros vs. apply deeper_refl.
Qed.
Lemma deeper_annotations m o l : deeper (evaluate_annotations py stubs p1 m o l) (evaluate_annotations py stubs p2 m o l).
Proof.
  induction l as [|[x e] r IH]; cbn [evaluate_annotations]; [apply deeper_refl|].
  apply deeper_bind; [apply deeper_expression|]. intros v. apply deeper_bind; [exact IH|]. intros vs. apply deeper_refl.
Qed.
Lemma deeper_class m o nodes : deeper (evaluate_class py stubs p1 m o nodes) (evaluate_class py stubs p2 m o nodes).
Proof.
  unfold evaluate_class. destruct (let* s := fetch m (stub_definitions stubs) in scope_at s o) as [s|e]; [|apply deeper_refl].
  apply deeper_bind; [apply deeper_fields|]. intros fields. apply deeper_bind; [apply deeper_inside, deeper_paths|]. intros bases.
  destruct (new_class py (path_to_string o) (fst bases) (with_annotations py (snd fields) (fst (fst fields)))) as [v|e]; [|apply deeper_refl].
  intros c. apply (deeper_bind (evaluate_annotations py stubs p1 m o (snd fields)) (evaluate_annotations py stubs p2 m o (snd fields)));
    [apply deeper_annotations|]. intros vs. apply deeper_refl.
Qed.
Lemma deeper_module_fields m names : deeper (evaluate_module_fields p1 m names) (evaluate_module_fields p2 m names).
Proof.
  induction names as [|x r IH]; cbn [evaluate_module_fields]; [apply deeper_refl|].
  apply deeper_bind; [apply Hp|]. intros v c. exact (IH (bind_name x v (with_attribute m x v c))).
Qed.
Lemma deeper_module m : deeper (evaluate_module py stubs p1 m) (evaluate_module py stubs p2 m).
Proof.
  intros c. unfold evaluate_module. destruct (dget m (modules c)); [now right|].
  destruct (fetch m (stub_definitions stubs)) as [s|e]; [|now right].
  apply (deeper_bind (evaluate_module_fields p1 m (dkeys (entries s))) (evaluate_module_fields p2 m (dkeys (entries s))));
    [apply deeper_module_fields|intros _; apply deeper_refl].
Qed.
Lemma deeper_object m o : deeper (evaluate_object py stubs p1 m o) (evaluate_object py stubs p2 m o).
Proof.
  intros c. unfold evaluate_object. destruct (dget (m, o) (classes c)); [now right|].
  destruct (let* module_nodes := fetch m (stub_nodes stubs) in _) as [[nodes kind]|e]; [|now right].
  destruct (is_CLASS kind); [apply deeper_class|]. destruct (dget o nodes); [apply deeper_nodes|now right].
Qed.
End Paths.
Lemma deeper_path fuel : forall fuel' q, fuel <= fuel' -> deeper (evaluate_qualified_path py stubs fuel q) (evaluate_qualified_path py stubs fuel' q).
Proof.
  induction fuel as [|fuel IH]; intros fuel' q L; [intros c; now left|]. destruct fuel' as [|fuel']; [lia|].
  assert (H : forall q, deeper (evaluate_qualified_path py stubs fuel q) (evaluate_qualified_path py stubs fuel' q)) by (intros x; apply IH; lia).
  cbn [evaluate_qualified_path]. destruct (import_object py q); [|now apply deeper_object|apply deeper_refl].
  destruct (is_nil (snd q)); [now apply deeper_module|now apply deeper_object].
Qed.
End Depth.
