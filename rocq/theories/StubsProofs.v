(** Proofs about the stub parser. Every run is a sequence of events, each changing
    the tables of one module. *)
From Verif Require Import Base Ast Conversion Catalog Arboreal Generics Scoping SpecScoping ScopingProofs
  Signatures SpecSignatures SignaturesProofs SpecCatalog CatalogProofs SpecArboreal ArborealProofs Stubs SpecStubs.
Set Implicit Arguments.

(** ** Dictionaries and scopes *)
Lemma dget_dmodify {K A} `{Eqb K} k k' (d0 : A) f d :
  dget k (dmodify k' d0 f d) = if k == k' then Some (f (dget_or k' d0 d)) else dget k d.
Proof. unfold dmodify. apply dget_dset. Qed.
Lemma has_path_add p : forall s, has_path (add_path p s) p.
Proof.
  induction p as [|n p IH]; intros s; [constructor|]. cbn [add_path]. econstructor; [|apply IH].
  cbn [entries]. now rewrite dget_dset, eqb_refl.
Qed.
Lemma has_path_keep p : forall s q, has_path s q -> has_path (add_path p s) q.
Proof.
  induction p as [|n p IH]; intros s q Hq; [exact Hq|]. cbn [add_path].
  destruct Hq as [|s m s' q Hs Hq]; [constructor|].
  destruct (eqb_reflect m n) as [->|Hn].
  - econstructor; [cbn [entries]; now rewrite dget_dset, eqb_refl|]. unfold dget_or. rewrite Hs. now apply IH.
  - econstructor; [|exact Hq]. cbn [entries]. rewrite dget_dset. destruct (eqb_reflect m n); [easy|exact Hs].
Qed.

Lemma has_path_nil s : has_path s [].
Proof. constructor. Qed.
Lemma has_path_prefix p : forall s r, has_path s (p ++ r) -> has_path s p.
Proof. induction p as [|n p IH]; intros s r H; [constructor|]. inversion H; subst. econstructor; [eassumption|]. eapply IH. eassumption. Qed.
Lemma has_path_inv p : forall s q, has_path (add_path p s) q -> has_path s q \/ exists rest, p = q ++ rest.
Proof.
  induction p as [|n p IH]; intros s q H; [now left|]. cbn [add_path] in H.
  inversion H as [|s0 n' s' q' Hs Hq]; subst; [left; constructor|]. cbn [entries] in Hs. rewrite dget_dset in Hs.
  destruct (eqb_reflect n' n) as [->|Hn].
  - injection Hs as <-. apply IH in Hq. destruct Hq as [Hq|[rest ->]]; [|right; now exists rest].
    unfold dget_or in Hq. destruct (dget n (entries s)) as [s1|] eqn:E; [left; now apply hp_down with (s' := s1)|].
    inversion Hq as [|s0 n'' s'' q'' Hs'' Hq'']; subst; [right; now exists p|discriminate Hs''].
  - left. now apply hp_down with (s' := s').
Qed.

(** ** Events *)
Inductive event :=
| Opened (m : path)
| Recorded (m o : path) (k : node_kind) (node : stmt)
| Constructed (m o : path) (node : stmt)
| ClassSeen (m o : path)
| PathSeen (m o : path)
| Referred (m p : path) (q : qualified_path)
| Starred (m sub : path)
| Based (m o : path) (base : expr)
| Parametrised (m o : path) (ps : list path).
Definition event_module (e : event) : path :=
  match e with
  | Opened m | Recorded m _ _ _ | Constructed m _ _ | ClassSeen m _ | PathSeen m _ | Referred m _ _
  | Starred m _ | Based m _ _ | Parametrised m _ _ => m
  end.
Definition opened (m : path) (st : state) : state :=
  let st := with_visited st (visited st ++ [m]) in
  let st := with_definitions st (dset m (Scope []) (definitions (db st))) in
  let st := with_kinds st (dset m [] (kinds st)) in
  let st := with_nodes st (dset m [] (nodes st)) in
  with_references st (dset m [] (references (db st))).
Definition class_seen (m o : path) (st : state) : state :=
  let st := add_path_definition m [] o (add_ast_node_kind m [] o CLASS st) in
  with_bases st (dset (m, o) [] (bases_of st)).
Definition apply_event (e : event) (st : state) : state :=
  match e with
  | Opened m => opened m st
  | Recorded m o k node =>
      add_path_definition m [] o (add_ast_node_kind m [] o k (add_ast_node m [] o node st))
  | Constructed m o node => add_superclass m o NamedTuple_path (add_ast_node m [] o node st)
  | ClassSeen m o => class_seen m o st
  | PathSeen m o => add_path_definition m [] o st
  | Referred m p q => add_reference m p q st
  | Starred m sub => add_submodule m sub st
  | Based m o base => add_base (m, o) base st
  | Parametrised m o ps => with_parameters st (dset (m, o) ps (parameters_of st))
  end.
Definition enabled (e : event) (st : state) : Prop :=
  match e with
  | Opened m => ~ In m (visited st)
  | Constructed m o _ => In m (visited st) /\ kind_of_object st m o <> None
  | _ => In (event_module e) (visited st)
  end.
Inductive steps : state -> list event -> state -> Prop :=
| steps_nil st : steps st [] st
| steps_cons e st es st' : enabled e st -> steps (apply_event e st) es st' -> steps st (e :: es) st'.
Lemma steps_app st es st1 es' st2 : steps st es st1 -> steps st1 es' st2 -> steps st (es ++ es') st2.
Proof. induction 1; cbn; [easy|]. intros H2. constructor; auto. Qed.
Lemma steps_one e st : enabled e st -> steps st [e] (apply_event e st).
Proof. intros H. constructor; [exact H|constructor]. Qed.

Ltac tables := cbn [apply_event opened class_seen with_references with_nodes with_kinds with_definitions with_db with_visited kinds db nodes
  definitions references submodules superclasses bases_of parameters_of visited add_path_definition add_ast_node_kind add_ast_node add_superclass
  with_superclasses add_reference add_submodule with_submodules with_bases add_base with_parameters app].
Ltac tables_in H := cbn [apply_event opened class_seen with_references with_nodes with_kinds with_definitions with_db with_visited kinds db nodes
  definitions references submodules superclasses bases_of parameters_of visited add_path_definition add_ast_node_kind add_ast_node add_superclass
  with_superclasses add_reference add_submodule with_submodules with_bases add_base with_parameters app] in H.
Ltac by_event e := destruct e as [m'|m' o' k n|m' o' n|m' o'|m' o'|m' p' q'|m' s'|m' o' b|m' o' ps].

(** ** What events do to the tables *)
Lemma visited_event e st : visited (apply_event e st) = visited st ++ match e with Opened m => [m] | _ => [] end.
Proof. destruct e; cbn; rewrite ?app_nil_r; reflexivity. Qed.
Lemma visited_steps st es st' : steps st es st' -> incl (visited st) (visited st').
Proof.
  induction 1 as [st|e st es st' He Hs IH]; [apply incl_refl|]. rewrite visited_event in IH.
  intros x Hx. apply IH. apply in_or_app. now left.
Qed.

(** The facts about the module [m] *)
Definition event_fact (e : event) : list fact :=
  match e with
  | Opened _ => []
  | PathSeen _ o => [Mentions o]
  | Recorded _ o k n => [Defines o k n]
  | Constructed _ o n => [Builds o n]
  | ClassSeen _ o => [ClassAt o]
  | Referred _ p q => [Refers p q]
  | Starred _ sub => [Stars sub]
  | Based _ o b => [Inherits o b]
  | Parametrised _ o ps => [Takes o ps]
  end.
Definition facts (m : path) (es : list event) : list fact :=
  flat_map (fun e => if event_module e == m then event_fact e else []) es.
Lemma facts_app m es es' : facts m (es ++ es') = facts m es ++ facts m es'.
Proof. apply flat_map_app. Qed.
Lemma facts_one m e : event_module e = m -> facts m [e] = event_fact e.
Proof. intros <-. cbn. now rewrite eqb_refl, app_nil_r. Qed.

Lemma dget_or_dset {K A} `{Eqb K} k k' (a d0 : A) d : dget_or k d0 (dset k' a d) = if k == k' then a else dget_or k d0 d.
Proof. unfold dget_or. rewrite dget_dset. now destruct (k == k'). Qed.
Lemma dget_or_dmodify {K A} `{Eqb K} k k' (d0 d1 : A) f d :
  dget_or k d0 (dmodify k' d1 f d) = if k == k' then f (dget_or k' d1 d) else dget_or k d0 d.
Proof. apply dget_or_dset. Qed.
Lemma nodes_of_object_or st m o : nodes_of_object st m o = dget_or o [] (dget_or m ([] : dict path (list stmt)) (nodes st)).
Proof.
  unfold nodes_of_object, dget_or. match goal with |- match ?x with _ => _ end = _ => now change (dget m (nodes st)) with x; destruct x end. Qed.
Lemma kind_of_object_or st m o : kind_of_object st m o = dget o (dget_or m ([] : dict path node_kind) (kinds st)).
Proof. unfold kind_of_object, dget_or. now destruct (dget m (kinds st)). Qed.

Lemma pair_eqb (m m' o o' : path) : ((m, o) : qualified_path) == (m', o') = (m == m') && (o == o').
Proof. reflexivity. Qed.

(** An event of another module changes nothing, an event of the module itself adds
    its fact. *)
Lemma other_event e st m fs : event_module e <> m -> tables_say m st fs -> tables_say m (apply_event e st) fs.
Proof.
  intros Hne (H1 & H2 & H3 & H4 & H5 & H6 & H7 & H8).
  assert (E : m == event_module e = false) by (apply eqb_neq; congruence).
  split; [|split; [|split; [|split; [|split; [|split; [|split]]]]]]; [intros o; specialize (H1 o)|intros o; specialize (H2 o)|intros o; specialize (H3 o)
    |intros o; specialize (H4 o)|intros o; specialize (H5 o)| |intros o; specialize (H7 o)|
    intros o Ho; rewrite <- (H8 o Ho); clear - E; unfold defined; by_event e; cbn [event_module] in E; tables; try reflexivity;
      unfold dmodify; rewrite dget_dset, E; reflexivity];
    rewrite ?nodes_of_object_or, ?kind_of_object_or in *; clear Hne; by_event e; cbn [event_module] in E; tables;
    rewrite ?dget_or_dset, ?dget_or_dmodify, ?E; try assumption;
    unfold dmodify; rewrite dget_dset, pair_eqb, E; assumption.
Qed.
Lemma opened_event m st : tables_say m st [] -> tables_say m (apply_event (Opened m) st) [].
Proof.
  intros (H1 & H2 & H3 & H4 & H5 & H6 & H7 & H8).
  split; [|split; [|split; [|split; [|split; [|split; [|split]]]]]]; try assumption; intros o;
    rewrite ?nodes_of_object_or, ?kind_of_object_or; tables; [now rewrite dget_or_dset, eqb_refl..|].
  intros Ho. split.
  - intros (s & Hs & Hp). tables_in Hs. rewrite dget_dset, eqb_refl in Hs. injection Hs as <-.
    inversion Hp as [|s0 n'' s'' q'' Hs'' Hq'']; subst; [easy|discriminate Hs''].
  - intros (f & rest & [] & _).
Qed.
Lemma fold_snoc {A B} (f : A -> B -> A) l x a : fold_left f (l ++ [x]) a = f (fold_left f l a) x.
Proof. now rewrite fold_left_app. Qed.
Lemma named_app o fs fs' : named_in o (fs ++ fs') <-> named_in o fs \/ named_in o fs'.
Proof.
  split.
  - intros (f & rest & Hi & E). apply in_app_or in Hi. destruct Hi as [Hi|Hi]; [left|right]; now exists f, rest.
  - intros [(f & rest & Hi & E)|(f & rest & Hi & E)]; exists f, rest; (split; [apply in_or_app|exact E]); auto.
Qed.
Lemma named_one o f : named_in o [f] <-> exists rest, named f = Some (o ++ rest).
Proof. split; [intros (g & rest & [<-|[]] & E); now exists rest|]. intros (rest & E). exists f, rest. split; [now left|exact E]. Qed.
Lemma defined_add m o (d d' : database) o' : o <> [] ->
  definitions d' = dmodify m (Scope []) (add_path o') (definitions d) ->
  (defined d' m o <-> defined d m o \/ exists rest, o' = o ++ rest).
Proof.
  intros Ho Ed. unfold defined. rewrite Ed, dget_dmodify, eqb_refl. split.
  - intros (s & E & Hp). injection E as <-. apply has_path_inv in Hp. destruct Hp as [Hp|Hp]; [|now right].
    unfold dget_or in Hp. destruct (dget m (definitions d)) as [s|]; [left; now exists s|].
    inversion Hp as [|s0 n'' s'' q'' Hs'' Hq'']; subst; [easy|discriminate Hs''].
  - intros [(s & E & Hp)|(rest & ->)]; (eexists; split; [reflexivity|]).
    + apply has_path_keep. unfold dget_or. now rewrite E.
    + eapply has_path_prefix. apply has_path_add.
Qed.
Lemma own_event_defined e st fs : (forall m, e <> Opened m) ->
  (forall o, o <> [] -> (defined (db st) (event_module e) o <-> named_in o fs)) ->
  forall o, o <> [] -> (defined (db (apply_event e st)) (event_module e) o <-> named_in o (fs ++ event_fact e)).
Proof.
  intros Hx H o Ho. rewrite named_app, <- (H o Ho). clear H.
  assert (HI : forall o', (exists rest : list pystr, Some o' = Some (o ++ rest)) <-> exists rest : path, o' = o ++ rest).
  { intros o'. split; intros (rest & E); exists rest; congruence. }
  by_event e; try (now destruct (Hx m')); clear Hx; cbn [event_module event_fact]; rewrite named_one; cbn [named]; rewrite ?HI.
  1, 3, 4: eapply defined_add; [exact Ho|reflexivity].
  all: split; [now left|]; intros [Hd|(rest & E)]; [exact Hd|discriminate E].
Qed.
Lemma own_event e st fs : (forall m, e <> Opened m) ->
  tables_say (event_module e) st fs -> tables_say (event_module e) (apply_event e st) (fs ++ event_fact e).
Proof.
  intros Ho (H1 & H2 & H3 & H4 & H5 & H6 & H7 & H8).
  split; [|split; [|split; [|split; [|split; [|split; [|split]]]]]]; [intros o; specialize (H1 o)|intros o; specialize (H2 o)|intros o; specialize (H3 o)
    |intros o; specialize (H4 o)|intros o; specialize (H5 o)| |intros o; specialize (H7 o)|now apply own_event_defined];
    unfold nodes_in, tuples_in, stars_in, kind_in, bases_in, parameters_in, reference_in in *;
    rewrite ?nodes_of_object_or, ?kind_of_object_or in *;
    by_event e; try (now destruct (Ho m')); clear Ho; cbn [event_module event_fact] in *; tables;
    rewrite ?app_nil_r; try assumption;
    rewrite ?flat_map_app, ?fold_snoc; cbn [flat_map kind_step bases_step parameters_step reference_step]; rewrite ?app_nil_r; try assumption;
    rewrite ?dget_or_dset, ?dget_or_dmodify, ?eqb_refl; unfold dmodify;
    rewrite ?dget_or_dset, ?dget_dset, ?pair_eqb, ?eqb_refl; cbn [andb];
    rewrite <- ?H1, <- ?H2, <- ?H3, <- ?H4, <- ?H5, <- ?H6, <- ?H7;
    repeat match goal with |- context [if ?a == ?b then _ else _] => destruct (eqb_reflect a b); subst end; rewrite ?eqb_refl;
    unfold dget_or; rewrite ?app_nil_r; try congruence; try reflexivity.
Qed.
Lemma tables_steps st es st' m fs : steps st es st' -> In m (visited st) -> tables_say m st fs -> tables_say m st' (fs ++ facts m es).
Proof.
  intros H. revert fs. induction H as [st|e st es st' He Hs IH]; intros fs Hm H; [cbn; now rewrite app_nil_r|].
  change (e :: es) with ([e] ++ es). rewrite facts_app, app_assoc. apply IH; [rewrite visited_event; apply in_or_app; now left|].
  unfold facts. cbn [flat_map]. rewrite app_nil_r. destruct (eqb_reflect (event_module e) m) as [<-|Hne].
  - apply own_event; [|exact H]. intros x ->. now apply He.
  - rewrite app_nil_r. now apply other_event.
Qed.
(** Nothing is known about modules not visited yet. *)
Definition untouched (st : state) : Prop := forall m, ~ In m (visited st) -> tables_say m st [].
Lemma untouched_event e st : enabled e st -> untouched st -> untouched (apply_event e st).
Proof.
  intros He H m Hm. rewrite visited_event in Hm. apply other_event.
  - intros <-. apply Hm. apply in_or_app. destruct e; cbn in *; first [now left | right; now left | left; tauto].
  - apply H. intros Hi. apply Hm. apply in_or_app. now left.
Qed.
Lemma untouched_steps st es st' : steps st es st' -> untouched st -> untouched st'.
Proof. induction 1; auto using untouched_event. Qed.
Lemma untouched_empty : untouched empty_state.
Proof.
  intros m _. repeat split; try discriminate.
  - intros (s & E & _). discriminate E.
  - intros (f & rest & [] & _).
Qed.

(** ** Consistency *)
Lemma kind_event' e st m o : (forall x, e = Opened x -> x <> m) ->
  kind_of_object st m o <> None -> kind_of_object (apply_event e st) m o <> None.
Proof.
  intros Hx. rewrite !kind_of_object_or. by_event e; tables; try easy.
  - specialize (Hx m' eq_refl). rewrite dget_or_dset. destruct (eqb_reflect m m'); [congruence|easy].
  - rewrite dget_or_dmodify. destruct (eqb_reflect m m') as [->|]; [|easy]. rewrite dget_dset. now destruct (o == o').
  - rewrite dget_or_dmodify. destruct (eqb_reflect m m') as [->|]; [|easy]. rewrite dget_dset. now destruct (o == o').
Qed.
Lemma kind_steps st es st' m o : steps st es st' -> In m (visited st) -> kind_of_object st m o <> None -> kind_of_object st' m o <> None.
Proof.
  induction 1 as [st|e st es st' He Hs IH]; [easy|]. intros Hm Hk. apply IH.
  - rewrite visited_event. apply in_or_app. now left.
  - apply kind_event'; [|exact Hk]. intros x -> ->. now apply He.
Qed.
Lemma class_kind m o st : kind_of_object (apply_event (ClassSeen m o) st) m o <> None.
Proof. rewrite kind_of_object_or. tables. now rewrite dget_or_dmodify, eqb_refl, dget_dset, eqb_refl. Qed.
Lemma kind_recorded m o k n st : kind_of_object (apply_event (Recorded m o k n) st) m o <> None.
Proof. rewrite kind_of_object_or. tables. now rewrite dget_or_dmodify, eqb_refl, dget_dset, eqb_refl. Qed.
(** A kind that is there after an event was there before or was set by it. *)
Lemma kind_event_inv e st m o : kind_of_object (apply_event e st) m o <> None ->
  kind_of_object st m o <> None /\ (forall x, e = Opened x -> x <> m) \/
  (exists k n, e = Recorded m o k n) \/ e = ClassSeen m o.
Proof.
  rewrite !kind_of_object_or. by_event e; tables; intros H; try (left; split; [exact H|discriminate]).
  - rewrite dget_or_dset in H. destruct (eqb_reflect m m') as [->|Hne]; [easy|]. left. split; [exact H|]. intros x E. injection E as E. congruence.
  - rewrite dget_or_dmodify in H. destruct (eqb_reflect m m') as [->|Hne]; [|left; split; [exact H|discriminate]].
    rewrite dget_dset in H. destruct (eqb_reflect o o') as [Eo|]; [right; left; subst o'; eauto|]. left. split; [exact H|discriminate].
  - rewrite dget_or_dmodify in H. destruct (eqb_reflect m m') as [->|Hne]; [|left; split; [exact H|discriminate]].
    rewrite dget_dset in H. destruct (eqb_reflect o o') as [Eo|]; [right; right; subst o'; reflexivity|]. left. split; [exact H|discriminate].
Qed.
Lemma nodes_event_inv e st m o : nodes_of_object (apply_event e st) m o <> [] ->
  nodes_of_object st m o <> [] /\ (forall x, e = Opened x -> x <> m) \/
  (exists k n, e = Recorded m o k n) \/ (exists n, e = Constructed m o n).
Proof.
  rewrite !nodes_of_object_or. by_event e; tables; intros H; try (left; split; [exact H|discriminate]).
  - rewrite dget_or_dset in H. destruct (eqb_reflect m m') as [->|Hne]; [easy|]. left. split; [exact H|]. intros x E. injection E as E. congruence.
  - rewrite dget_or_dmodify in H. destruct (eqb_reflect m m') as [->|Hne]; [|left; split; [exact H|discriminate]].
    rewrite dget_or_dmodify in H. destruct (eqb_reflect o o') as [Eo|]; [right; left; subst o'; eauto|]. left. split; [exact H|discriminate].
  - rewrite dget_or_dmodify in H. destruct (eqb_reflect m m') as [->|Hne]; [|left; split; [exact H|discriminate]].
    rewrite dget_or_dmodify in H. destruct (eqb_reflect o o') as [Eo|]; [right; right; subst o'; eauto|]. left. split; [exact H|discriminate].
Qed.
Lemma defined_added m o d0 (d : dict path scope) r s u : defined (mk_database (dmodify m d0 (add_path o) d) r s u) m o.
Proof. eexists. cbn [definitions]. rewrite dget_dmodify, eqb_refl. split; [reflexivity|]. apply has_path_add. Qed.
Lemma defined_event' e st m o : (forall x, e = Opened x -> x <> m) ->
  defined (db st) m o -> defined (db (apply_event e st)) m o.
Proof.
  intros Hx (s & Hs & Hp). by_event e; unfold defined; tables; try (exists s; split; assumption).
  1: { exists s. rewrite dget_dset. specialize (Hx m' eq_refl). destruct (eqb_reflect m m'); [congruence|easy]. }
  all: rewrite dget_dmodify; destruct (eqb_reflect m m') as [->|];
    [eexists; split; [reflexivity|]; unfold dget_or; rewrite Hs; now apply has_path_keep|now exists s].
Qed.
Lemma consistent_event e st : enabled e st -> consistent st -> consistent (apply_event e st).
Proof.
  intros He [H1 H2]. split; intros m o H.
  - apply nodes_event_inv in H. destruct H as [[H Hx]|[[k [n ->]]|[n ->]]].
    + apply kind_event'; auto.
    + apply kind_recorded.
    + apply kind_event'; [discriminate|apply He].
  - apply kind_event_inv in H. destruct H as [[H Hx]|[[k [n ->]]| ->]].
    + apply defined_event'; auto.
    + apply defined_added.
    + apply defined_added.
Qed.
Lemma consistent_steps st es st' : steps st es st' -> consistent st -> consistent st'.
Proof. induction 1; auto using consistent_event. Qed.
Lemma consistent_empty : consistent empty_state.
Proof. split; intros m o H; exfalso; now apply H. Qed.

(** Modules with parameters, and visited modules *)
Definition listed (st : state) : Prop :=
  (forall q ps, dget q (parameters_of st) = Some ps -> In (fst q) (visited st)) /\
  (forall m, In m (visited st) -> dget m (definitions (db st)) <> None) /\
  NoDup (dkeys (bases_of st)).
Lemma listed_event e st : enabled e st -> listed st -> listed (apply_event e st).
Proof.
  intros He (H1 & H2 & H3). split; [|split].
  - intros q l Hq. rewrite visited_event. apply in_or_app. by_event e; try (left; eapply H1; exact Hq).
    left. tables_in Hq. rewrite dget_dset in Hq.
    destruct (eqb_reflect q (m', o')) as [->|]; [exact He|]. eapply H1; exact Hq.
  - intros m Hm. rewrite visited_event in Hm.
    by_event e; rewrite ?app_nil_r in Hm; tables; try (now apply H2).
    1: { rewrite dget_dset. destruct (eqb_reflect m m') as [->|Hn]; [discriminate|]. apply H2.
         apply in_app_or in Hm. destruct Hm as [Hm|[->|[]]]; [exact Hm|easy]. }
    all: rewrite dget_dmodify; destruct (m == m'); [discriminate|now apply H2].
  - by_event e; tables; try exact H3; now apply NoDup_dset.
Qed.
Lemma listed_steps st es st' : steps st es st' -> listed st -> listed st'.
Proof. induction 1; auto using listed_event. Qed.
Lemma listed_empty : listed empty_state.
Proof. split; [discriminate|split; [contradiction|constructor]]. Qed.

(** ** Runs as sequences of events *)
Definition fresh (st : state) (m : path) : Prop := ~ In m (visited st).
Lemma fresh_steps st es st' m : steps st es st' -> fresh st' m -> fresh st m.
Proof. intros Hs Hf Hm. apply Hf. eapply visited_steps; eassumption. Qed.
Lemma facts_none m es : Forall (fun e => event_module e <> m) es -> facts m es = [].
Proof.
  induction 1 as [|e es He _ IH]; [reflexivity|]. unfold facts in *. cbn [flat_map]. rewrite IH, app_nil_r.
  destruct (eqb_reflect (event_module e) m) as [<-|]; [easy|reflexivity].
Qed.
Lemma steps_modules st es st' : steps st es st' -> Forall (fun e => In (event_module e) (visited st')) es.
Proof.
  induction 1 as [st|e st es st' He Hs IH]; constructor; [|exact IH]. eapply visited_steps; [exact Hs|]. rewrite visited_event.
  apply in_or_app. destruct e; cbn in *; first [now left | right; now left | left; tauto].
Qed.
Lemma opened_fresh st es st' x : steps st es st' -> In (Opened x) es -> fresh st x /\ In x (visited st').
Proof.
  induction 1 as [st|e st es st' He Hs IH]; [easy|]. intros [->|Hi].
  - split; [exact He|]. eapply visited_steps; [exact Hs|]. rewrite visited_event. apply in_or_app. right. now left.
  - destruct (IH Hi) as [H1 H2]. split; [|exact H2]. intros Hx. apply H1. rewrite visited_event. apply in_or_app. now left.
Qed.
Lemma steps_split es1 : forall st es2 st', steps st (es1 ++ es2) st' -> exists s, steps st es1 s /\ steps s es2 st'.
Proof.
  induction es1 as [|e es1 IH]; intros st es2 st' H; cbn [app] in H; [exists st; split; [constructor|exact H]|].
  inversion H as [|e' st0 es0 st0' He Hs]; subst. destruct (IH _ _ _ Hs) as (s & H1 & H2). exists s. split; [now constructor|exact H2].
Qed.
(** The states on the way *)
Definition through (st : state) (es : list event) (s : state) : Prop := exists es1 es2, es = es1 ++ es2 /\ steps st es1 s.
Lemma through_start st es : through st es st.
Proof. exists [], es. split; [reflexivity|constructor]. Qed.
Lemma through_end st es st' : steps st es st' -> through st es st'.
Proof. intros H. exists es, []. split; [now rewrite app_nil_r|exact H]. Qed.
Lemma through_left st es es' s : through st es s -> through st (es ++ es') s.
Proof. intros (a & b & -> & H). exists a, (b ++ es'). split; [now rewrite app_assoc|exact H]. Qed.
Lemma through_right st es st1 es' s : steps st es st1 -> through st1 es' s -> through st (es ++ es') s.
Proof. intros Hs (a & b & -> & H). exists (es ++ a), b. split; [now rewrite app_assoc|]. eapply steps_app; eassumption. Qed.

Section Traces.
(** What holds of the facts about a module that has been read, given some states *)
Variable told : (state -> Prop) -> path -> list fact -> Prop.
(** Events of own modules, and others are begun and read. *)
Record trace (own : path -> Prop) (st : state) (es : list event) (st' : state) : Prop := mk_trace {
  tr_steps : steps st es st';
  tr_modules : Forall (fun e => own (event_module e) \/ fresh st (event_module e)) es;
  tr_told : forall S : state -> Prop, (forall s, through st es s -> S s) -> forall x, In (Opened x) es -> told S x (facts x es)
}.
Lemma trace_nil (own : path -> Prop) st : trace own st [] st.
Proof. split; [constructor|constructor|easy]. Qed.
Lemma trace_event (own : path -> Prop) st e : (forall x, e <> Opened x) -> enabled e st -> own (event_module e) -> trace own st [e] (apply_event e st).
Proof. intros Hn He Ho. split; [now apply steps_one|constructor; [now left|constructor]|]. intros S _ x [E|[]]. now destruct (Hn x). Qed.
Lemma trace_app (own : path -> Prop) st es st1 es' st2 : (forall x, own x -> In x (visited st)) ->
  trace own st es st1 -> trace own st1 es' st2 -> trace own st (es ++ es') st2.
Proof.
  intros Ho [A1 A2 A3] [B1 B2 B3]. split.
  - eapply steps_app; eassumption.
  - apply Forall_app. split; [exact A2|]. eapply Forall_impl; [|exact B2]. intros e [H|H]; [now left|right]. eapply fresh_steps; eassumption.
  - intros S HS x Hx. rewrite facts_app. apply in_app_or in Hx. destruct Hx as [Hx|Hx].
    + rewrite (@facts_none x es'), app_nil_r; [apply A3; [|exact Hx]; intros s Hs; apply HS; now apply through_left|].
      destruct (@opened_fresh _ _ _ x A1 Hx) as [F1 F2].
      eapply Forall_impl; [|exact B2]. intros e [H|H] <-; [now apply F1, Ho|easy].
    + rewrite (@facts_none x es); [apply B3; [|exact Hx]; intros s Hs; apply HS; eapply through_right; eassumption|].
      destruct (@opened_fresh _ _ _ x B1 Hx) as [F1 F2].
      eapply Forall_impl; [|exact (steps_modules A1)]. intros e H <-. now apply F1.
Qed.

Definition leads (own : path -> Prop) {A} (st : state) (x : step A)
    (post : (state -> Prop) -> list event -> A -> Prop) (miss : (state -> Prop) -> list event -> Prop) : Prop :=
  match x with
  | Done st' a => exists es, trace own st es st' /\ forall S : state -> Prop, (forall s, through st es s -> S s) -> post S es a
  | Missing st' => exists es, trace own st es st' /\ forall S : state -> Prop, (forall s, through st es s -> S s) -> miss S es
  | Fails _ => True
  end.
(** Without claims *)
Definition none : path -> Prop := fun _ => False.
Definition goes {A} (st : state) (x : step A) : Prop := leads none st x (fun _ _ _ => True) (fun _ _ => True).
Lemma goes_done {A} st (a : A) : goes st (Done st a).
Proof. exists []. split; [apply trace_nil|auto]. Qed.
Lemma goes_missing {A} st : goes st (Missing st : step A).
Proof. exists []. split; [apply trace_nil|auto]. Qed.
Lemma goes_pure {A} st (x : res A) : goes st (pure st x).
Proof. destruct x; [apply goes_done|exact I]. Qed.
Lemma goes_steps {A} st (x : step A) : goes st x ->
  match x with Done st' _ | Missing st' => exists es, steps st es st' | Fails _ => True end.
Proof. destruct x; [intros (es & [H _ _] & _); now exists es| |easy]. intros (es & [H _ _] & _); now exists es. Qed.
Lemma goes_bind {A B} st (x : step A) (f : state -> A -> step B) :
  goes st x -> (forall es st' a, x = Done st' a -> steps st es st' -> goes st' (f st' a)) -> goes st (sbind x f).
Proof.
  intros Hx Hf. destruct x as [st' a|st'|e]; cbn [sbind]; [|exact Hx|exact I].
  destruct Hx as (es & T & _). specialize (Hf es st' a eq_refl (tr_steps T)).
  destruct (f st' a) as [st2 b|st2|]; [| |exact I]; destruct Hf as (es' & T' & _); exists (es ++ es'); (split; [|auto]);
    (eapply trace_app; [|exact T|exact T']; easy).
Qed.

Section Parser.
Variable is_package : path -> bool.
Variable condition : list (pystr * qualified_path) -> expr -> res bool.

(** *** Resolution *)
Section Resolve.
Variable parse : path -> state -> step scope.
Hypothesis parse_goes : forall m st, untouched st -> goes st (parse m st).

Lemma try_submodules_goes f subs :
  (forall sub st, untouched st -> goes st (f sub st)) ->
  forall st, untouched st -> goes st (try_submodules f subs st).
Proof.
  intros Hf. induction subs as [|sub subs IH]; intros st Hu; cbn [try_submodules]; [apply goes_done|].
  specialize (Hf sub st Hu). destruct (f sub st) as [st1 q|st1|e]; [| |exact I].
  - destruct Hf as (es & T & _). exists es. auto.
  - destruct Hf as (es & T & _). specialize (IH st1 (untouched_steps (tr_steps T) Hu)).
    destruct (try_submodules f subs st1) as [st2 q|st2|e]; [| |exact I]; destruct IH as (es' & T' & _);
      exists (es ++ es'); (split; [|auto]); (eapply trace_app; [|exact T|exact T']; easy).
Qed.
Lemma resolve_goes fuel : forall m parent o st, untouched st -> goes st (resolve_in parse fuel m parent o st).
Proof.
  induction fuel as [|fuel IH]; intros m parent o st Hu; [exact I|]. cbn [resolve_in].
  destruct o as [|first rest]; [exact I|].
  apply goes_bind; [now apply parse_goes|]. intros es st1 s _ Hs1. apply untouched_steps in Hs1; [|exact Hu].
  destruct (scope_contains_path s (parent ++ [first])); [now apply goes_done|].
  destruct (dmem first (entries s)); [now apply goes_done|].
  apply goes_bind; [apply try_submodules_goes; [intros; now apply IH|exact Hs1]|]. intros es2 st2 found _ Hs2.
  destruct found as [q|]; [now apply goes_done|].
  apply goes_bind; [apply goes_pure|]. intros es3 st3 refs _ Hs3.
  destruct (longest_reference refs (first :: rest) _) as [[referent r]|]; [now apply goes_done|].
  apply goes_bind; [apply goes_pure|]. intros es4 st4 bs _ Hs4.
  destruct (scope_contains_path bs (first :: rest)); [apply goes_done|apply goes_missing].
Qed.
End Resolve.

(** *** The visitor *)
Lemma filter_twice {A} (f g : A -> bool) l : filter f (filter g l) = filter (fun x => g x && f x) l.
Proof. induction l as [|x l IH]; cbn; [reflexivity|]. destruct (g x); cbn; [destruct (f x); now rewrite IH|exact IH]. Qed.
Lemma dedupe_distinct {A} `{Eqb A} (l : list A) : forall seen, distinct seen l (filter (fun x => negb (mem x seen)) (dedupe l)).
Proof.
  induction l as [|x l IH]; intros seen; cbn [dedupe filter]; [constructor|]. rewrite filter_twice.
  destruct (mem x seen) eqn:E; cbn [negb].
  - apply mem_In in E. apply di_again; [exact E|]. erewrite filter_ext; [apply IH|]. intros y. cbn.
    destruct (eqb_reflect y x) as [->|]; [|reflexivity]. apply mem_In in E. now rewrite E.
  - apply mem_not_In in E. apply di_first; [exact E|]. erewrite filter_ext; [apply IH|]. intros y. cbn.
    now rewrite negb_orb.
Qed.
Lemma dedupe_first {A} `{Eqb A} (l : list A) : distinct [] l (dedupe l).
Proof.
  pose proof (dedupe_distinct l []) as D. cbn in D. replace (filter _ (dedupe l)) with (dedupe l) in D; [exact D|].
  symmetry. clear D. induction (dedupe l) as [|x r IH]; cbn; [reflexivity|]. now rewrite IH.
Qed.
Lemma dedupe_In {A} `{Eqb A} (x : A) l : In x (dedupe l) <-> In x l.
Proof.
  induction l as [|y l IH]; cbn [dedupe In]; [reflexivity|]. rewrite filter_In, IH.
  destruct (eqb_reflect x y) as [->|Hn]; [tauto|]. cbn. intuition congruence.
Qed.
Section Visitor.
Variable parse : path -> state -> step scope.
Variable resolve : path -> path -> path -> state -> step qualified_path.
Hypothesis parse_goes : forall m st, untouched st -> goes st (parse m st).
Hypothesis resolve_goes : forall m parent o st, untouched st -> goes st (resolve m parent o st).

(** The module being parsed, and what is known about it *)
Variable m : path.
Definition sound (st : state) (before : list fact) : Prop := In m (visited st) /\ untouched st /\ tables_say m st before.
Lemma sound_steps st es st' before : steps st es st' -> sound st before -> sound st' (before ++ facts m es).
Proof.
  intros Hs (H1 & H2 & H3). split; [|split].
  - eapply visited_steps; eassumption.
  - eapply untouched_steps; eassumption.
  - now apply (tables_steps Hs).
Qed.
Lemma sound_event st e before : enabled e st -> event_module e = m -> sound st before -> sound (apply_event e st) (before ++ event_fact e).
Proof. intros He Hm Hs. rewrite <- (@facts_one m e Hm). eapply sound_steps; [|exact Hs]. now apply steps_one. Qed.
Lemma sound_visited st before : sound st before -> In m (visited st).
Proof. now intros (H & _). Qed.
Lemma own_visited st before : sound st before -> forall x, m = x -> In x (visited st).
Proof. intros (H & _) x <-. exact H. Qed.

(** Claims about what is recorded for [m] *)
Definition tells {A} (st : state) (x : step A) (Q : (state -> Prop) -> list fact -> A -> Prop) (N : (state -> Prop) -> list fact -> Prop) : Prop :=
  leads (eq m) st x (fun S es a => Q S (facts m es) a) (fun S es => N S (facts m es)).
Definition silent {A} st (x : step A) : Prop := tells st x (fun _ fs _ => fs = []) (fun _ fs => fs = []).
Lemma goes_silent {A} st before (x : step A) : sound st before -> goes st x -> silent st x.
Proof.
  intros (Hm & _) H.
  assert (K : forall es st', trace none st es st' -> trace (eq m) st es st' /\ facts m es = []).
  { intros es st' [T1 T2 T3]. split.
    - split; [exact T1| |exact T3]. eapply Forall_impl; [|exact T2]. intros e [[]|F]. now right.
    - apply facts_none. eapply Forall_impl; [|exact T2]. intros e [[]|F] <-. now apply F. }
  destruct x as [st' a|st'|e]; [| |exact I]; destruct H as (es & T & _); exists es; destruct (K _ _ T) as [K1 K2]; auto.
Qed.
Lemma silent_resolve x parent o st before : sound st before -> silent st (resolve x parent o st).
Proof. intros Hs. eapply goes_silent; [exact Hs|]. apply resolve_goes, Hs. Qed.
Lemma silent_parse x st before : sound st before -> silent st (parse x st).
Proof. intros Hs. eapply goes_silent; [exact Hs|]. apply parse_goes, Hs. Qed.

(** Chaining computations *)
Lemma tells_bind {A B} st before (x : step A) (f : state -> A -> step B)
    (P : (state -> Prop) -> list fact -> A -> Prop) (M : (state -> Prop) -> list fact -> Prop)
    (Q : (state -> Prop) -> list fact -> B -> Prop) (N : (state -> Prop) -> list fact -> Prop) : sound st before ->
  tells st x P M ->
  (forall (S : state -> Prop) fs st', x = Missing st' -> S st -> M S fs -> N S fs) ->
  (forall es fs st1 a, x = Done st1 a -> steps st es st1 -> sound st1 (before ++ fs) -> P (fun _ => True) fs a ->
     tells st1 (f st1 a) (fun S fs' b => S st -> P S fs a -> Q S (fs ++ fs') b) (fun S fs' => S st -> P S fs a -> N S (fs ++ fs'))) ->
  tells st (sbind x f) Q N.
Proof.
  intros Hs Hx HM Hf. destruct x as [st1 a|st1|e]; cbn [sbind]; [| |exact I].
  - destruct Hx as (es & T & HP). specialize (Hf es (facts m es) st1 a eq_refl (tr_steps T) (sound_steps (tr_steps T) Hs) (HP _ (fun _ _ => I))).
    assert (K : forall es' (S : state -> Prop), (forall s, through st (es ++ es') s -> S s) -> S st /\ (forall s, through st es s -> S s) /\ (forall s, through st1 es' s -> S s)).
    { intros es' S HS. split; [apply HS, through_start|]. split; intros s H; apply HS; [now apply through_left|].
      eapply through_right; [apply T|exact H]. }
    destruct (f st1 a) as [st2 b|st2|]; [| |exact I]; destruct Hf as (es' & T' & HQ); exists (es ++ es');
      (split; [eapply trace_app; [now apply own_visited with (before := before)|exact T|exact T']|]);
      intros S HS; destruct (K _ _ HS) as (K1 & K2 & K3); rewrite facts_app; apply HQ; auto.
  - destruct Hx as (es & T & HP). exists es. split; [exact T|]. intros S HS. eapply HM; [reflexivity|apply HS, through_start|]. now apply HP.
Qed.
Lemma tells_impl {A} st (x : step A) (P Q : (state -> Prop) -> list fact -> A -> Prop) (M N : (state -> Prop) -> list fact -> Prop) :
  (forall (S : state -> Prop) fs a, S st -> P S fs a -> Q S fs a) -> (forall (S : state -> Prop) fs, S st -> M S fs -> N S fs) ->
  tells st x P M -> tells st x Q N.
Proof.
  intros HP HM H. destruct x as [st' a|st'|e]; [| |exact I]; destruct H as (es & T & H); exists es; (split; [exact T|]); intros S HS;
    [apply HP|apply HM]; first [apply HS, through_start|now apply H].
Qed.
Lemma silent_then {A B} st before (x : step A) (f : state -> A -> step B)
    (Q : (state -> Prop) -> list fact -> B -> Prop) (N : (state -> Prop) -> list fact -> Prop) : sound st before ->
  silent st x ->
  (forall (S : state -> Prop) st', x = Missing st' -> S st -> N S []) ->
  (forall es st1 a, x = Done st1 a -> steps st es st1 -> sound st1 before ->
     tells st1 (f st1 a) (fun S fs b => S st -> Q S fs b) (fun S fs => S st -> N S fs)) ->
  tells st (sbind x f) Q N.
Proof.
  intros Hs Hx HM Hf. eapply tells_bind; [exact Hs|exact Hx| |].
  - cbv beta. intros S fs st' E HS ->. eapply HM; eassumption.
  - cbv beta. intros es fs st1 a E H1 H2 ->. rewrite app_nil_r in H2. specialize (Hf es st1 a E H1 H2).
    eapply tells_impl; [| |exact Hf]; cbv beta; cbn [app]; auto.
Qed.
Lemma tells_done {A} st (a : A) (Q : (state -> Prop) -> list fact -> A -> Prop) (N : (state -> Prop) -> list fact -> Prop) : (forall S : state -> Prop, S st -> Q S [] a) -> tells st (Done st a) Q N.
Proof. intros H. exists []. split; [apply trace_nil|]. intros S HS. apply H, HS, through_start. Qed.
Lemma silent_done {A} st (a : A) : silent st (Done st a).
Proof. apply tells_done. reflexivity. Qed.
Lemma not_opened st before e : sound st before -> enabled e st -> event_module e = m -> forall x, e <> Opened x.
Proof. intros (Hm & _) He E x ->. cbn in *. subst x. now apply He. Qed.
Lemma tells_event {A} st before e (a : A) (Q : (state -> Prop) -> list fact -> A -> Prop) (N : (state -> Prop) -> list fact -> Prop) : sound st before ->
  enabled e st -> event_module e = m -> (forall S : state -> Prop, S st -> Q S (event_fact e) a) ->
  tells st (Done (apply_event e st) a) Q N.
Proof.
  intros Hs He Hm HQ. exists [e]. split; [apply trace_event; [now apply (not_opened Hs)|exact He|now rewrite Hm]|].
  intros S HS. rewrite facts_one by exact Hm. apply HQ, HS, through_start.
Qed.
(** ... with an event first *)
Lemma tells_first {A} st before e (x : step A) (Q : (state -> Prop) -> list fact -> A -> Prop) (N : (state -> Prop) -> list fact -> Prop) : sound st before ->
  enabled e st -> event_module e = m ->
  tells (apply_event e st) x (fun S fs a => S st -> Q S (event_fact e ++ fs) a) (fun S fs => S st -> N S (event_fact e ++ fs)) ->
  tells st x Q N.
Proof.
  intros Hs He Hm H.
  assert (T0 : trace (eq m) st [e] (apply_event e st)) by (apply trace_event; [now apply (not_opened Hs)|exact He|now rewrite Hm]).
  destruct x as [st2 b|st2|]; [| |exact I]; destruct H as (es & T & HQ); exists ([e] ++ es);
    (split; [eapply trace_app; [now apply own_visited with (before := before)|exact T0|exact T]|]);
    intros S HS; rewrite facts_app, (facts_one e Hm); apply HQ;
    first [apply HS, through_start | intros s Hx; apply HS; eapply through_right; [apply T0|exact Hx]].
Qed.

(** *** Names *)
Notation finds S := (finds_in resolve m S).
Notation type_variable S := (type_variable_in parse resolve m S).
Lemma to_qualified_path_tells parent o st before : sound st before ->
  tells st (to_qualified_path resolve m parent o st) (fun S fs q => stands_for m (finds S) before parent o fs q) (fun _ _ => False).
Proof.
  intros Hs. unfold to_qualified_path. pose proof (@silent_resolve m parent o st before Hs) as H.
  destruct (resolve m parent o st) as [st' q|st'|e] eqn:E; [| |exact I].
  - destruct H as (es & T & HP). exists es. split; [exact T|]. intros S HS. rewrite (HP S HS). constructor.
    exists st. split; [apply HS, through_start|]. split; [apply Hs|]. now exists st'.
  - destruct H as (es & T & HP). pose proof (HP (fun _ => True) (fun _ _ => I)) as E0.
    change (add_path_definition m parent o st') with (apply_event (PathSeen m (parent ++ o)) st').
    assert (Hs' : sound st' before) by (rewrite <- (app_nil_r before), <- E0; eapply sound_steps; [apply T|exact Hs]).
    exists (es ++ [PathSeen m (parent ++ o)]). split.
    + eapply trace_app; [now apply own_visited with (before := before)|exact T|].
      apply trace_event; [discriminate|now apply sound_visited with (before := before)|reflexivity].
    + intros S HS. rewrite facts_app, E0, facts_one by reflexivity. cbn [app event_fact]. constructor.
      exists st. split; [apply HS, through_start|]. split; [apply Hs|]. now exists st'.
Qed.

Lemma is_type_var_tells parent o st before : sound st before ->
  tells st (is_type_var_object_path parse resolve m parent o st)
    (fun S fs b => exists q, stands_for m (finds S) before parent o fs q /\ type_variable S (before ++ fs) q (Some b))
    (fun S fs => exists q, stands_for m (finds S) before parent o fs q /\ type_variable S (before ++ fs) q None).
Proof.
  intros Hs. unfold is_type_var_object_path.
  eapply tells_bind; [exact Hs|eapply to_qualified_path_tells; exact Hs|contradiction|]. cbv beta. intros es1 fs1 st1 q _ _ Hs1 _.
  eapply silent_then; [exact Hs1|eapply silent_parse; exact Hs1| |].
  { cbv beta. intros S st' E HS HS0 R. rewrite app_nil_r. exists q. split; [exact R|]. exists st1. split; [exact HS|]. split; [apply Hs1|]. left. now exists st'. }
  intros es2 st2 s2 _ _ Hs2. unfold fetch. destruct (dget (fst q) (nodes st2)) as [t|] eqn:Et; [|exact I]. cbn [pure sbind].
  assert (En : nodes_of_object st2 (fst q) (snd q) = dget_or (snd q) [] t) by (unfold nodes_of_object; now rewrite Et).
  set (QY := fun (S : state -> Prop) fs b => S st1 -> S st -> stands_for m (finds S) before parent o fs1 q ->
     exists q0, stands_for m (finds S) before parent o (fs1 ++ fs) q0 /\ type_variable S (before ++ fs1 ++ fs) q0 (Some b)).
  set (QN := fun (S : state -> Prop) fs => S st1 -> S st -> stands_for m (finds S) before parent o fs1 q ->
     exists q0, stands_for m (finds S) before parent o (fs1 ++ fs) q0 /\ type_variable S (before ++ fs1 ++ fs) q0 None).
  change (tells st2 match dget_or (snd q) [] t with
    | [SAnnAssign _ _ (Some (Call func _ _))] | [SAssign _ (Call func _ _)] =>
        match to_maybe_path func with
        | None => Done st2 false
        | Some p => run [st, c] <- resolve (fst q) [] p st2; Done st (c == TypeVar_path)
        end
    | _ => Done st2 false
    end QY QN).
  assert (HF : (forall s f p, nodes_of_object st2 (fst q) (snd q) = [s] -> constructed s f -> dotted f p -> False) ->
    tells st2 (Done st2 false) QY QN).
  { intros HN. apply tells_done. intros S HS _ _ R. exists q. rewrite app_nil_r. split; [exact R|].
    exists st2. split; [exact HS|]. split; [apply Hs2|]. intros s f p H1 H2 H3. now destruct (HN s f p). }
  assert (HC : forall s func, nodes_of_object st2 (fst q) (snd q) = [s] -> constructed s func -> tells st2
    match to_maybe_path func with
    | None => Done st2 false
    | Some p => run [st, c] <- resolve (fst q) [] p st2; Done st (c == TypeVar_path)
    end QY QN).
  { intros s func E Hc. destruct (to_maybe_path func) as [p|] eqn:Ep.
    - apply to_maybe_path_dotted in Ep. eapply silent_then; [exact Hs2|eapply silent_resolve; exact Hs2| |].
      + cbv beta. intros S st' Er HS _ _ R. exists q. rewrite app_nil_r. split; [exact R|].
        exists st2. split; [exact HS|]. split; [apply Hs2|]. right. exists s, func, p, st'. auto.
      + intros es3 st3 c Er _ Hs3. apply tells_done. cbv beta. intros S _ HS _ _ R. exists q. rewrite app_nil_r. split; [exact R|].
        exists st2. split; [exact HS|]. split; [apply Hs2|]. destruct (eqb_reflect c TypeVar_path) as [->|Hn].
        * exists s, func, p, st3. auto.
        * intros s' f' p' E' Hc' Hp'. rewrite E in E'. injection E' as <-.
          assert (f' = func) as -> by (destruct Hc; inversion Hc'; congruence).
          assert (p' = p) as -> by (apply to_maybe_path_dotted in Ep, Hp'; congruence). now exists st3, c.
    - apply HF. intros s' f' p' E' Hc' Hp'. rewrite E in E'. injection E' as <-.
      assert (f' = func) as -> by (destruct Hc; inversion Hc'; congruence). apply to_maybe_path_dotted in Hp'. congruence. }
  rewrite <- En in *. clear En.
  destruct (nodes_of_object st2 (fst q) (snd q)) as [|s [|s' r]] eqn:En.
  - apply HF. intros s f p H. discriminate H.
  - destruct s as [ta an [v|]|ts v|f|f|n bs bd|te b o'|ns|mo ns le|ch];
      try (apply HF; intros s0 f0 p0 E0 Hc; injection E0 as <-; now inversion Hc);
      destruct v; try (apply HF; intros s0 f0 p0 E0 Hc; injection E0 as <-; now inversion Hc).
    + eapply HC; [reflexivity|constructor].
    + eapply HC; [reflexivity|constructor].
  - assert (HG : tells st2 (Done st2 false) QY QN) by (apply HF; intros s0 f0 p0 H; discriminate H).
    destruct s as [ta an [v|]|ts v|f|f|n bs bd|te b o'|ns|mo ns le|ch]; try exact HG; destruct v; exact HG.
Qed.

Lemma type_variables_tells parent arguments : forall st before, sound st before ->
  tells st (type_variables parse resolve m parent arguments st)
    (fun S fs ps => variables m (finds S) (type_variable S) parent before arguments fs ps)
    (fun S fs => variables_cut m (finds S) (type_variable S) parent before arguments fs).
Proof.
  induction arguments as [|a r IH]; intros st before Hs; cbn [type_variables]; [apply tells_done; intros; constructor|].
  destruct (to_maybe_path a) as [p|] eqn:Ea.
  - apply to_maybe_path_dotted in Ea.
    eapply tells_bind; [exact Hs|eapply is_type_var_tells; exact Hs| |].
    { cbv beta. intros S fs st' _ _ (q & R & V). eapply vc_here; eassumption. }
    cbv beta. intros es1 fs1 st1 b _ _ Hs1 _.
    eapply tells_bind; [exact Hs1|eapply IH; exact Hs1| |].
    { cbv beta. intros S fs st' _ _ V _ (q & R & W). eapply vc_later; eassumption. }
    cbv beta. intros es2 fs2 st2 l _ _ Hs2 _. apply tells_done. intros S _ _ V _ (q & R & W). rewrite app_nil_r.
    eapply va_name; eassumption.
  - assert (Hd : forall p, ~ dotted a p) by (intros p Hd; apply to_maybe_path_dotted in Hd; congruence).
    eapply tells_impl; [| |eapply IH; exact Hs]; cbv beta.
    + intros S fs ps _ V. now apply va_other.
    + intros S fs _ V. now apply vc_other.
Qed.
Lemma resolve_names_tells parent names : forall st before, sound st before ->
  tells st (resolve_names resolve m parent names st)
    (fun S fs bs => fs = [] /\ map fst bs = names /\ forall n q, In (n, q) bs -> finds S before parent [n] (Some q))
    (fun S fs => fs = [] /\ exists n, In n names /\ finds S before parent [n] None).
Proof.
  induction names as [|a r IH]; intros st before Hs; cbn [resolve_names].
  { apply tells_done. intros. repeat split. contradiction. }
  eapply silent_then; [exact Hs|eapply silent_resolve; exact Hs| |].
  { intros S st' E HS. split; [reflexivity|]. exists a. split; [now left|]. exists st. split; [exact HS|]. split; [apply Hs|]. now exists st'. }
  intros es1 st1 b E1 _ Hs1.
  eapply tells_bind; [exact Hs1|eapply IH; exact Hs1| |].
  { cbv beta. intros S fs st' _ _ (-> & n & Hn & F) _. split; [reflexivity|]. exists n. split; [now right|exact F]. }
  cbv beta. intros es2 fs2 st2 l _ _ _ (-> & _). apply tells_done. intros S _ _ (_ & <- & D) HS. repeat split.
  intros n q [E|Hi]; [|now apply D]. injection E as <- <-. exists st. split; [exact HS|]. split; [apply Hs|]. now exists st1.
Qed.
Lemma occurs_names n e : occurs n e <-> In n (names_in e).
Proof.
  split.
  - induction 1 as [|e p Hp _ IH]; [now left|].
    destruct e; cbn [parts In] in Hp; cbn [names_in]; try contradiction.
    + destruct Hp as [->|[]]. exact IH.
    + destruct Hp as [->|[->|[]]]; apply in_or_app; auto.
    + apply in_flat_map. eauto.
    + apply in_flat_map. eauto.
    + apply in_flat_map in Hp. destruct Hp as ([[k|] v] & Hi & Hp); cbn [fst snd In] in Hp; apply in_flat_map; exists (Some k, v) || exists (None, v);
        (split; [exact Hi|]); cbn [fst snd]; apply in_or_app; destruct Hp as [->|Hp]; auto; destruct Hp as [->|[]]; auto.
    + destruct Hp as [->|Hp]; [apply in_or_app; auto|]. apply in_or_app. right. apply in_or_app.
      apply in_app_or in Hp. destruct Hp as [Hp|Hp]; [left; apply in_flat_map; eauto|].
      right. apply in_map_iff in Hp. destruct Hp as (k & <- & Hk). apply in_flat_map. eauto.
    + destruct Hp as [->|[->|[]]]; apply in_or_app; auto.
    + destruct Hp as [->|[]]. exact IH.
    + apply in_flat_map. eauto.
  - induction e as [id|v a IH|v s IHv IHs|es IH|es IH|items IH|f es ks IHf IHes IHks|l o r IHl IHr|o e IH|k|es IH] using expr_ind';
      cbn [names_in]; intros H.
    + destruct H as [->|[]]. constructor.
    + eapply oc_part; [now left|auto].
    + apply in_app_or in H. destruct H; eapply oc_part; [now left|auto|right; now left|auto].
    + apply in_flat_map in H. destruct H as (p & Hp & H). eapply oc_part; [exact Hp|]. rewrite Forall_forall in IH. auto.
    + apply in_flat_map in H. destruct H as (p & Hp & H). eapply oc_part; [exact Hp|]. rewrite Forall_forall in IH. auto.
    + apply in_flat_map in H. destruct H as ([k v] & Hi & H). rewrite Forall_forall in IH. destruct (IH _ Hi) as [IHk IHv]. cbn [fst snd] in *.
      apply in_app_or in H. destruct H as [H|H].
      * destruct k as [k|]; [|destruct H]. eapply (@oc_part _ _ k); [apply in_flat_map; exists (Some k, v); split; [exact Hi|now left]|auto].
      * eapply (@oc_part _ _ v); [apply in_flat_map; exists (k, v); split; [exact Hi|destruct k; cbn; auto]|auto].
    + apply in_app_or in H. destruct H as [H|H]; [eapply oc_part; [now left|auto]|].
      apply in_app_or in H. destruct H as [H|H]; apply in_flat_map in H; destruct H as (p & Hp & H).
      * eapply oc_part; [right; apply in_or_app; left; exact Hp|]. rewrite Forall_forall in IHes. auto.
      * eapply (@oc_part _ _ (snd p)); [right; apply in_or_app; right; now apply in_map|]. rewrite Forall_forall in IHks. auto.
    + apply in_app_or in H. destruct H; eapply oc_part; [now left|auto|right; now left|auto].
    + eapply oc_part; [now left|auto].
    + contradiction.
    + apply in_flat_map in H. destruct H as (p & Hp & H). eapply oc_part; [exact Hp|]. rewrite Forall_forall in IH. auto.
Qed.
Lemma below_names test n : In n (dedupe (names_below test)) <-> occurs n test /\ test <> Name n.
Proof.
  rewrite dedupe_In, occurs_names. destruct test; cbn [names_below].
  1: { cbn. split; [easy|]. intros [[->|[]] H]. now apply H. }
  all: split; [intros H; split; [exact H|discriminate]|tauto].
Qed.

(** Named tuples *)
Lemma fields_annotations body : forall xs, map_m ann_assign_to_arg (annotations_of body) = Ok xs ->
  exists fs, fields body fs /\ xs = map (fun x => mk_arg (fst (fst x)) (Some (snd (fst x)))) fs /\
    map snd (annotations_of body) = map snd fs.
Proof.
  induction body as [|s body IH]; intros xs H.
  - injection H as <-. exists []. repeat split. constructor.
  - destruct s as [ta an v|ts v|f|f|n bs bd|te b o'|ns|mo ns le|ch].
    1: { cbn [annotations_of flat_map app] in H. cbn [map_m] in H. unfold ann_assign_to_arg at 1 in H. cbn [fst snd] in H.
         destruct ta; try discriminate H. cbn [bind_res] in H.
         destruct (map_m ann_assign_to_arg (annotations_of body)) as [ys|] eqn:E.
         - destruct (IH ys eq_refl) as (fs & F1 & -> & F3). exists ((id, an, v) :: fs). repeat split.
           + now constructor.
           + unfold annotations_of in E. rewrite E in H. cbn in H. now injection H as <-.
           + cbn. f_equal. exact F3.
         - unfold annotations_of in E. rewrite E in H. discriminate H. }
    all: destruct (IH xs H) as (fs & F1 & F2 & F3); exists fs; repeat split; try assumption; constructor; [discriminate|exact F1].
Qed.
Lemma constructor_spec name body node : named_tuple_to_constructor name body = Ok node -> constructor_of name body node.
Proof.
  unfold named_tuple_to_constructor. destruct (map_m ann_assign_to_arg (annotations_of body)) as [xs|] eqn:E; [|discriminate].
  cbn. intros H. injection H as <-. destruct (fields_annotations _ E) as (fs & F1 & F2 & F3).
  apply co with (fs := fs); cbn; try reflexivity; [exact F1|now rewrite F2|]. rewrite <- F3.
  clear. induction (annotations_of body) as [|[[t a] [v|]] l IH]; cbn; [reflexivity| |exact IH]. now rewrite IH.
Qed.

(** Bases of the class [parent ++ [name]] *)
Section Bases.
Variable parent : path.
Variable name : pystr.
Variable body : list stmt.
Definition seen (st : state) : Prop := kind_of_object st m (parent ++ [name]) <> None.
Lemma seen_steps st es st' before : steps st es st' -> sound st before -> seen st -> seen st'.
Proof. intros H Hs. eapply kind_steps; [exact H|]. now apply sound_visited with (before := before). Qed.
Lemma visit_base_tells base st before : sound st before -> seen st ->
  tells st (visit_base parse resolve m parent name body base st)
    (fun S => base_says m (finds S) (type_variable S) arguments_of parent name body before base)
    (fun S => base_cut m (finds S) (type_variable S) arguments_of parent before base).
Proof.
  intros Hs Hc. unfold visit_base.
  set (Q := fun S => base_says m (finds S) (type_variable S) arguments_of parent name body before base).
  set (N := fun S => base_cut m (finds S) (type_variable S) arguments_of parent before base).
  assert (HP : tells st
    (run [st, p] <- pure st (to_path base);
      run [st, q] <- to_qualified_path resolve m parent p st;
      if q == NamedTuple_path then
        run [st, constructor] <- pure st (named_tuple_to_constructor name body);
        Done (add_superclass m (parent ++ [name]) q (add_ast_node m parent [name] constructor st)) []
      else if q == Protocol_path then Done st []
      else if q == Generic_path then Fails AssertionError
      else Done (add_base (m, parent ++ [name]) base st) (@nil path)) Q N).
  { destruct (to_path base) as [p|e] eqn:Ep; [|exact I]. apply to_path_dotted in Ep. cbn [pure sbind].
    eapply tells_bind; [exact Hs|eapply to_qualified_path_tells; exact Hs|contradiction|]. cbv beta. intros es2 fs2 st2 q _ St2 Hs2 _.
    assert (Hc2 : seen st2) by (eapply seen_steps; eassumption).
    destruct (eqb_reflect q NamedTuple_path) as [->|N1].
    - destruct (named_tuple_to_constructor name body) as [node|e] eqn:E; [|exact I]. cbn [pure sbind].
      apply (@tells_event _ st2 (before ++ fs2) (Constructed m (parent ++ [name]) node) []).
      + exact Hs2.
      + split; [now apply sound_visited with (before := before ++ fs2)|exact Hc2].
      + reflexivity.
      + intros S _ _ R. eapply bs_named_tuple; [exact Ep|exact R|now apply constructor_spec].
    - destruct (eqb_reflect q Protocol_path) as [->|N2].
      { apply tells_done. intros S _ _ R. rewrite app_nil_r. eapply bs_protocol; eassumption. }
      destruct (eqb_reflect q Generic_path) as [->|N3]; [exact I|].
      apply (@tells_event _ st2 (before ++ fs2) (Based m (parent ++ [name]) base) []);
        [exact Hs2|now apply sound_visited with (before := before ++ fs2)|reflexivity|].
      intros S _ _ R. eapply bs_plain; [exact Ep|exact R|]. intros [X|[X|[X|[]]]]; [now apply N1|now apply N2|now apply N3]. }
  destruct base as [id|v a|v s|es|es|items|f es ks|l o r|o e|c|es]; try exact HP. clear HP.
  destruct (collect_type_args (weight (Subscript v s)) (Subscript v s)) as [args|] eqn:Ea; [|exact I]. cbn [pure sbind].
  eapply tells_bind; [exact Hs|eapply type_variables_tells; exact Hs| |].
  { cbv beta. intros S fs st' _ _ V. eapply bc_variables; eassumption. }
  cbv beta. intros es2 fs2 st2 vars _ St2 Hs2 _.
  destruct (to_maybe_path v) as [p|] eqn:Ep.
  - apply to_maybe_path_dotted in Ep.
    eapply silent_then; [exact Hs2|eapply silent_resolve; exact Hs2| |].
    { cbv beta. intros S st' E HS _ V. rewrite app_nil_r. eapply bc_value; [exact Ea|exact V|exact Ep|].
      exists st2. split; [exact HS|]. split; [apply Hs2|]. now exists st'. }
    intros es3 st3 q E3 _ Hs3.
    assert (HF : forall S : state -> Prop, S st2 -> finds S (before ++ fs2) parent p (Some q)).
    { intros S HS. exists st2. split; [exact HS|]. split; [apply Hs2|]. now exists st3. }
    destruct (mem q [Generic_path; Protocol_path]) eqn:Em.
    + apply tells_done. intros S _ HS _ V. rewrite app_nil_r. apply mem_In in Em. eapply bs_parameters; eauto.
    + apply mem_not_In in Em.
      apply (@tells_event _ st3 (before ++ fs2) (Based m (parent ++ [name]) (Subscript v s)) vars);
        [exact Hs3|now apply sound_visited with (before := before ++ fs2)|reflexivity|].
      intros S _ HS _ V. eapply bs_generic; [exact Ea|exact V|].
      intros p' Hp'. exists q. split; [|exact Em]. enough (p' = p) as -> by now apply HF.
      apply to_maybe_path_dotted in Ep, Hp'. congruence.
  - apply (@tells_event _ st2 (before ++ fs2) (Based m (parent ++ [name]) (Subscript v s)) vars);
      [exact Hs2|now apply sound_visited with (before := before ++ fs2)|reflexivity|].
    intros S _ _ V. eapply bs_generic; [exact Ea|exact V|]. intros p Hp. apply to_maybe_path_dotted in Hp. congruence.
Qed.
Lemma visit_bases_tells bases : forall st before, sound st before -> seen st ->
  tells st (visit_bases parse resolve m parent name body bases st)
    (fun S => bases_say m (finds S) (type_variable S) arguments_of parent name body before bases)
    (fun S => bases_cut m (finds S) (type_variable S) arguments_of parent name body before bases).
Proof.
  induction bases as [|b r IH]; intros st before Hs Hc; cbn [visit_bases]; [apply tells_done; intros; constructor|].
  eapply tells_bind; [exact Hs|eapply visit_base_tells; [exact Hs|exact Hc]| |].
  { cbv beta. intros S fs st' _ _ B. now apply bsc_here. }
  cbv beta. intros es1 fs1 st1 v1 _ St1 Hs1 _.
  eapply tells_bind; [exact Hs1|eapply IH; [exact Hs1|eapply seen_steps; eassumption]| |].
  { cbv beta. intros S fs st' _ _ B _ B1. eapply bsc_later; eassumption. }
  cbv beta. intros es2 fs2 st2 v2 _ _ _ _. apply tells_done. intros S _ _ B2 _ B1. rewrite app_nil_r. econstructor; eassumption.
Qed.
End Bases.

(** Imports *)
Definition grows (st st' : state) (Q : list fact -> Prop) : Prop :=
  tells st (Done st' tt) (fun _ fs _ => Q fs) (fun _ _ => False).
Lemma grows_fold {A} (f : state -> A -> state) (Q : A -> list fact -> Prop) l :
  (forall st before a, sound st before -> grows st (f st a) (Q a)) ->
  forall st before, sound st before -> grows st (fold_left f l st) (concerning Q l).
Proof.
  intros Hf. induction l as [|a l IH]; intros st before Hs; cbn [fold_left]; [apply tells_done; intros; constructor|].
  destruct (Hf st before a Hs) as (es & T & H). destruct (IH (f st a) _ (sound_steps (tr_steps T) Hs)) as (es' & T' & H').
  exists (es ++ es'). split; [eapply trace_app; [now apply own_visited with (before := before)|exact T|exact T']|].
  intros S HS. rewrite facts_app. constructor; [apply (H S)|apply (H' S)]; intros s Hx; apply HS;
    [now apply through_left|eapply through_right; [apply T|exact Hx]].
Qed.
Lemma import_grows st before a : sound st before -> grows st (visit_import m a st) (import_says a).
Proof.
  intros Hs. unfold visit_import. destruct a as [s [n|]]; cbn [alias_asname alias_name].
  - apply (@tells_event _ st before (Referred m [n] (path_from_string s, [])) tt); [exact Hs|now apply sound_visited with (before := before)|reflexivity|].
    intros _ _. constructor. now apply split_spelled.
  - assert (HF : forall ps st before, sound st before -> grows st (fold_left (fun st p => add_reference m p (p, []) st) ps st)
      (fun fs => fs = map (fun p => Refers p (p, [])) ps)).
    { clear st before Hs. induction ps as [|p ps IH]; intros st before Hs; cbn [fold_left]; [now apply tells_done|].
      apply (@tells_first _ st before (Referred m p (p, []))); [exact Hs|now apply sound_visited with (before := before)|reflexivity|].
      eapply (@tells_impl _ _ _ _ _ (fun _ _ => False)); [| |eapply IH]; cbv beta.
      - intros S fs [] _ -> _. reflexivity.
      - now intros S fs _ [].
      - apply (@sound_event st (Referred m p (p, [])) before); [now apply sound_visited with (before := before)|reflexivity|exact Hs]. }
    eapply (@tells_impl _ _ _ _ _ (fun _ _ => False)); [| |eapply HF; exact Hs]; cbv beta; [|contradiction]. intros S fs [] _ ->. set (p := path_from_string s).
    apply im_plain with (p := p); [now apply split_spelled|unfold prefixes; now rewrite !map_length, seq_length|].
    intros k Hk. unfold prefixes. rewrite map_map. erewrite map_nth_error; [reflexivity|].
    rewrite nth_error_nth' with (d := 0) by now rewrite seq_length. now rewrite seq_nth.
Qed.
Lemma import_from_grows pm st before a : sound st before -> grows st (visit_import_from m pm a st) (from_says pm a).
Proof.
  intros Hs. unfold visit_import_from. destruct a as [s n]. cbn [alias_asname alias_name].
  assert (Hv : In m (visited st)) by now apply sound_visited with (before := before).
  destruct (eqb_reflect s $"*") as [->|Hn].
  - apply (@tells_event _ st before (Starred m pm) tt); [exact Hs|exact Hv|reflexivity|]. intros _ _. constructor.
  - assert (Hp : spelled 46 (path_from_string s) s) by now apply split_spelled.
    destruct n as [n|].
    + apply (@tells_event _ st before (Referred m [n] (pm, path_from_string s)) tt); [exact Hs|exact Hv|reflexivity|]. intros _ _. now constructor.
    + apply (@tells_event _ st before (Referred m (path_from_string s) (pm, path_from_string s)) tt); [exact Hs|exact Hv|reflexivity|]. intros _ _. now constructor.
Qed.

(** *** The statements *)
Notation saying S := (says m (is_package m) condition (finds S) (type_variable S) arguments_of).
Notation all_saying S := (all_say m (is_package m) condition (finds S) (type_variable S) arguments_of).
Notation saying_cut S := (says_cut m (is_package m) condition (finds S) (type_variable S) arguments_of).
Notation all_saying_cut S := (all_cut m (is_package m) condition (finds S) (type_variable S) arguments_of).
Definition stmt_tells (s : stmt) : Prop := forall parent st before, sound st before ->
  tells st (visit is_package condition parse resolve m parent s st)
    (fun S fs _ => saying S before parent s fs) (fun S fs => saying_cut S before parent s fs).
Lemma each_visit_tells ss : Forall stmt_tells ss -> forall parent st before, sound st before ->
  tells st (each (visit is_package condition parse resolve m parent) ss st)
    (fun S fs _ => all_saying S before parent ss fs) (fun S fs => all_saying_cut S before parent ss fs).
Proof.
  induction 1 as [|s ss Hs HF IH]; intros parent st before Ht; cbn [each]; [apply tells_done; intros; constructor|].
  eapply tells_bind; [exact Ht|eapply Hs; exact Ht| |].
  { cbv beta. intros S fs st' _ _ C. now apply ac_here. }
  cbv beta. intros es1 fs1 st1 [] _ _ Hs1 _.
  eapply tells_impl; [| |eapply IH; exact Hs1]; cbv beta.
  - intros S fs _ _ D _ D1. now constructor.
  - intros S fs _ D _ D1. now apply ac_later.
Qed.
Lemma each_concerning {A} (f : A -> state -> step unit) (Q : A -> list fact -> Prop) l :
  (forall a st before, sound st before -> tells st (f a st) (fun _ fs _ => Q a fs) (fun _ _ => False)) ->
  forall st before, sound st before -> tells st (each f l st) (fun _ fs _ => concerning Q l fs) (fun _ _ => False).
Proof.
  intros Hf. induction l as [|a l IH]; intros st before Hs; cbn [each]; [apply tells_done; intros; constructor|].
  eapply tells_bind; [exact Hs|eapply Hf; exact Hs|contradiction|]. cbv beta. intros es1 fs1 st1 [] _ _ Hs1 D1.
  eapply tells_impl; [| |eapply IH; exact Hs1]; cbv beta; [|contradiction]. intros S fs _ _ D2 _ _. now constructor.
Qed.

(** Statements by induction, through the lists in them *)
Section StmtInd.
Variable P : stmt -> Prop.
Hypotheses
  (HAnn : forall t a v, P (SAnnAssign t a v)) (HAssign : forall ts v, P (SAssign ts v))
  (HFun : forall f, P (SFunctionDef f)) (HAsync : forall f, P (SAsyncFunctionDef f))
  (HClass : forall n bs body, Forall P body -> P (SClassDef n bs body))
  (HIf : forall t b o, Forall P b -> Forall P o -> P (SIf t b o))
  (HImport : forall ns, P (SImport ns)) (HFrom : forall mo ns l, P (SImportFrom mo ns l))
  (HOther : forall ch, Forall P ch -> P (SOther ch)).
Fixpoint stmt_ind' (s : stmt) : P s :=
  let all := fix all ss : Forall P ss :=
    match ss with [] => Forall_nil P | x :: r => Forall_cons x (stmt_ind' x) (all r) end in
  match s with
  | SAnnAssign t a v => HAnn t a v
  | SAssign ts v => HAssign ts v
  | SFunctionDef f => HFun f
  | SAsyncFunctionDef f => HAsync f
  | SClassDef n bs body => HClass n bs (all body)
  | SIf t b o => HIf t (all b) (all o)
  | SImport ns => HImport ns
  | SImportFrom mo ns l => HFrom mo ns l
  | SOther ch => HOther (all ch)
  end.
End StmtInd.

Lemma visit_tells s : stmt_tells s.
Proof.
  induction s as [t a v|ts v|f|f|name bases body IH|test b o IHb IHo|ns|mo ns l|ch IH] using stmt_ind'; intros parent st before Hs;
    assert (Hv : In m (visited st)) by now apply sound_visited with (before := before).
  - cbn [visit]. destruct (to_path t) as [p|e] eqn:Et; [|exact I]. cbn [pure sbind].
    apply to_path_dotted in Et.
    destruct (match v with None => None | Some v => to_maybe_path v end) as [vp|] eqn:Ev.
    + destruct v as [v|]; [|discriminate]. apply to_maybe_path_dotted in Ev.
      eapply tells_bind; [exact Hs|eapply to_qualified_path_tells; exact Hs|contradiction|]. cbv beta. intros es1 fs1 st1 q _ _ Hs1 _.
      apply (@tells_event _ st1 _ (Referred m p q) tt _ _ Hs1); [now apply sound_visited with (before := before ++ fs1)|reflexivity|].
      intros S _ _ R. eapply sa_annotated_alias; eassumption.
    + apply (@tells_event _ st before (Recorded m (parent ++ p) ANNOTATED_ASSIGNMENT (SAnnAssign t a v)) tt);
        [exact Hs|exact Hv|reflexivity|]. intros S _. constructor; [exact Et|].
      intros e q -> Hd. apply to_maybe_path_dotted in Hd. congruence.
  - cbn [visit]. destruct (to_maybe_path v) as [vp|] eqn:Ev.
    + apply to_maybe_path_dotted in Ev.
      eapply tells_bind; [exact Hs|eapply to_qualified_path_tells; exact Hs|contradiction|]. cbv beta. intros es1 fs1 st1 q _ _ Hs1 _.
      eapply tells_impl; [| |eapply (@each_concerning _ _ (fun t fs => exists p, dotted t p /\ fs = [Refers p q]) ts); [|exact Hs1]].
      * cbv beta. intros S fs _ _ C _ R. eapply sa_alias; eassumption.
      * now intros S fs _ [].
      * intros t st2 before2 Hs2. destruct (to_path t) as [p|e] eqn:Et; [|exact I]. apply to_path_dotted in Et. cbn [pure sbind].
        apply (@tells_event _ st2 _ (Referred m p q) tt _ _ Hs2); [now apply sound_visited with (before := before2)|reflexivity|]. intros _ _. now exists p.
    + assert (Hd : forall q, ~ dotted v q) by (intros q Hd; apply to_maybe_path_dotted in Hd; congruence).
      eapply tells_impl; [| |eapply (@each_concerning _ _ (fun t fs => exists p, dotted t p /\ fs = [Defines (parent ++ p) ASSIGNMENT (SAssign ts v)]) ts); [|exact Hs]].
      * cbv beta. intros S fs _ _ C. now apply sa_assign.
      * now intros S fs _ [].
      * intros t st2 before2 Hs2. destruct (to_path t) as [p|e] eqn:Et; [|exact I]. apply to_path_dotted in Et. cbn [pure sbind].
        apply (@tells_event _ st2 _ (Recorded m (parent ++ p) ASSIGNMENT (SAssign ts v)) tt _ _ Hs2); [now apply sound_visited with (before := before2)|reflexivity|].
        intros _ _. now exists p.
  - apply (@tells_event _ st before (Recorded m (parent ++ [fd_name f]) FUNCTION (SFunctionDef f)) tt); [exact Hs|exact Hv|reflexivity|]. intros S _. constructor.
  - apply (@tells_event _ st before (Recorded m (parent ++ [fd_name f]) ASYNC_FUNCTION (SAsyncFunctionDef f)) tt); [exact Hs|exact Hv|reflexivity|]. intros S _. constructor.
  - cbn [visit]. set (cp := parent ++ [name]).
    change (tells st
      (run [st, vars] <- visit_bases parse resolve m parent name body bases (apply_event (ClassSeen m cp) st);
       each (visit is_package condition parse resolve m cp) body
         (if is_nil (dedupe vars) then st else with_parameters st (dset (m, cp) (dedupe vars) (parameters_of st))))
      (fun S fs _ => saying S before parent (SClassDef name bases body) fs) (fun S fs => saying_cut S before parent (SClassDef name bases body) fs)).
    apply (@tells_first _ st before (ClassSeen m cp)); [exact Hs|exact Hv|reflexivity|].
    assert (Hs1 : sound (apply_event (ClassSeen m cp) st) (before ++ [ClassAt cp])) by (apply (@sound_event st (ClassSeen m cp)); [exact Hv|reflexivity|exact Hs]).
    set (st1 := apply_event (ClassSeen m cp) st) in *.
    assert (Hc1 : seen parent name st1) by (apply class_kind).
    eapply tells_bind; [exact Hs1|eapply visit_bases_tells; [exact Hs1|exact Hc1]| |].
    { cbv beta. intros S fs st' _ _ B _. now apply sc_bases. }
    cbv beta. intros es2 fs2 st2 vars _ _ Hs2 _.
    assert (Hv2 : In m (visited st2)) by now apply sound_visited with (before := (before ++ [ClassAt cp]) ++ fs2).
    replace ((before ++ [ClassAt cp]) ++ fs2) with (before ++ ClassAt cp :: fs2) in Hs2 by now rewrite <- app_assoc.
    destruct (is_nil (dedupe vars)) eqn:En.
    + assert (Ev : vars = []) by now destruct vars.
      eapply tells_impl; [| |eapply each_visit_tells; [exact IH|exact Hs2]]; cbv beta; cbn [event_fact app].
      * intros S fs _ _ D _ B _. rewrite <- (app_nil_l fs). eapply sa_class; [exact B|now constructor|]. now rewrite app_nil_r.
      * intros S fs _ D _ B _. rewrite <- (app_nil_l fs). eapply sc_body; [exact B|now constructor|]. now rewrite app_nil_r.
    + apply (@tells_first _ st2 _ (Parametrised m cp (dedupe vars)) _ _ _ Hs2); [exact Hv2|reflexivity|].
      assert (Hs3 : sound (apply_event (Parametrised m cp (dedupe vars)) st2) (before ++ ClassAt cp :: fs2 ++ [Takes cp (dedupe vars)])).
      { replace (before ++ ClassAt cp :: fs2 ++ [Takes cp (dedupe vars)]) with ((before ++ ClassAt cp :: fs2) ++ [Takes cp (dedupe vars)]) by now rewrite <- app_assoc.
        apply (@sound_event st2 (Parametrised m cp (dedupe vars))); [exact Hv2|reflexivity|exact Hs2]. }
      assert (HV : parameters_say cp vars [Takes cp (dedupe vars)]) by (apply ps_some; [intros ->; discriminate En|apply dedupe_first]).
      eapply tells_impl; [| |eapply each_visit_tells; [exact IH|exact Hs3]]; cbv beta; cbn [event_fact].
      * intros S fs _ _ D _ _ B _. cbn [app]. eapply sa_class in D; [exact D|exact B|exact HV].
      * intros S fs _ D _ _ B _. cbn [app]. eapply sc_body in D; [exact D|exact B|exact HV].
  - cbn [visit]. eapply tells_bind; [exact Hs|eapply resolve_names_tells; exact Hs| |].
    { cbv beta. intros S fs st' _ _ (-> & n & Hn & F). apply sc_condition. exists n. apply below_names in Hn. tauto. }
    cbv beta. intros es1 fs1 st1 bindings _ _ Hs1 (-> & E & _). rewrite app_nil_r in Hs1. cbn [app].
    destruct (condition bindings test) as [c|e] eqn:Ec; [|exact I]. cbn [pure sbind].
    assert (HH : forall S, (forall n q, In (n, q) bindings -> finds S before parent [n] (Some q)) -> holds condition (finds S) before parent test c).
    { intros S D. exists bindings. split; [exact Ec|]. split; [exact D|]. intros n. rewrite E. apply below_names. }
    eapply tells_impl; [| |eapply (@each_visit_tells (if c then b else o)); [now destruct c|exact Hs1]]; cbv beta.
    + intros S fs _ _ D _ (_ & _ & F). apply sa_if with (c := c); auto.
    + intros S fs _ D _ (_ & _ & F). apply sc_if with (c := c); auto.
  - cbn [visit]. eapply (@tells_impl _ _ _ _ _ (fun _ _ => False)); [| |eapply grows_fold; [intros; eapply import_grows; eassumption|exact Hs]]; cbv beta; [|contradiction].
    intros S fs _ _ C. now constructor.
  - cbn [visit]. destruct (to_parent_module_path l mo m (is_package m)) as [pm|e] eqn:Ep; [|exact I]. cbn [pure sbind].
    eapply (@tells_impl _ _ _ _ _ (fun _ _ => False)); [| |eapply grows_fold; [intros; eapply (import_from_grows pm); eassumption|exact Hs]]; cbv beta; [|contradiction].
    intros S fs _ _ C.
    apply sa_import_from with (pm := pm); [|exact C]. intros p Hp. apply imports_total in Hp. congruence.
  - cbn [visit]. eapply tells_impl; [| |eapply each_visit_tells; [exact IH|exact Hs]]; cbv beta.
    + intros S fs _ _ D. now constructor.
    + intros S fs _ D. now constructor.
Qed.
End Visitor.
End Parser.
End Traces.

(** *** Whole modules *)
Section Modules.
Variable source : path -> option (list stmt).
Variable is_package : path -> bool.
Variable condition : list (pystr * qualified_path) -> expr -> res bool.
Notation says_in := (says_in source is_package condition).
Notation cut_in := (cut_in source is_package condition).
Notation module_says := (module_says source is_package condition).
Notation module_cut := (module_cut source is_package condition).
Notation parse_stub_scope := (parse_stub_scope source is_package condition).
Definition told (S : state -> Prop) (x : path) (fs : list fact) : Prop :=
  exists fuel body, source x = Some body /\ (says_in fuel S x body fs \/ cut_in fuel S x body fs).
Lemma untouched_opened m st : ~ In m (visited st) -> untouched st -> sound m (opened m st) [].
Proof.
  intros Hm Hu. split; [cbn; apply in_or_app; right; now left|]. split; [now apply (@untouched_event (Opened m))|].
  apply opened_event. now apply Hu.
Qed.
Lemma parse_leads fuel : forall m st, untouched st ->
  leads told none st (parse_stub_scope fuel m st)
    (fun S es _ => (In m (visited st) /\ es = []) \/
       (~ In m (visited st) /\ exists body es', source m = Some body /\ es = Opened m :: es' /\ says_in (pred fuel) S m body (facts m es)))
    (fun _ _ => True).
Proof.
  induction fuel as [|fuel IH]; intros m st Hu.
  - cbn [Stubs.parse_stub_scope]. destruct (mem m (visited st)) eqn:Em; [|exact I]. destruct (fetch _ _); [|exact I].
    exists []. split; [apply trace_nil|]. intros S _. left. split; [now apply mem_In|reflexivity].
  - cbn [Stubs.parse_stub_scope]. destruct (mem m (visited st)) eqn:Em.
    { destruct (fetch _ _); [|exact I]. exists []. split; [apply trace_nil|]. intros S _. left. split; [now apply mem_In|reflexivity]. }
    assert (Hm : ~ In m (visited st)) by now apply mem_not_In.
    destruct (source m) as [body|] eqn:Es; [|exact I]. cbn [pred].
    set (parse := parse_stub_scope fuel) in *.
    match goal with |- leads told none st ?x ?P ?M => change (leads told none st
      (run [st', _] <- each (visit is_package condition parse (resolve_in parse fuel) m []) body (opened m st);
       pure st' (fetch m (definitions (db st')))) P M) end.
    assert (PL : forall m st, untouched st -> goes told st (parse m st)).
    { intros m' st' Hu'. specialize (IH m' st' Hu'). destruct (parse m' st') as [st1 a|st1|e]; [| |exact I]; destruct IH as (es & T & _); exists es; auto. }
    assert (RL : forall m parent o st, untouched st -> goes told st (resolve_in parse fuel m parent o st)).
    { intros. now apply resolve_goes. }
    pose proof (@untouched_opened m st Hm Hu) as Hs.
    pose proof (@each_visit_tells told is_package condition parse (resolve_in parse fuel) m body) as HE.
    specialize (HE (proj2 (Forall_forall _ _) (fun s _ => @visit_tells told is_package condition parse (resolve_in parse fuel) PL RL m s)) [] (opened m st) [] Hs).
    assert (KT : forall es st1, trace told (eq m) (opened m st) es st1 ->
      (forall S : state -> Prop, (forall s, through (opened m st) es s -> S s) -> told S m (facts m es)) ->
      trace told none st (Opened m :: es) st1).
    { intros es st1 T HT. split.
      - constructor; [exact Hm|apply T].
      - constructor; [right; exact Hm|]. eapply Forall_impl; [|exact (tr_modules T)]. intros e [<-|He]; right; [exact Hm|].
        intros Hi. apply He. cbn. apply in_or_app. now left.
      - intros S HS x Hx.
        assert (HS' : forall s, through (opened m st) es s -> S s).
        { intros s Hs'. apply HS. apply (@through_right st [Opened m] (opened m st) es); [|exact Hs']. now apply (@steps_one (Opened m)). }
        destruct (eqb_reflect x m) as [->|Hn].
        + change (facts m (Opened m :: es)) with (facts m ([Opened m] ++ es)). rewrite facts_app, facts_one by reflexivity. now apply HT.
        + destruct Hx as [E|Hx]; [congruence|].
          change (facts x (Opened m :: es)) with (facts x ([Opened m] ++ es)). rewrite facts_app, (@facts_none x [Opened m]).
          * now apply (tr_told T).
          * constructor; [|constructor]. cbn. congruence. }
    destruct (each _ body (opened m st)) as [st1 []|st1|e]; [| |exact I]; destruct HE as (es & T & HQ).
    + cbn [sbind]. destruct (fetch m (definitions (db st1))) as [s|e]; [|exact I]. cbn [pure].
      exists (Opened m :: es). split.
      * apply KT; [exact T|]. intros S HS. exists fuel, body. split; [exact Es|]. left. exact (HQ S HS).
      * intros S HS. right. split; [exact Hm|]. exists body, es. repeat split.
        change (facts m (Opened m :: es)) with (facts m ([Opened m] ++ es)). rewrite facts_app, facts_one by reflexivity.
        apply HQ. intros s0 Hx. apply HS. apply (@through_right st [Opened m] (opened m st) es); [|exact Hx]. now apply (@steps_one (Opened m)).
    + exists (Opened m :: es). split; [|auto]. apply KT; [exact T|]. intros S HS. exists fuel, body. split; [exact Es|]. right. exact (HQ S HS).
Qed.
Lemma parse_goes fuel m st : untouched st -> goes told st (parse_stub_scope fuel m st).
Proof.
  intros Hu. pose proof (parse_leads fuel m Hu) as H. destruct (parse_stub_scope fuel m st) as [st1 a|st1|e]; [| |exact I];
    destruct H as (es & T & _); exists es; auto.
Qed.

(** ** The claims *)
Notation parse_all fuel := (each (fun m st => run [st, _] <- parse_stub_scope fuel m st; Done st tt)).
Lemma parse_all_goes fuel modules : forall st, untouched st -> goes told st (parse_all fuel modules st).
Proof.
  induction modules as [|m ms IH]; intros st Hu; cbn [each]; [apply goes_done|].
  apply goes_bind.
  - apply goes_bind; [now apply parse_goes|]. intros. apply goes_done.
  - intros es st' [] _ Hs. apply IH. now apply (untouched_steps Hs).
Qed.
(** Tables are consistent after parsing any modules, whether the run is complete
    or was given up because of a missing object. *)
Lemma parse_consistent fuel m st : untouched st -> consistent st ->
  match parse_stub_scope fuel m st with
  | Done st' _ | Missing st' => consistent st'
  | Fails _ => True
  end.
Proof.
  intros Hu Hc. pose proof (@goes_steps told _ _ _ (parse_goes fuel m Hu)) as H. destruct (parse_stub_scope fuel m st); [| |exact I];
    destruct H as (es & H); eapply consistent_steps; eassumption.
Qed.
Lemma parse_modules_consistent fuel modules :
  match parse_modules source is_package condition fuel modules with
  | Done st _ | Missing st => consistent st
  | Fails _ => True
  end.
Proof.
  pose proof (@goes_steps told _ _ _ (parse_all_goes fuel (builtins_path :: modules) untouched_empty)) as H. unfold parse_modules.
  destruct (each _ _ _); [| |exact I]; destruct H as (es & H); (eapply consistent_steps; [eassumption|apply consistent_empty]).
Qed.
Lemma parse_modules_listed fuel modules st u :
  parse_modules source is_package condition fuel modules = Done st u -> listed st.
Proof.
  intros E. pose proof (@goes_steps told _ _ _ (parse_all_goes fuel (builtins_path :: modules) untouched_empty)) as H. unfold parse_modules in E. rewrite E in H.
  destruct H as (es & H). eapply listed_steps; [eassumption|apply listed_empty].
Qed.

(** What is recorded for a module *)
Lemma tables_all st es st' m fs : steps st es st' -> (In m (visited st) \/ fs = []) -> tables_say m st fs -> tables_say m st' (fs ++ facts m es).
Proof.
  intros H. revert fs. induction H as [st|e st es st' He Hs IH]; intros fs Hm H; [cbn; now rewrite app_nil_r|].
  change (e :: es) with ([e] ++ es). rewrite facts_app, app_assoc. unfold facts at 1. cbn [flat_map]. rewrite app_nil_r.
  destruct (eqb_reflect (event_module e) m) as [<-|Hne].
  - destruct e as [x|x o k n|x o n|x o|x o|x p q|x s|x o b|x o ps].
    1: { cbn in *. destruct Hm as [Hm| ->]; [now destruct He|]. apply (IH []); [left; apply in_or_app; right; now left|]. now apply opened_event. }
    all: apply IH; [left; cbn in *; rewrite ?app_nil_r; tauto|]; apply own_event; [discriminate|exact H].
  - rewrite app_nil_r. apply IH; [|now apply other_event]. destruct Hm as [Hm|Hm]; [left; rewrite visited_event; apply in_or_app; now left|now right].
Qed.
Lemma steps_begun st es st' x : steps st es st' -> In x (visited st') -> In x (visited st) \/ In (Opened x) es.
Proof.
  induction 1 as [st|e st es st' He Hs IH]; intros Hx; [now left|]. destruct (IH Hx) as [H|H]; [|right; now right].
  rewrite visited_event in H. apply in_app_or in H. destruct H as [H|H]; [now left|]. destruct e; cbn in H; try contradiction.
  destruct H as [->|[]]. right. now left.
Qed.
Lemma visited_more st es st' : steps st es st' -> exists more, visited st' = visited st ++ more.
Proof.
  induction 1 as [st|e st es st' He Hs [more IH]]; [exists []; now rewrite app_nil_r|]. rewrite visited_event in IH.
  rewrite <- app_assoc in IH. eauto.
Qed.
Lemma well_told_empty : well_told empty_state.
Proof. split; [intros x; exists []; now apply untouched_empty|exact untouched_empty]. Qed.
Lemma well_told_steps st es st' : steps st es st' -> well_told st -> well_told st'.
Proof.
  intros H [W1 W2]. split; [|exact (untouched_steps H W2)]. intros x.
  destruct (mem x (visited st)) eqn:E.
  - apply mem_In in E. destruct (W1 x) as [fs Hf]. exists (fs ++ facts x es). now apply (tables_steps H).
  - apply mem_not_In in E. exists ([] ++ facts x es). apply (tables_all H); [now right|]. now apply W2.
Qed.
Lemma steps_earlier st0 es1 es2 s st : well_told st0 -> steps st0 es1 s -> steps s es2 st -> earlier s st.
Proof.
  intros W H1 H2. destruct (well_told_steps H1 W) as [W1 W2].
  split; [now apply visited_more with (es := es2)|]. split; [exact W2|].
  intros x Hx. destruct (W1 x) as [fs Hf]. exists fs, (facts x es2). split; [exact Hf|]. now apply (tables_steps H2).
Qed.
Lemma through_earlier st es st' s : well_told st -> steps st es st' -> through st es s -> earlier s st'.
Proof.
  intros W H (es1 & es2 & -> & Hs). destruct (@steps_split es1 st es2 st' H) as (s' & H1 & H2).
  assert (s' = s) as -> by (clear -H1 Hs; revert H1; generalize dependent st; induction es1 as [|e es1 IH]; intros st0 H1 H2;
    inversion H1; inversion H2; subst; [congruence|eauto]).
  now apply steps_earlier with (st0 := st) (es1 := es1) (es2 := es2).
Qed.
Lemma parse_content fuel m st st' s : well_told st -> ~ In m (visited st) ->
  parse_stub_scope fuel m st = Done st' s ->
  well_told st' /\ exists body fs, source m = Some body /\ module_says (pred fuel) st' m body fs /\ tables_say m st' fs.
Proof.
  intros W Hm E. pose proof (parse_leads fuel m (proj2 W)) as H. rewrite E in H. destruct H as (es & T & K).
  split; [now apply (well_told_steps (tr_steps T))|].
  destruct (K (fun s => earlier s st')) as [[K1 _]|(_ & body & es' & Hb & _ & HS)].
  - intros s0 Hs. eapply through_earlier; [exact W|apply T|exact Hs].
  - easy.
  - exists body, (facts m es). split; [exact Hb|]. split; [exact HS|].
    apply (@tables_all _ _ _ m [] (tr_steps T)); [now right|]. now apply W.
Qed.
(** Parsing other modules does not change what is recorded for a module. *)
Lemma parse_stable fuel m st x fs : well_told st -> In x (visited st) -> tables_say x st fs ->
  match parse_stub_scope fuel m st with
  | Done st' _ | Missing st' => In x (visited st') /\ tables_say x st' fs
  | Fails _ => True
  end.
Proof.
  intros W Hx Ht. pose proof (parse_goes fuel m (proj2 W)) as H.
  assert (K : forall es st', trace told none st es st' -> In x (visited st') /\ tables_say x st' fs).
  { intros es st' T. split; [eapply visited_steps; [apply T|exact Hx]|].
    pose proof (tables_steps (tr_steps T) Hx Ht) as K. rewrite (@facts_none x es), app_nil_r in K; [exact K|].
    eapply Forall_impl; [|exact (tr_modules T)]. intros e [[]|F] <-. now apply F. }
  destruct (parse_stub_scope fuel m st); [| |exact I]; destruct H as (es & T & _); eapply K; exact T.
Qed.
Lemma parse_visited fuel m st st' s : untouched st -> parse_stub_scope fuel m st = Done st' s -> In m (visited st').
Proof.
  intros Hu E. pose proof (parse_leads fuel m Hu) as H. rewrite E in H. destruct H as (es & T & K).
  destruct (K (fun _ => True) (fun _ _ => I)) as [[K1 ->]|(_ & body & es' & _ & -> & _)].
  - eapply visited_steps; [apply T|exact K1].
  - apply (@opened_fresh _ _ _ m (tr_steps T)). now left.
Qed.
Lemma parse_all_visited fuel m modules : forall st st' u, untouched st -> parse_all fuel modules st = Done st' u -> In m modules -> In m (visited st').
Proof.
  induction modules as [|x ms IH]; intros st st' u Hu H Hi; [contradiction|]. cbn [each] in H.
  destruct (parse_stub_scope fuel x st) as [st1 s|st1|e] eqn:E; cbn [sbind] in H; try discriminate H.
  pose proof (@goes_steps told _ _ _ (parse_goes fuel x Hu)) as G. rewrite E in G. destruct G as (es & G).
  assert (Hu1 : untouched st1) by now apply (untouched_steps G).
  destruct Hi as [->|Hi]; [|now apply (IH st1 st' u)].
  apply parse_visited in E; [|exact Hu]. pose proof (@goes_steps told _ _ _ (parse_all_goes fuel ms Hu1)) as G1. rewrite H in G1.
  destruct G1 as (es1 & G1). eapply visited_steps; eassumption.
Qed.
Lemma run_told fuel modules st u m :
  parse_modules source is_package condition fuel modules = Done st u -> In m (visited st) ->
  exists fuel' body fs, source m = Some body /\ (module_says fuel' st m body fs \/ module_cut fuel' st m body fs) /\ tables_say m st fs.
Proof.
  intros E Hm. pose proof (parse_all_goes fuel (builtins_path :: modules) untouched_empty) as H. unfold parse_modules in E. rewrite E in H.
  destruct H as (es & T & _). destruct (@steps_begun _ _ _ m (tr_steps T) Hm) as [[]|Ho].
  destruct (tr_told T (fun s => earlier s st)) with (x := m) as (fuel' & body & Hb & HS); [|exact Ho|].
  - intros s Hs. eapply through_earlier; [exact well_told_empty|apply T|exact Hs].
  - exists fuel', body, (facts m es). split; [exact Hb|]. split; [exact HS|].
    apply (@tables_all _ _ _ m [] (tr_steps T)); [now right|]. now apply untouched_empty.
Qed.
Lemma run_content fuel m before after st0 st' u0 u :
  parse_all fuel before empty_state = Done st0 u0 ->
  ~ In m (visited st0) ->
  parse_all fuel (m :: after) st0 = Done st' u ->
  In m (visited st') /\
  exists body fs, source m = Some body /\ module_says (pred fuel) st' m body fs /\ tables_say m st' fs.
Proof.
  intros H0 Hm H. cbn [each] in H.
  destruct (parse_stub_scope fuel m st0) as [st1 s|st1|e] eqn:E; cbn [sbind] in H; try discriminate H.
  pose proof (parse_all_goes fuel before untouched_empty) as G0. rewrite H0 in G0. destruct G0 as (es0 & T0 & _).
  assert (Hu0 : untouched st0) by (apply (untouched_steps (tr_steps T0)), untouched_empty).
  pose proof (parse_leads fuel m Hu0) as G1. rewrite E in G1. destruct G1 as (es1 & T1 & K).
  assert (Hu1 : untouched st1) by now apply (untouched_steps (tr_steps T1)).
  pose proof (parse_all_goes fuel after Hu1) as G2. rewrite H in G2. destruct G2 as (es2 & T2 & _).
  assert (Hv : In m (visited st1)).
  { destruct (K (fun _ => True) (fun _ _ => I)) as [[K1 _]|(_ & body & es' & _ & -> & _)]; [easy|].
    apply (@opened_fresh _ _ _ m (tr_steps T1)). now left. }
  split; [eapply visited_steps; [apply T2|exact Hv]|].
  destruct (K (fun s => earlier s st')) as [[K1 _]|(_ & body & es' & Hb & _ & HS)].
  - intros s0 (a & b & -> & Hs). destruct (@steps_split a st0 b st1 (tr_steps T1)) as (s' & A1 & A2).
    apply (@through_earlier empty_state (es0 ++ (a ++ b) ++ es2)); [exact well_told_empty| |].
    + eapply steps_app; [apply T0|]. eapply steps_app; [apply T1|apply T2].
    + eapply through_right; [apply T0|]. apply through_left. exists a, b. auto.
  - easy.
  - exists body, (facts m es1). split; [exact Hb|]. split; [exact HS|].
    assert (T : tables_say m st1 ([] ++ facts m es1)) by (apply (tables_all (tr_steps T1)); [now right|]; now apply Hu0).
    apply (tables_steps (tr_steps T2) Hv) in T. cbn [app] in T. rewrite (@facts_none m es2), app_nil_r in T; [exact T|].
    eapply Forall_impl; [|exact (tr_modules T2)]. intros e [[]|F] <-. now apply F.
Qed.
End Modules.
