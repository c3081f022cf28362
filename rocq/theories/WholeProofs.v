(** Proofs about signatures all the way from the stub. *)
From Verif Require Import Base PySort Models SpecCall ModelsProofs CallTheorems Ast Conversion Scoping SpecScoping ScopingProofs
  Stubs SpecStubs SpecRecords StubsProofs SpecializeProofs Signatures SpecSignatures SignaturesProofs FunctionProofs HierarchyProofs LocationProofs Whole SpecWhole.
From Verif Require Evaluation SpecEvaluation EvaluationProofs AliasProofs.
Set Implicit Arguments.

Lemma values_get {A B} (f : A -> B) (t : dict path A) k : dget k (values_with f t) = option_map f (dget k t).
Proof.
  induction t as [|[k' v] t IH]; [reflexivity|].
  change (dget k (values_with f ((k', v) :: t))) with (if k == k' then Some (f v) else dget k (values_with f t)).
  change (dget k ((k', v) :: t)) with (if k == k' then Some v else dget k t).
  destruct (k == k'); [reflexivity|exact IH].
Qed.

(** ** What was read *)
Lemma read_in_turn_or source is_package condition fuel modules m :
  read_in_turn source is_package condition fuel modules m \/ ~ read_in_turn source is_package condition fuel modules m.
Proof.
  unfold read_in_turn.
  set (f := fun m st => run [st, _] <- parse_stub_scope source is_package condition fuel m st; Done st tt).
  generalize (builtins_path :: modules). intros l. generalize empty_state. induction l as [|x l IH]; intros st0.
  - right. intros (before & after & st & u & E & _). now destruct before.
  - assert (D : {In m (visited st0)} + {~ In m (visited st0)}).
    { apply in_dec. intros a b. destruct (eqb_reflect a b); [now left|now right]. }
    assert (N : (x <> m \/ In m (visited st0)) ->
      ((exists before after st u, x :: l = before ++ m :: after /\ Stubs.each f before st0 = Done st u /\ ~ In m (visited st))
       \/ ~ (exists before after st u, x :: l = before ++ m :: after /\ Stubs.each f before st0 = Done st u /\ ~ In m (visited st)))).
    { intros X. destruct (f x st0) as [st1 []|st1|e] eqn:Ef.
      - destruct (IH st1) as [(before & after & st & u & E & H1 & H2)|No].
        + left. exists (x :: before), after, st, u. cbn [app Stubs.each]. rewrite E, Ef. cbn [sbind]. auto.
        + right. intros (before & after & st & u & E & H1 & H2). destruct before as [|y before].
          * cbn in E, H1. injection E as -> _. injection H1 as -> _. tauto.
          * cbn [app Stubs.each] in E, H1. injection E as <- E. rewrite Ef in H1. cbn [sbind] in H1. apply No. eauto 8.
      - right. intros (before & after & st & u & E & H1 & H2). destruct before as [|y before].
        + cbn in E, H1. injection E as -> _. injection H1 as -> _. tauto.
        + cbn [app Stubs.each] in E, H1. injection E as <- E. rewrite Ef in H1. discriminate H1.
      - right. intros (before & after & st & u & E & H1 & H2). destruct before as [|y before].
        + cbn in E, H1. injection E as -> _. injection H1 as -> _. tauto.
        + cbn [app Stubs.each] in E, H1. injection E as <- E. rewrite Ef in H1. discriminate H1. }
    destruct (eqb_reflect x m) as [->|Hx]; [|now apply N; left].
    destruct D as [D|D]; [now apply N; right|]. left. exists [], l, st0, tt. auto.
Qed.
Lemma described_content source is_package condition printable limit fuel modules m st :
  was_read source is_package condition fuel modules m ->
  parse_stubs_state source is_package condition printable limit fuel modules = Ok st ->
  exists body says, described source is_package condition fuel modules m body says /\ finally_say printable limit m st says.
Proof.
  intros (parsed & E & Hm) H. destruct (read_in_turn_or source is_package condition fuel modules m) as [R|R].
  - destruct (@stubs_content source is_package condition printable limit fuel modules m st R H)
      as (parsed' & body & says & E' & Hb & Hs & T).
    exists body, says. split; [|exact T]. split; [exact Hb|]. exists parsed'. split; [exact E'|]. split; [|auto].
    exists (pred fuel). now left.
  - destruct (@stubs_told source is_package condition printable limit fuel modules st H) as (parsed' & E' & _ & T).
    rewrite E in E'. injection E' as <-. destruct (T m Hm) as (body & says & Hb & Hs & F).
    exists body, says. split; [|exact F]. split; [exact Hb|]. exists parsed. split; [exact E|]. split; [exact Hs|]. tauto.
Qed.
Lemma read_modules source is_package condition printable limit fuel modules st m :
  parse_stubs_state source is_package condition printable limit fuel modules = Ok st -> In m modules ->
  was_read source is_package condition fuel modules m.
Proof.
  intros H Hm. destruct (@stubs_told source is_package condition printable limit fuel modules st H) as (parsed & E & V & _).
  exists parsed. auto.
Qed.

Section Whole.
Context {V : Type}.
Variables (is_NONE is_Ellipsis : V -> bool) (Any Self TypeSelf : V).
Variable py : Evaluation.python V.
Variables (limit fuel : nat) (st : state) (c : Evaluation.memory V).
Notation stubs := (signature_tables st).
Notation evaluate := (evaluate_node py (S limit) (S fuel) st c).
Notation follow value_of := (fun w p => follows is_Ellipsis Any value_of (stored_kind (w_kind w)) w p).
Notation known := (known py (S limit) (S fuel) st c).
Notation understood := (understood is_NONE py (S limit) (S fuel) st c).
Notation build is_type value := (from_statement_node is_NONE is_Ellipsis Any Self TypeSelf evaluate stubs (S limit) is_type value (S limit)).

Lemma known_value m parent e v : known m parent e v -> evaluate e m parent = Ok v.
Proof.
  intros (new & d & wrong & L & R & M). unfold evaluate_node.
  destruct (AliasProofs.expressions_evaluated py (evaluation_tables (S limit) st) new (S fuel) d wrong m parent e v c M L R) as (c' & -> & _).
  reflexivity.
Qed.
Lemma understood_formed value_of m parent f : understood value_of m parent f -> well_formed is_NONE evaluate value_of f m parent.
Proof.
  intros (L & P & A & D). repeat split; auto; try apply L.
  - apply Forall_forall. intros w Hw. split.
    + intros e E. apply known_value, A. right. eauto.
    + intros e E. destruct (D e ltac:(eexists; eauto)) as [K N]. split; [|exact N]. now apply known_value.
  - intros e E. apply known_value, A. now left.
Qed.

Lemma kinds_class m o : is_class stubs m o <-> kind_of_object st m o = Some CLASS.
Proof.
  unfold is_class, kind_of_object. cbn. split.
  - intros (t & -> & E). exact E.
  - destruct (dget m (kinds st)) as [t|]; [eauto|discriminate].
Qed.
Lemma kinds_has m o : kind_of_object st m o <> None -> has_kinds stubs m.
Proof.
  unfold has_kinds, kind_of_object. cbn. destruct (dget m (kinds st)) as [t|] eqn:E; [|tauto]. intros _.
  apply dget_Some_In in E. unfold dkeys. now apply (in_map fst) in E.
Qed.
Lemma nodes_stubs m o : nodes_of_object st m o <> [] -> nodes_at stubs (m, o) (map statement_of (nodes_of_object st m o)).
Proof.
  unfold nodes_at, nodes_of_object. cbn [fst snd signature_tables raw_ast_nodes]. rewrite values_get.
  destruct (dget m (nodes st)) as [t|]; [|tauto]. cbn [option_map]. intros N. eexists. split; [reflexivity|].
  rewrite values_get. destruct (dget o t) as [l|]; [|tauto]. cbn. split; [reflexivity|]. intros E. now apply map_eq_nil in E.
Qed.
Lemma nodes_has m o : nodes_of_object st m o <> [] <-> has_nodes stubs m o /\ nodes_of_object st m o <> [].
Proof.
  split; [|tauto]. intros N. split; [|exact N]. destruct (nodes_stubs m o N) as (t & Et & Eo & _).
  exists t. split; [exact Et|]. apply dget_Some_In in Eo. unfold dkeys. now apply (in_map fst) in Eo.
Qed.

(** ** Building from definitions *)
(** Definitions are used as if there were nothing before [/]. *)
Definition like (f g : function_def) : Prop := f = g \/ f = after_slash g.
Definition defines_like (s : stmt) (f : function_def) : Prop := exists g, defines s g /\ like f g.
Lemma build_definition is_type value m parent s f : defines_like s f ->
  build is_type value (statement_of s) m parent
  = from_function_def is_NONE is_Ellipsis Any Self TypeSelf evaluate stubs (S limit) f is_type m parent.
Proof. now intros (g & [-> | ->] & [-> | ->]). Qed.
Lemma defines_alike ss gs fs : Forall2 defines ss gs -> Forall2 like fs gs -> Forall2 defines_like ss fs.
Proof. intros D. revert fs. induction D as [|s g ss gs Hs _ IH]; intros fs L; inv L; constructor; [now exists g|auto]. Qed.
Lemma all_like fs : Forall2 like fs fs.
Proof. induction fs; constructor; [now left|assumption]. Qed.
Lemma like_name f g : like f g -> fd_name f = fd_name g.
Proof. now intros [-> | ->]. Qed.
Lemma like_names n fs gs : Forall2 like fs gs -> Forall (fun g => fd_name g = n) gs -> Forall (fun f => fd_name f = n) fs.
Proof. induction 1 as [|f g fs gs L _ IH]; intros N; inv N; constructor; [now rewrite (like_name L)|auto]. Qed.
Lemma like_nonempty fs gs : Forall2 like fs gs -> gs <> [] -> fs <> [].
Proof. now intros []. Qed.

Lemma buildable_all is_type value m o ss fs (P : function_def -> plain_signature V -> Prop) :
  nodes_of_object st m o = ss -> Forall2 defines_like ss fs -> fs <> [] ->
  (forall f, In f fs -> exists p, P f p
     /\ from_function_def is_NONE is_Ellipsis Any Self TypeSelf evaluate stubs (S limit) f is_type m (removelast o) = Return (Plain p)) ->
  exists ps, buildable stubs (build is_type value) (m, o) (map Plain ps) /\ Forall2 P fs ps.
Proof.
  intros E D N B.
  assert (X : exists ps, Forall2 (fun n s => build_at (build is_type value) (m, o) n = Return s) (map statement_of ss) (map Plain ps)
                         /\ Forall2 P fs ps).
  { clear N E. induction D as [|s f ss fs Hs _ IH]; [exists []; split; constructor|].
    destruct IH as (ps & H1 & H2); [intros; apply B; now right|]. destruct (B f) as (p & Hp & Ep); [now left|].
    exists (p :: ps). split; [|now constructor]. constructor; [|exact H1]. unfold build_at. cbn [fst snd].
    rewrite (build_definition is_type value m (removelast o) Hs). exact Ep. }
  destruct X as (ps & H1 & H2). exists ps. split; [|exact H2]. exists (map statement_of ss). split; [|exact H1].
  rewrite <- E. apply nodes_stubs. rewrite E. destruct D; [tauto|discriminate].
Qed.

Lemma flatten_plains (ps : list (plain_signature V)) : flat_map (@flatten_signature V) (map Plain ps) = ps.
Proof. induction ps as [|p ps IH]; [reflexivity|]. cbn. now rewrite IH. Qed.
Lemma combine_plains (ps : list (plain_signature V)) : ps <> [] ->
  exists s, from_signatures (map Plain ps) = Ok s /\ flatten_signature s = ps.
Proof.
  intros N. destruct (from_signatures_exact (map Plain ps)) as [H _]. rewrite flatten_plains in H. now apply H.
Qed.

(** ** Places *)
Section Places.
Context {O : Type} `{Eqb O}.
Variables (sys_modules : dict pystr O) (getattr : O -> pystr -> option O) (own : O -> qualified_path).
Variables (table : dict path (dict path (list qualified_path))) (introspect : O -> res (raw_signature V)).
Variables (is_type : O -> bool) (as_value : O -> V).
Notation found_at := (found_at (S limit) st sys_modules getattr table own).
Notation found_first := (found_first (S limit) st sys_modules getattr table own).
Notation place_of := (place_of (S limit) st sys_modules getattr table own).
Notation has_places := (has_places (S limit) st sys_modules getattr table own).
Notation paths := (resolve_qualified_paths stubs (S limit) sys_modules getattr own table).
Notation callable_at := (from_callable is_NONE is_Ellipsis Any Self TypeSelf evaluate stubs (S limit)
      sys_modules getattr own introspect is_type as_value table).
Notation from_stub o := (from_stub_callable is_NONE is_Ellipsis Any Self TypeSelf evaluate stubs (S limit)
      sys_modules getattr own is_type as_value table o).

Lemma resolve_empty db n m v q : resolve_object_path db (S n) m [] [] v = Resolved q -> q = (m, []).
Proof.
  rewrite resolve_S. unfold body. destruct (dget m (definitions db)) as [s|]; [|discriminate]. cbn. now intros [= <-].
Qed.
Lemma paths_return o : has_places o -> exists l, paths o = Return l /\ (forall q, In q l <-> place_of o q)
  /\ strictly_sorted l /\ forall q, In q l -> defined (db st) (fst q) (snd q).
Proof.
  intros [(q0 & c0 & C0 & R0 & N1 & N2) A].
  assert (R : exists l, paths o = Return l).
  { destruct (paths o) as [l| |e] eqn:E; [eauto| |]; exfalso; rewrite paths_unfold in E.
    - destruct (listed table (own o)); [now apply finish_found in E|].
      destruct (_ && _); [discriminate|]. now apply finish_found in E.
    - destruct (listed table (own o)) as [cs|] eqn:L.
      + assert (T : exists e, finish stubs (S limit) (filter (value_has_qualified_path sys_modules getattr o) cs) = Throws e) by eauto.
        apply finish_throws in T as (x & e' & Hx & Ex). apply filter_In in Hx as [Hx Hv]. apply value_has_plausible in Hv.
        assert (C : candidate sys_modules getattr table o (own o) x) by (econstructor; eauto).
        exact (A x C e' Ex).
      + inversion C0 as [cs x L' _ _ Ec|L' Nf Ec]; [congruence|]. subst c0.
        specialize (A _ C0). destruct (own o) as [om oo]. cbn [fst snd] in *.
        destruct om as [|a om]; [tauto|]. cbn [is_nil negb andb] in E.
        destruct oo as [|b oo].
        * apply resolve_empty in R0. subst q0. tauto.
        * cbn [is_nil] in E.
          assert (T : exists e, finish stubs (S limit) [(a :: om, b :: oo)] = Throws e) by eauto.
          apply finish_throws in T as (x & e' & [<-|[]] & Ex). cbn [signature_tables database_of fst snd] in *. congruence. }
  destruct R as [l El]. exists l. split; [exact El|].
  destruct (@paths_exact stubs (S limit) O _ sys_modules getattr own table o l El) as (S1 & I & D). auto.
Qed.
Lemma found_first_paths o m p : found_first o (m, p) -> m <> [] -> p <> [] -> exists r, paths o = Return ((m, p) :: r).
Proof.
  intros [(c0 & C0 & R0) A] Nm Np.
  destruct (@paths_return o) as (l & El & I & S1 & _).
  { split; [exists (m, p), c0; auto|]. intros x Cx e E. specialize (A x Cx). now rewrite E in A. }
  rewrite El.
  assert (I0 : In (m, p) l) by (apply I; exists c0; auto).
  destruct l as [|q r]; [destruct I0|]. exists r. f_equal. f_equal.
  destruct I0 as [->|I0]; [reflexivity|].
  assert (Iq : In q (q :: r)) by now left. apply I in Iq as (x & Cx & Rx & Nq & Nq').
  specialize (A x Cx). rewrite Rx in A. specialize (A Nq Nq').
  inv S1. rewrite Forall_forall in H3. destruct (H3 _ I0) as [X _]. now apply qualified_path_antisym.
Qed.
Lemma found_at_first o q : found_at o q -> found_first o q.
Proof.
  intros [(x & Cx) A]. split; [exists x; auto|]. intros y Cy. rewrite (A y Cy). intros _ _.
  now destruct (qualified_path_total q q).
Qed.
Lemma found_paths o m p : found_at o (m, p) -> m <> [] -> p <> [] -> paths o = Return [(m, p)].
Proof.
  intros F Nm Np. destruct (found_first_paths (found_at_first F) Nm Np) as [r E]. rewrite E. do 2 f_equal.
  destruct (@paths_exact stubs (S limit) O _ sys_modules getattr own table o _ E) as (S1 & I & _).
  destruct r as [|q r]; [reflexivity|]. exfalso. inv S1. rewrite Forall_forall in H3. destruct (H3 q (or_introl eq_refl)) as [_ N].
  assert (X : In q ((m, p) :: q :: r)) by (right; now left). apply I in X as (x & Cx & Rx & _).
  destruct F as [_ A]. specialize (A x Cx). cbn [signature_tables database_of] in Rx. congruence.
Qed.

Lemma found_function o m p k ss : found_first o (m, p) -> m <> [] -> p <> [] ->
  kind_of_object st m p = Some k -> k <> CLASS ->
  buildable stubs (build (is_type o) (as_value o)) (m, p) ss ->
  from_stub o = of_res (from_signatures ss).
Proof.
  intros F Nm Np K NC B. unfold from_stub_callable, to_qualified_paths. destruct (found_first_paths F Nm Np) as [r ->]. cbn [obind].
  assert (L : lookup m (nodes_kinds stubs) = Return match dget m (kinds st) with Some t => t | None => [] end
              /\ forall t, dget m (kinds st) = Some t -> lookup p t = Return k).
  { unfold kind_of_object in K. unfold lookup. cbn. destruct (dget m (kinds st)) as [t|]; [|discriminate].
    split; [reflexivity|]. intros t' [= <-]. now rewrite K. }
  destruct L as [-> L]. cbn [obind]. unfold kind_of_object in K. destruct (dget m (kinds st)) as [t|]; [|discriminate].
  rewrite (L t eq_refl). cbn [obind]. replace (is_CLASS k) with false by (destruct k; cbn; congruence).
  exact (@first_location_found V stubs (build (is_type o) (as_value o)) [] (m, p) r ss (Forall_nil _) B).
Qed.

(** ** Functions *)
Lemma by_stub k o : In k function_kinds -> callable_at (k o) = or_introspect is_NONE Any (from_stub o) (introspect o).
Proof. intros I. repeat (destruct I as [<-|I]; [reflexivity|]). destruct I. Qed.

Lemma stub_functions o m p k ss fs value_of : found_first o (m, p) -> m <> [] -> p <> [] ->
  kind_of_object st m p = Some k -> k <> CLASS -> kind_of_object st m (removelast p) <> Some CLASS ->
  nodes_of_object st m p = ss -> Forall2 defines_like ss fs -> fs <> [] -> is_type o = false ->
  (forall f, In f fs -> understood value_of m (removelast p) f
     /\ Forall (other_decorator stubs (S limit) m (removelast p)) (fd_decorators f)) ->
  exists s, from_stub o = Return s
    /\ Forall2 (says_function is_Ellipsis Any value_of) fs (flatten_signature s).
Proof.
  intros F Nm Np K NC NP E D N T U.
  destruct (@buildable_all (is_type o) (as_value o) m p ss fs (says_function is_Ellipsis Any value_of) E D N) as (ps & B & A).
  { intros f Hf. destruct (U f Hf) as [Uf Df]. rewrite T.
    destruct (@build_function V is_NONE is_Ellipsis Any Self TypeSelf evaluate value_of stubs (S limit) f m (removelast p)
                (understood_formed Uf) Df) as (ps & Hp & Ep).
    - apply (kinds_has m p). congruence.
    - rewrite kinds_class. exact NP.
    - eexists. split; [|exact Ep]. split; [exact Hp|reflexivity]. }
  destruct (combine_plains (ps := ps)) as (s & Es & Fs).
  { intros ->. inv A. tauto. }
  exists s. rewrite (found_function F Nm Np K NC B), Es. split; [reflexivity|]. now rewrite Fs.
Qed.

(** ** Methods, with what the first parameter stands for *)
Definition removable (R : V) (p : plain_signature V) (q : plain_signature V) : Prop :=
  exists name, parameters p = RequiredParameter R POSITIONAL_ONLY name :: parameters q /\ returns p = returns q
    /\ new_plain (parameters q) (returns q) = Ok q.
Definition receives (R : V) (m parent : path) (f : function_def) : Prop :=
  (R = Self /\ Forall (other_decorator stubs (S limit) m parent) (fd_decorators f) /\ kind_of_object st m parent = Some CLASS)
  \/ (R = TypeSelf /\ class_method stubs (S limit) m parent f).
Lemma build_method_legal R value_of f m parent : understood value_of m parent f -> written (fd_args f) <> [] ->
  receives R m parent f ->
  exists p, (says_method is_Ellipsis Any R value_of f p
             /\ exists q, removable R p q /\ says_bound is_Ellipsis Any value_of f q)
    /\ from_function_def is_NONE is_Ellipsis Any Self TypeSelf evaluate stubs (S limit) f false m parent = Return (Plain p).
Proof.
  intros U Hne Hr. pose proof (understood_formed U) as Hw.
  destruct (@implicit_first V is_NONE is_Ellipsis Any evaluate value_of f m parent Hw Hne)
    as (w & ws & p & ps & Ew & Hp & Hf & Hfs & Hl).
  destruct (@replaced_signature V is_NONE (p :: ps) p ps (return_value Any value_of f) R eq_refl Hl) as [E0 E].
  rewrite (fo_name _ _ _ _ _ _ Hf) in E.
  exists (mk_plain (RequiredParameter R POSITIONAL_ONLY (arg_name (w_arg w)) :: ps) (return_value Any value_of f)). split.
  - split.
    + exists w, ws, ps. auto.
    + exists (mk_plain ps (return_value Any value_of f)). split.
      * eexists. cbn. split; [reflexivity|]. split; [reflexivity|exact E0].
      * exists w, ws. auto.
  - unfold from_function_def. destruct Hr as [(-> & Hd & Hc)|(-> & before & d & after & Ed & Hb & Hd)].
    + apply kinds_class in Hc. erewrite params_method by eassumption. cbn [obind].
      erewrite returns_value by eauto. cbn [of_res obind]. rewrite (fo_name _ _ _ _ _ _ Hf), E. reflexivity.
    + erewrite params_classmethod by eassumption. cbn [obind].
      erewrite returns_value by eauto. cbn [of_res obind]. rewrite (fo_name _ _ _ _ _ _ Hf), E. reflexivity.
Qed.
Lemma stub_methods R o m p k ss fs value_of : found_first o (m, p) -> m <> [] -> p <> [] ->
  kind_of_object st m p = Some k -> k <> CLASS ->
  nodes_of_object st m p = ss -> Forall2 defines_like ss fs -> fs <> [] -> is_type o = false ->
  (forall f, In f fs -> understood value_of m (removelast p) f /\ written (fd_args f) <> [] /\ receives R m (removelast p) f) ->
  exists s qs, from_stub o = Return s
    /\ Forall2 (says_method is_Ellipsis Any R value_of) fs (flatten_signature s)
    /\ Forall2 (removable R) (flatten_signature s) qs /\ Forall2 (says_bound is_Ellipsis Any value_of) fs qs.
Proof.
  intros F Nm Np K NC E D N T U.
  destruct (@buildable_all (is_type o) (as_value o) m p ss fs
     (fun f p => says_method is_Ellipsis Any R value_of f p
                  /\ exists q, removable R p q /\ says_bound is_Ellipsis Any value_of f q) E D N) as (ps & B & A).
  { intros f Hf. destruct (U f Hf) as (Uf & Wf & Df). rewrite T. now apply build_method_legal. }
  destruct (combine_plains (ps := ps)) as (s & Es & Fs).
  { intros ->. inv A. tauto. }
  assert (X : Forall2 (says_method is_Ellipsis Any R value_of) fs ps
    /\ exists qs, Forall2 (removable R) ps qs /\ Forall2 (says_bound is_Ellipsis Any value_of) fs qs).
  { clear -A. induction A as [|f q fs ps (A0 & q' & A1 & A2) _ (IH0 & l & IH1 & IH2)]; [repeat split; [constructor|]; exists []; split; constructor|].
    split; [now constructor|]. exists (q' :: l). split; constructor; auto. }
  destruct X as (X0 & qs & X1 & X2). exists s, qs. rewrite (found_function F Nm Np K NC B), Es, Fs. auto.
Qed.

(** ** Classes with a builder of their own *)
Lemma has_nodes_defined m o : has_nodes stubs m o -> well_recorded st -> nodes_of_object st m o <> [].
Proof.
  intros (t & Et & Ho) [W _]. cbn in Et. rewrite values_get in Et. unfold nodes_of_object.
  destruct (dget m (nodes st)) as [t0|] eqn:E0; [|discriminate]. cbn in Et. injection Et as <-.
  destruct (dget o t0) as [l|] eqn:El; [exact (proj1 (W _ _ _ _ E0 El))|]. exfalso.
  assert (X : dget o (values_with (map statement_of) t0) = None) by now rewrite values_get, El.
  now apply dget_None in X.
Qed.
Lemma stub_builder o qs m' p' b ss fs value_of (P : function_def -> plain_signature V -> Prop) : paths o = Return qs -> qs <> [] ->
  resolve_builder_qualified_path stubs (S limit) qs = Return (m', p' ++ [b]) ->
  nodes_of_object st m' (p' ++ [b]) = ss -> Forall2 defines_like ss fs -> fs <> [] -> is_type o = true ->
  (forall f w ws ps, In f fs -> written (fd_args f) = w :: ws -> Forall2 (follow value_of) ws ps ->
     P f (mk_plain ps (if fd_name f == $"__init__" then Self else return_value Any value_of f))) ->
  (forall f, In f fs -> understood value_of m' p' f /\ written (fd_args f) <> []) ->
  exists s, callable_at (TypeCallable o) = Ok s /\ Forall2 P fs (flatten_signature s).
Proof.
  intros F Nq OB E D N T HP U. cbn [from_callable]. unfold from_type_callable. rewrite F. cbn [obind].
  replace (is_nil qs) with false by now destruct qs.
  assert (Nn : nodes_of_object st m' (p' ++ [b]) <> []) by (rewrite E; destruct D; [tauto|discriminate]).
  destruct (@buildable_all (is_type o) (as_value o) m' (p' ++ [b]) ss fs P E D N) as (ps & (nodes & Hn & Hb) & A).
  { rewrite removelast_last, T. intros f Hf. destruct (U f Hf) as (Uf & Wf).
    destruct (@build_class V is_NONE is_Ellipsis Any Self TypeSelf evaluate value_of stubs (S limit) f m' p'
                (understood_formed Uf) Wf) as (w & ws & ps & Ew & Fw & B).
    eexists. split; [|exact B]. eapply HP; eauto. }
  rewrite OB. cbn [obind]. destruct Hn as (t & Et & En & Nn'). cbn [fst snd] in Et, En.
  unfold load_ast_nodes. rewrite Et, En. destruct nodes as [|n0 nodes]; [tauto|]. cbn [obind].
  apply omap_ok in Hb. unfold build_at in Hb. cbn [fst snd] in Hb. rewrite Hb. cbn [obind].
  destruct (combine_plains (ps := ps)) as (s & Es & Fs).
  { intros ->. inv A. tauto. }
  rewrite Es. exists s. split; [reflexivity|]. now rewrite Fs.
Qed.
Lemma stub_class o m p b ss fs value_of (P : function_def -> plain_signature V -> Prop) : found_at o (m, p) -> m <> [] -> p <> [] ->
  own_builder stubs (m, p) (m, p ++ [b]) ->
  nodes_of_object st m (p ++ [b]) = ss -> Forall2 defines_like ss fs -> fs <> [] -> is_type o = true ->
  (forall f w ws ps, In f fs -> written (fd_args f) = w :: ws -> Forall2 (follow value_of) ws ps ->
     P f (mk_plain ps (if fd_name f == $"__init__" then Self else return_value Any value_of f))) ->
  (forall f, In f fs -> understood value_of m p f /\ written (fd_args f) <> []) ->
  exists s, callable_at (TypeCallable o) = Ok s /\ Forall2 P fs (flatten_signature s).
Proof.
  intros F Nm Np OB. apply (@stub_builder o [(m, p)] m p b ss fs value_of P (found_paths F Nm Np)); [discriminate|].
  unfold resolve_builder_qualified_path. cbn [omap]. rewrite class_builder_own with (b := (m, p ++ [b])); [reflexivity|lia|exact OB].
Qed.
End Places.

(** ** Binding the instance *)
Lemma take_skip {A} (f : A -> bool) l : take_while f l ++ skipn (length (take_while f l)) l = l.
Proof. induction l as [|x l IH]; [reflexivity|]. cbn. destruct (f x); cbn; [now rewrite IH|reflexivity]. Qed.
Lemma removed R p q v : removable R p q -> plain_bind is_NONE p [v] [] = Ok q /\ plain_expects p [v] [] = true.
Proof.
  intros (n & Ep & Er & En). destruct p as [ps r]. cbn [parameters returns] in *. subst ps r.
  split.
  - unfold plain_bind. cbn [parameters returns]. unfold bind_positionals. cbn.
    change (is_positionable (RequiredParameter R POSITIONAL_ONLY n)) with true. cbn. rewrite take_skip. exact En.
  - unfold plain_expects. cbn [parameters]. rewrite !at_kind_by_kind. cbn. rewrite andb_false_r. cbn.
    unfold has_key_outside. cbn. now rewrite andb_false_r.
Qed.
Lemma bind_removed R s v qs : Forall2 (removable R) (flatten_signature s) qs -> qs <> [] ->
  exists t, bind is_NONE s [v] [] = Ok t /\ flatten_signature t = qs.
Proof.
  intros HR N. destruct s as [p|ps]; cbn [flatten_signature] in HR.
  - inversion HR as [|? q ? l R1 R2]; subst. inv R2. cbn [bind]. destruct (removed v R1) as [-> _]. cbn. eauto.
  - cbn [bind].
    assert (F : filter (fun p => plain_expects p [v] []) ps = ps /\ map_m (fun p => plain_bind is_NONE p [v] []) ps = Ok qs).
    { clear N. induction HR as [|p q ps qs R1 _ [IH1 IH2]]; [split; reflexivity|].
      destruct (removed v R1) as [E1 E2]. cbn [filter map_m]. now rewrite E2, IH1, E1, IH2. }
    destruct F as [-> ->]. cbn [bind_res]. destruct (combine_plains N) as (t & Et & Ft). destruct qs; [tauto|]. eauto.
Qed.

(** ** Calls *)
Lemma at_positional_only_first R n (ps : list (parameter V)) : 
  forall k, at_kind k (to_parameters_by_kind (RequiredParameter R POSITIONAL_ONLY n :: ps))
  = (if k == POSITIONAL_ONLY then [RequiredParameter R POSITIONAL_ONLY n] else []) ++ at_kind k (to_parameters_by_kind ps).
Proof. intros k. rewrite !at_kind_by_kind. now destruct k. Qed.
Lemma received_first R n (ps : list (parameter V)) r args kwargs :
  plain_all_set (mk_plain (RequiredParameter R POSITIONAL_ONLY n :: ps) r) args kwargs
  = match args with [] => false | _ :: args => plain_all_set (mk_plain ps r) args kwargs end.
Proof.
  unfold plain_all_set. cbn [parameters]. rewrite !at_positional_only_first. cbn [app].
  change (POSITIONAL_OR_KEYWORD == POSITIONAL_ONLY) with false. change (KEYWORD_ONLY == POSITIONAL_ONLY) with false.
  change (VARIADIC_POSITIONAL == POSITIONAL_ONLY) with false. change (VARIADIC_KEYWORD == POSITIONAL_ONLY) with false.
  change (POSITIONAL_ONLY == POSITIONAL_ONLY) with true. cbn [app].
  destruct args as [|a args]; cbn [length app skipn]; [|reflexivity].
  rewrite Nat.ltb_irrefl || idtac. rewrite !at_positional_only_first. cbn [app].
  change (POSITIONAL_ONLY == POSITIONAL_ONLY) with true. cbn [app].
  repeat match goal with |- context [if ?b then _ else _] => destruct b end; try reflexivity.
Qed.
Lemma written_calls value_of ws ps r args kwargs :
  legal_parameters (map stored_view ws) -> Forall defaultable ws ->
  (forall w e, In w ws -> w_default w = Some e -> is_NONE (value_of e) = false) ->
  Forall2 (follow value_of) ws ps ->
  (forall w, In w ws -> w_kind w = POSITIONAL_OR_KEYWORD -> ~ In (arg_name (w_arg w)) (dkeys kwargs)) ->
  plain_all_set (mk_plain ps r) args kwargs = true <-> accepts (map written_view ws) (length args) (dkeys kwargs).
Proof.
  intros Hl Hd Hn Hf Hk.
  assert (Hv : sviews (mk_plain ps r) = map stored (map written_view ws)).
  { change (sviews (mk_plain ps r)) with (views ps). rewrite (follow_views Hf). apply stored_written. }
  assert (Hb : built_plain is_NONE (mk_plain ps r)).
  { exists ps, r. split.
    - eapply follow_built; eassumption.
    - apply (@new_plain_exact V is_NONE). now rewrite (follow_views Hf). }
  rewrite (@all_set_exact _ is_NONE); [|exact Hb|].
  2:{ intros _. rewrite Hv. apply stored_no_clash. }
  rewrite Hv. apply stored_accepts.
  - destruct Hl as (Hnd & _). rewrite map_map in Hnd |- *. exact Hnd.
  - intros v Hi Ek. apply in_map_iff in Hi as (w & <- & Hw). now apply Hk.
Qed.
Lemma positional_written f kwargs w : by_position f kwargs -> In w (written (fd_args f)) -> w_kind w = POSITIONAL_OR_KEYWORD ->
  ~ In (arg_name (w_arg w)) kwargs.
Proof.
  intros B Hw E. unfold written in Hw. repeat rewrite in_app_iff in Hw. destruct Hw as [Hw|[Hw|[Hw|[Hw|Hw]]]].
  - apply in_map_iff in Hw as ([i x] & <- & _). discriminate E.
  - apply in_map_iff in Hw as ([i x] & <- & Hi). cbn in *. apply B.
    rewrite <- (map_id (args (fd_args f))), <- (map_number (fun x => x) (length (posonlyargs (fd_args f)))).
    apply in_map_iff. now exists (i, x).
  - unfold one in Hw. destruct (vararg (fd_args f)); [|easy]. destruct Hw as [<-|[]]. discriminate E.
  - apply in_map_iff in Hw as ([i x] & <- & _). discriminate E.
  - unfold one in Hw. destruct (kwarg (fd_args f)); [|easy]. destruct Hw as [<-|[]]. discriminate E.
Qed.
Lemma function_calls value_of m parent f s args kwargs : understood value_of m parent f -> says_function is_Ellipsis Any value_of f s ->
  by_position f (dkeys kwargs) ->
  plain_all_set s args kwargs = true <-> takes_call f (length args) (dkeys kwargs).
Proof.
  intros (L & _ & _ & D) [A _] B. destruct s as [ps r]. cbn [parameters] in A. unfold takes_call.
  apply (@written_calls value_of); auto.
  - now apply stored_views_legal.
  - apply written_defaultable.
  - intros w e Hw Ew. apply D. exists w. auto.
  - intros w. now apply positional_written.
Qed.
Lemma rest_calls value_of m parent f w ws ps r args kwargs : understood value_of m parent f -> written (fd_args f) = w :: ws ->
  Forall2 (follow value_of) ws ps -> by_position f (dkeys kwargs) ->
  plain_all_set (mk_plain ps r) args kwargs = true <-> takes_rest f (length args) (dkeys kwargs).
Proof.
  intros (L & _ & _ & D) E A B. unfold takes_rest.
  transitivity (accepts (map written_view ws) (length args) (dkeys kwargs)).
  - assert (I : forall x, In x ws -> In x (written (fd_args f))) by (intros x; rewrite E; now right).
    apply (@written_calls value_of); auto.
    + apply stored_views_legal in L. rewrite E in L. eapply legal_tail. exact L.
    + pose proof (written_defaultable (fd_args f)) as X. rewrite E in X. now inversion X.
    + intros x e Hx Ex. apply D. exists x. auto.
    + intros x Hx. apply (@positional_written f); auto.
  - split; [eauto|]. intros (w' & ws' & E' & X). rewrite E in E'. injection E' as <- <-. exact X.
Qed.
Lemma method_calls value_of R m parent f s args kwargs : understood value_of m parent f -> says_method is_Ellipsis Any R value_of f s ->
  by_position f (dkeys kwargs) ->
  plain_all_set s args kwargs = true <-> exists v rest, args = v :: rest /\ takes_rest f (length rest) (dkeys kwargs).
Proof.
  intros U (w & ws & ps & Ew & Ep & A & _) B. destruct s as [qs r]. cbn [parameters] in Ep. subst qs. rewrite received_first.
  destruct args as [|v args].
  - split; [discriminate|]. now intros (v & rest & E & _).
  - rewrite (@rest_calls value_of m parent f w ws ps r args kwargs U Ew A B). split; [eauto|].
    intros (v' & rest & E & X). now injection E as <- <-.
Qed.
Lemma bound_calls value_of m parent f s args kwargs : understood value_of m parent f -> says_bound is_Ellipsis Any value_of f s ->
  by_position f (dkeys kwargs) ->
  plain_all_set s args kwargs = true <-> takes_rest f (length args) (dkeys kwargs).
Proof. intros U (w & ws & Ew & A & _) B. destruct s as [ps r]. eapply rest_calls; eauto. Qed.
Lemma initializer_calls value_of m parent f s args kwargs : understood value_of m parent f ->
  says_initializer is_Ellipsis Any Self value_of f s -> by_position f (dkeys kwargs) ->
  plain_all_set s args kwargs = true <-> takes_rest f (length args) (dkeys kwargs).
Proof. intros U (w & ws & Ew & A & _) B. destruct s as [ps r]. eapply rest_calls; eauto. Qed.
Lemma overloads_calls (P : function_def -> plain_signature V -> Prop) (Q : function_def -> Prop) fs s args kwargs :
  Forall2 P fs (flatten_signature s) ->
  (forall f p, In f fs -> P f p -> (plain_all_set p args kwargs = true <-> Q f)) ->
  all_set s args kwargs = true <-> exists f, In f fs /\ Q f.
Proof.
  intros A H.
  assert (X : existsb (fun p => plain_all_set p args kwargs) (flatten_signature s) = true <-> exists f, In f fs /\ Q f).
  { induction A as [|f p fs ps A1 _ IH]; cbn [existsb].
    - split; [discriminate|]. now intros (f & [] & _).
    - rewrite Bool.orb_true_iff, (H f p (or_introl eq_refl) A1), IH by (intros; apply H; auto; now right).
      split; [intros [X|(g & Hg & X)]; [exists f|exists g]; cbn; auto|].
      intros (g & [<-|Hg] & X); eauto. }
  rewrite <- X. destruct s as [p|ps]; cbn [all_set flatten_signature existsb]; [now rewrite Bool.orb_false_r|reflexivity].
Qed.
End Whole.

(** ** Tables that say what is said *)
Section Told.
Context {V : Type}.
Variables (is_NONE is_Ellipsis : V -> bool) (Any Self TypeSelf : V).
Variable py : Evaluation.python V.
Variables (limit depth : nat) (st : state) (memory : Evaluation.memory V).
Context {O : Type} `{Eqb O}.
Variables (sys_modules : dict pystr O) (getattr : O -> pystr -> option O) (own : O -> qualified_path).
Variables (table : dict path (dict path (list qualified_path))) (introspect : O -> res (raw_signature V)).
Variables (is_type : O -> bool) (as_value : O -> V).
Notation result := (from_callable is_NONE is_Ellipsis Any Self TypeSelf (evaluate_node py (S limit) (S depth) st memory)
  (signature_tables st) (S limit) sys_modules getattr own introspect is_type as_value table).
Notation understood := (understood is_NONE py (S limit) (S depth) st memory).
Notation found_at := (found_at (S limit) st sys_modules getattr table own).
Notation found_first := (found_first (S limit) st sys_modules getattr table own).
Variables (m : path) (says : list fact).
Hypothesis told : (forall o, nodes_of_object st m o = nodes_in o says) /\ (forall o, kind_of_object st m o = kind_in o says).
Hypothesis named : m <> [].

Lemma told_functions_like o p gs fs value_of kind :
  functions_at says p gs -> Forall2 like fs gs ->
  (forall f, In f fs -> understood value_of m (removelast p) f
     /\ Forall (other_decorator (signature_tables st) (S limit) m (removelast p)) (fd_decorators f)) ->
  p <> [] -> found_first o (m, p) -> is_type o = false -> In kind function_kinds ->
  exists s, result (kind o) = Ok s /\ Forall2 (says_function is_Ellipsis Any value_of) fs (flatten_signature s).
Proof.
  destruct told as [T1 T2]. intros (((k & K & NC) & D & Ne) & NP) L U Np F T I. apply (fun X => defines_alike X L) in D. apply (like_nonempty L) in Ne. rewrite by_stub by exact I.
  destruct (@stub_functions V is_NONE is_Ellipsis Any Self TypeSelf py limit depth st memory O _ sys_modules getattr own table
              introspect is_type as_value o m p k (nodes_in p says) fs value_of) as (s & -> & A); auto.
  - now rewrite T2.
  - now rewrite T2.
  - exists s. auto.
Qed.
Lemma bind_receiver R u self s qs : from_stub_callable is_NONE is_Ellipsis Any Self TypeSelf (evaluate_node py (S limit) (S depth) st memory)
    (signature_tables st) (S limit) sys_modules getattr own is_type as_value table u = Return s ->
  Forall2 (removable R) (flatten_signature s) qs -> qs <> [] ->
  forall o kind, In kind (bound_kinds self u) -> exists t, result (kind o) = Ok t /\ flatten_signature t = qs.
Proof.
  intros Es X1 N o kind I.
  destruct (@bind_removed V is_NONE is_Ellipsis Any R s self qs X1 N) as (t & Et & Ft).
  exists t. split; [|exact Ft].
  repeat (destruct I as [<-|I];
    [cbn [from_callable]; unfold from_bound; cbn [of_res obind]; rewrite Es; cbn [obind];
     unfold call_bind, call_method; cbn; rewrite Et; reflexivity|]).
  destruct I.
Qed.
Lemma told_methods_like u p gs fs value_of :
  methods_at says p gs -> Forall2 like fs gs ->
  (forall f, In f fs -> understood value_of m (removelast p) f /\ written (fd_args f) <> []
     /\ Forall (other_decorator (signature_tables st) (S limit) m (removelast p)) (fd_decorators f)) ->
  p <> [] -> found_first u (m, p) -> is_type u = false ->
  (forall kind, In kind function_kinds -> exists s, result (kind u) = Ok s
     /\ Forall2 (says_method is_Ellipsis Any Self value_of) fs (flatten_signature s))
  /\ (forall o self kind, In kind (bound_kinds self u) -> exists s, result (kind o) = Ok s
        /\ Forall2 (says_bound is_Ellipsis Any value_of) fs (flatten_signature s)).
Proof.
  destruct told as [T1 T2]. intros (((k & K & NC) & D & Ne) & NP) L U Np F T. apply (fun X => defines_alike X L) in D. apply (like_nonempty L) in Ne.
  destruct (@stub_methods V is_NONE is_Ellipsis Any Self TypeSelf py limit depth st memory O _ sys_modules getattr own table
              introspect is_type as_value Self u m p k (nodes_in p says) fs value_of) as (s & qs & Es & A0 & A1 & A2); auto.
  - now rewrite T2.
  - intros f Hf. destruct (U f Hf) as (U1 & U2 & U3). split; [exact U1|]. split; [exact U2|]. left. now rewrite T2.
  - split.
    + intros kind I. rewrite by_stub, Es by exact I. exists s. auto.
    + intros o self kind I. destruct (@bind_receiver Self u self s qs Es A1) with (o := o) (kind := kind) as (t & Et & Ft); auto.
      { intros ->. inversion A2. congruence. }
      exists t. rewrite Ft. auto.
Qed.
Lemma told_class_methods_like o p gs fs value_of kind :
  members_at says p gs -> Forall2 like fs gs ->
  (forall f, In f fs -> understood value_of m (removelast p) f /\ written (fd_args f) <> []
     /\ class_method (signature_tables st) (S limit) m (removelast p) f) ->
  p <> [] -> found_first o (m, p) -> is_type o = false -> In kind (function_kinds ++ class_kinds) ->
  exists s, result (kind o) = Ok s /\ Forall2 (says_method is_Ellipsis Any TypeSelf value_of) fs (flatten_signature s).
Proof.
  destruct told as [T1 T2]. intros ((k & K & NC) & D & Ne) L U Np F T I. apply (fun X => defines_alike X L) in D. apply (like_nonempty L) in Ne.
  destruct (@stub_methods V is_NONE is_Ellipsis Any Self TypeSelf py limit depth st memory O _ sys_modules getattr own table
              introspect is_type as_value TypeSelf o m p k (nodes_in p says) fs value_of) as (s & qs & Es & A0 & _); auto.
  - now rewrite T2.
  - intros f Hf. destruct (U f Hf) as (U1 & U2 & U3). split; [exact U1|]. split; [exact U2|]. now right.
  - exists s. split; [|exact A0]. apply in_app_or in I. destruct I as [I|I]; [rewrite by_stub, Es by exact I; reflexivity|].
    repeat (destruct I as [<-|I]; [cbn [from_callable]; rewrite Es; reflexivity|]). destruct I.
Qed.
Lemma told_initializers_like o p gs fs value_of :
  initializers_at says p gs -> Forall2 like fs gs ->
  (forall f, In f fs -> understood value_of m p f /\ written (fd_args f) <> []) ->
  p <> [] -> found_at o (m, p) -> is_type o = true ->
  exists s, result (TypeCallable o) = Ok s /\ Forall2 (says_initializer is_Ellipsis Any Self value_of) fs (flatten_signature s).
Proof.
  destruct told as [T1 T2]. intros (D & Ne & Nf) L U Np F T. apply (fun X => defines_alike X L) in D. apply (like_nonempty L) in Ne. apply (like_names L) in Nf. rewrite <- T1 in D. rewrite Forall_forall in Nf.
  apply (@stub_class V is_NONE is_Ellipsis Any Self TypeSelf py limit depth st memory O _ sys_modules getattr own table
              introspect is_type as_value o m p $"__init__" (nodes_of_object st m (p ++ [$"__init__"])) fs value_of (says_initializer is_Ellipsis Any Self value_of)); auto.
  - constructor. apply (@nodes_has V is_NONE is_Ellipsis Any). destruct D; [tauto|discriminate].
  - intros f w ws ps Hf Ew A. rewrite (Nf f Hf), eqb_refl. exists w, ws. auto.
Qed.
Lemma told_constructors_like o p gs fs value_of :
  well_recorded st -> constructors_at says p gs -> Forall2 like fs gs ->
  (forall f, In f fs -> understood value_of m p f /\ written (fd_args f) <> []) ->
  p <> [] -> found_at o (m, p) -> is_type o = true ->
  exists s, result (TypeCallable o) = Ok s /\ Forall2 (says_bound is_Ellipsis Any value_of) fs (flatten_signature s).
Proof.
  destruct told as [T1 T2]. intros W (N0 & D & Ne & Nf) L U Np F T. apply (fun X => defines_alike X L) in D. apply (like_nonempty L) in Ne. apply (like_names L) in Nf. rewrite <- T1 in D, N0. rewrite Forall_forall in Nf.
  apply (@stub_class V is_NONE is_Ellipsis Any Self TypeSelf py limit depth st memory O _ sys_modules getattr own table
              introspect is_type as_value o m p $"__new__" (nodes_of_object st m (p ++ [$"__new__"])) fs value_of (says_bound is_Ellipsis Any value_of)); auto.
  - constructor.
    + intros X. apply has_nodes_defined in X; auto.
    + apply (@nodes_has V is_NONE is_Ellipsis Any). destruct D; [tauto|discriminate].
  - intros f w ws ps Hf Ew A. rewrite (Nf f Hf). exists w, ws. auto.
Qed.
Lemma told_functions o p fs value_of kind :
  functions_at says p fs ->
  (forall f, In f fs -> understood value_of m (removelast p) f
     /\ Forall (other_decorator (signature_tables st) (S limit) m (removelast p)) (fd_decorators f)) ->
  p <> [] -> found_first o (m, p) -> is_type o = false -> In kind function_kinds ->
  exists s, result (kind o) = Ok s /\ Forall2 (says_function is_Ellipsis Any value_of) fs (flatten_signature s).
Proof. intros. eapply told_functions_like; eauto using all_like. Qed.
Lemma told_methods u p fs value_of :
  methods_at says p fs ->
  (forall f, In f fs -> understood value_of m (removelast p) f /\ written (fd_args f) <> []
     /\ Forall (other_decorator (signature_tables st) (S limit) m (removelast p)) (fd_decorators f)) ->
  p <> [] -> found_first u (m, p) -> is_type u = false ->
  (forall kind, In kind function_kinds -> exists s, result (kind u) = Ok s
     /\ Forall2 (says_method is_Ellipsis Any Self value_of) fs (flatten_signature s))
  /\ (forall o self kind, In kind (bound_kinds self u) -> exists s, result (kind o) = Ok s
        /\ Forall2 (says_bound is_Ellipsis Any value_of) fs (flatten_signature s)).
Proof. intros. eapply told_methods_like; eauto using all_like. Qed.
Lemma told_class_methods o p fs value_of kind :
  members_at says p fs ->
  (forall f, In f fs -> understood value_of m (removelast p) f /\ written (fd_args f) <> []
     /\ class_method (signature_tables st) (S limit) m (removelast p) f) ->
  p <> [] -> found_first o (m, p) -> is_type o = false -> In kind (function_kinds ++ class_kinds) ->
  exists s, result (kind o) = Ok s /\ Forall2 (says_method is_Ellipsis Any TypeSelf value_of) fs (flatten_signature s).
Proof. intros. eapply told_class_methods_like; eauto using all_like. Qed.
Lemma told_initializers o p fs value_of :
  initializers_at says p fs ->
  (forall f, In f fs -> understood value_of m p f /\ written (fd_args f) <> []) ->
  p <> [] -> found_at o (m, p) -> is_type o = true ->
  exists s, result (TypeCallable o) = Ok s /\ Forall2 (says_initializer is_Ellipsis Any Self value_of) fs (flatten_signature s).
Proof. intros. eapply told_initializers_like; eauto using all_like. Qed.
Lemma told_constructors o p fs value_of :
  well_recorded st -> constructors_at says p fs ->
  (forall f, In f fs -> understood value_of m p f /\ written (fd_args f) <> []) ->
  p <> [] -> found_at o (m, p) -> is_type o = true ->
  exists s, result (TypeCallable o) = Ok s /\ Forall2 (says_bound is_Ellipsis Any value_of) fs (flatten_signature s).
Proof. intros. eapply told_constructors_like; eauto using all_like. Qed.
End Told.
