(** Where superclasses live: for C94 *)
From Verif Require Import Base Ast Conversion Generics Scoping SpecScoping ScopingProofs Signatures SpecSignatures Stubs SpecStubs StubsProofs
  MembersProofs SpecializeProofs SpecRecords RecordsProofs HierarchyProofs Whole SpecWhole WholeProofs.

(** Modules with definitions have entries for their nodes, and classes derive from
    what is defined. *)
Definition homed (st : state) : Prop :=
  (forall m, dget m (definitions (db st)) <> None -> dget m (nodes st) <> None)
  /\ forall m o q, In q (dget_or o [] (dget_or m [] (superclasses (db st)))) ->
       q = NamedTuple_path \/ defined (db st) (fst q) (snd q).

(** ** While reading stubs *)
Definition noted (st : state) : Prop :=
  (forall m, dget m (definitions (db st)) <> None -> In m (visited st))
  /\ (forall m, In m (visited st) -> dget m (nodes st) <> None)
  /\ forall m o q, In q (dget_or o [] (dget_or m [] (superclasses (db st)))) -> q = NamedTuple_path.
Lemma noted_event e st : enabled e st -> noted st -> noted (apply_event e st).
Proof.
  intros He (H1 & H2 & H3). split; [|split].
  - intros m Hm. rewrite visited_event. apply in_or_app. by_event e; tables_in Hm; try (left; now apply H1).
    1: { rewrite dget_dset in Hm. destruct (eqb_reflect m m') as [Em|]; [right; left; now symmetry|left; now apply H1]. }
    all: rewrite dget_dmodify in Hm; destruct (eqb_reflect m m') as [Em|]; [left; rewrite Em; exact He|left; now apply H1].
  - intros m Hm. rewrite visited_event in Hm. by_event e; rewrite ?app_nil_r in Hm; tables; try (now apply H2).
    1: { rewrite dget_dset. destruct (eqb_reflect m m') as [->|Hn]; [discriminate|]. apply H2.
         apply in_app_or in Hm. destruct Hm as [Hm|[->|[]]]; [exact Hm|easy]. }
    all: rewrite dget_dmodify; destruct (m == m'); [discriminate|now apply H2].
  - intros m o q Hq. by_event e; tables_in Hq; try (eapply H3; exact Hq).
    rewrite dget_or_dmodify in Hq. destruct (eqb_reflect m m') as [->|]; [|eapply H3; exact Hq].
    rewrite dget_or_dmodify in Hq. destruct (eqb_reflect o o') as [->|]; [|eapply H3; exact Hq].
    apply in_app_or in Hq. destruct Hq as [Hq|[<-|[]]]; [eapply H3; exact Hq|reflexivity].
Qed.
Lemma noted_steps st es st' : steps st es st' -> noted st -> noted st'.
Proof. induction 1; auto using noted_event. Qed.
Lemma noted_empty : noted empty_state.
Proof. split; [|split]; intros; contradiction. Qed.
Lemma parse_modules_noted source is_package condition fuel modules st u :
  parse_modules source is_package condition fuel modules = Done st u -> noted st.
Proof.
  intros E. pose proof (@goes_steps (told source is_package condition) _ _ _ (parse_all_goes source is_package condition fuel (builtins_path :: modules) untouched_empty)) as H.
  unfold parse_modules in E. rewrite E in H. destruct H as (es & H). eapply noted_steps; [eassumption|apply noted_empty].
Qed.

(** ** While dealing with bases *)
Section Specialised.
Variable limit : nat.
(** Only nodes are added. *)
Definition grows (st st' : state) : Prop :=
  superclasses (db st') = superclasses (db st) /\ definitions (db st') = definitions (db st)
  /\ (forall m, dget m (nodes st) <> None -> dget m (nodes st') <> None).
Lemma grows_refl st : grows st st.
Proof. repeat split; auto. Qed.
Lemma grows_trans st1 st2 st3 : grows st1 st2 -> grows st2 st3 -> grows st1 st3.
Proof. intros (A1 & A2 & A3) (B1 & B2 & B3). repeat split; [congruence|congruence|auto]. Qed.
Lemma dmodify_more {K A} `{Eqb K} k (d : A) f (t : dict K A) x : dget x t <> None -> dget x (dmodify k d f t) <> None.
Proof. intros X. rewrite dget_dmodify. now destruct (x == k). Qed.
Lemma add_dependencies_grows sm gm an names : forall st st', add_dependencies limit sm gm an names st = Ok st' -> grows st st'.
Proof.
  intros st st' H. destruct (@add_dependencies_same limit _ _ _ _ _ _ H) as (_ & A & _ & B & _ & _ & C). repeat split; rewrite ?A; auto.
Qed.
Lemma specialize_fields_grows generic sm specialization table an fields : forall st st',
  specialize_fields limit generic sm specialization table an fields st = Ok st' -> grows st st'.
Proof.
  induction fields as [|f r IH]; intros st st' H; cbn [specialize_fields] in H; [injection H as <-; apply grows_refl|].
  destruct (fetch (fst generic) (nodes st)) as [mn|]; [|discriminate]. cbn [bind_res] in H.
  destruct (fetch (snd generic ++ [f]) mn) as [gn|]; [|discriminate]. cbn [bind_res] in H.
  destruct (map_m (specialize_stmt table) gn) as [sp|]; [|discriminate]. cbn [bind_res] in H.
  destruct (map_m to_names sp) as [dn|]; [|discriminate]. cbn [bind_res] in H.
  set (st1 := with_nodes st _) in H.
  destruct (add_dependencies limit sm (fst generic) an _ st1) as [st2|] eqn:E; [|discriminate]. cbn [bind_res] in H.
  destruct (fetch (fst generic) (kinds st2)) as [mk|]; [|discriminate]. cbn [bind_res] in H.
  destruct (fetch (snd generic ++ [f]) mk) as [k|]; [|discriminate]. cbn [bind_res] in H.
  apply IH in H. apply grows_trans with (st2 := st1); [repeat split; intros m; apply dmodify_more|].
  eapply grows_trans; [eapply add_dependencies_grows; exact E|]. eapply grows_trans; [|exact H]. now repeat split.
Qed.
Lemma register_adds generic sm specialization parameters arguments st st' :
  register_generic_specialization limit generic sm specialization parameters arguments st = Ok st' ->
  superclasses (db st') = superclasses (db st) /\ (forall m, dget m (nodes st) <> None -> dget m (nodes st') <> None)
  /\ exists gs, definitions (db st') = dmodify specializations_path (Scope []) (update_at specialization gs)
       (dmodify specializations_path (Scope []) (add_path specialization) (definitions (db st))).
Proof.
  intros H. unfold register_generic_specialization in H. set (st1 := with_definitions st _) in H.
  destruct (fetch (fst generic) (definitions (db st1))) as [d|]; [|discriminate]. cbn [bind_res] in H.
  destruct (scope_at d (snd generic)) as [gs|]; [|discriminate]. cbn [bind_res] in H.
  set (st2 := with_definitions st1 _) in H.
  destruct (fetch (fst generic) (nodes st2)) as [mn|]; [|discriminate]. cbn [bind_res] in H.
  apply specialize_fields_grows in H. destruct H as (A & B & C). split; [exact A|]. split; [exact C|]. now exists gs.
Qed.

(** The module of specialisations is there as well. *)
Definition homed_all (st : state) : Prop := homed st /\ dget specializations_path (nodes st) <> None.
(** What is defined stays defined. *)
Definition settles (st st' : state) : Prop :=
  (forall m o, defined (db st) m o -> defined (db st') m o) /\ (homed_all st -> homed_all st').
Lemma settles_refl st : settles st st.
Proof. split; auto. Qed.
Lemma settles_trans st1 st2 st3 : settles st1 st2 -> settles st2 st3 -> settles st1 st3.
Proof. intros [A B] [C D]. split; auto. Qed.
Lemma register_settles generic sm name parameters arguments sc st st' :
  fetch specializations_path (definitions (db st)) = Ok sc -> dmem name (entries sc) = false ->
  register_generic_specialization limit generic sm [name] parameters arguments st = Ok st' -> settles st st'.
Proof.
  intros F N H. apply register_adds in H. destruct H as (A & B & gs & C). apply fetch_dget in F.
  assert (D : forall m o, defined (db st) m o -> defined (db st') m o).
  { intros m o (s & Hs & Ho). unfold defined. rewrite C, dget_dmodify. destruct (eqb_reflect m specializations_path) as [Em|Nm].
    - rewrite Em in Hs. rewrite Hs in F. injection F as ->. eexists. split; [reflexivity|]. unfold dget_or. rewrite dget_dmodify, eqb_refl.
      unfold dget_or. rewrite Hs. now apply has_path_update.
    - rewrite dget_dmodify_other by exact Nm. eauto. }
  split; [exact D|]. intros ((H1 & H2) & H3). split; [|now apply B]. split.
  - intros m Hm. destruct (eqb_reflect m specializations_path) as [Em|Nm]; [rewrite Em; now apply B|].
    apply B, H1. rewrite C in Hm. now rewrite !dget_dmodify_other in Hm by exact Nm.
  - intros m o q Hq. rewrite A in Hq. destruct (H2 m o q Hq) as [X|X]; auto.
Qed.
Lemma superclass_settles m c q st : defined (db st) (fst q) (snd q) -> settles st (add_superclass m c q st).
Proof.
  intros R. split; [auto|]. intros ((H1 & H2) & H3). split; [split; [exact H1|]|exact H3]. intros m' o' q' Hq. cbn [add_superclass with_superclasses with_db db superclasses definitions] in *.
  rewrite dget_or_dmodify in Hq. destruct (m' == m); [|eapply H2; exact Hq].
  rewrite dget_or_dmodify in Hq. destruct (eqb_reflect o' c) as [Ec|].
  - apply in_app_or in Hq. destruct Hq as [Hq|[<-|[]]]; [eapply H2; exact Hq|]. now right.
  - eapply H2; exact Hq.
Qed.
Lemma registered_defined generic sm name parameters arguments st st' :
  register_generic_specialization limit generic sm [name] parameters arguments st = Ok st' -> defined (db st') specializations_path [name].
Proof.
  intros H. apply register_adds in H. destruct H as (_ & _ & gs & C). unfold defined. rewrite C, dget_dmodify, eqb_refl.
  eexists. split; [reflexivity|]. unfold dget_or. rewrite dget_dmodify, eqb_refl. apply has_path_name.
Qed.
End Specialised.

Lemma process_homed printable limit st st' : noted st -> process_classes_bases printable limit st = Ok st' ->
  homed_all st' /\ forall m o, defined (db st) m o -> defined (db st') m o.
Proof.
  intros (N1 & N2 & N3) H. unfold process_classes_bases in H.
  destruct (dmem specializations_path (nodes st) || dmem specializations_path (definitions (db st))
     || dmem specializations_path (kinds st) || dmem specializations_path (references (db st))) eqn:E; [discriminate|].
  apply (@process_classes_R printable limit settles settles_refl settles_trans (fun st q => defined (db st) (fst q) (snd q))) in H.
  - destruct H as [A B]. split.
    + apply B. split; [split|cbn [with_nodes with_definitions with_kinds with_references with_db nodes db definitions superclasses]; rewrite !dget_dset, eqb_refl; discriminate].
      * intros m. cbn [with_nodes with_definitions with_kinds with_references with_db nodes db definitions superclasses]. rewrite !dget_dset.
        destruct (m == specializations_path); [discriminate|auto].
      * intros m o q Hq. left. eapply N3. exact Hq.
    + intros m o (s & Hs & Ho). apply A. exists s. split; [|exact Ho].
      cbn [with_nodes with_definitions with_kinds with_references with_db nodes db definitions superclasses].
      rewrite dget_dset. destruct (eqb_reflect m specializations_path) as [Em|]; [|exact Hs].
      exfalso. apply Bool.orb_false_iff in E. destruct E as [E _]. apply Bool.orb_false_iff in E. destruct E as [E _].
      apply Bool.orb_false_iff in E. destruct E as [_ E]. apply dmem_not_In, dget_None in E. rewrite Em, E in Hs. discriminate Hs.
  - clear. intros m c q st. apply superclass_settles.
  - intros. split; auto.
  - clear. intros q sm v sl p m parent name ps args sc st st' _ _ _ _ A B C. eapply register_settles; eassumption.
  - clear. intros st st' q [A _]. apply A.
  - clear. intros st m parent p [m' o'] H. cbn [fst snd]. eapply resolve_sound. exact H.
  - clear. intros st sc name F M. apply fetch_dget in F. exists sc. split; [exact F|]. cbn [snd]. apply has_member. now apply dmem_In.
  - clear. intros. eapply registered_defined. eassumption.
Qed.
Lemma stubs_homed source is_package condition printable limit fuel modules st :
  parse_stubs_state source is_package condition printable limit fuel modules = Ok st -> homed_all st.
Proof.
  intros H. destruct (@parse_stubs_parsed source is_package condition printable limit fuel modules st H) as (parsed & E & HP).
  eapply process_homed; [|exact HP]. eapply parse_modules_noted. exact E.
Qed.

(** ** Builders *)
Section Found.
Variables (source : path -> option (list stmt)) (is_package : path -> bool) (condition : list (pystr * qualified_path) -> expr -> res bool)
  (printable : N -> bool) (limit fuel : nat) (modules : list path) (st : state).
Hypothesis parsed_ok : parse_stubs_state source is_package condition printable limit fuel modules = Ok st.
Let stubs := signature_tables st.

Lemma nodes_module m : has_module stubs m <-> dget m (nodes st) <> None.
Proof.
  unfold has_module, stubs, signature_tables. cbn [raw_ast_nodes]. unfold values_with, dkeys. rewrite map_map, (map_ext _ fst) by now intros [].
  fold (dkeys (nodes st)). destruct (dget m (nodes st)) eqn:E.
  - split; [discriminate|]. intros _. apply dmem_In. unfold dmem. now rewrite E.
  - apply dget_None in E. split; [contradiction|]. now intros [].
Qed.
Lemma base_of c q : In q (bases (db st) c) -> q = NamedTuple_path \/ defined (db st) (fst q) (snd q).
Proof.
  intros H. destruct (@stubs_homed source is_package condition printable limit fuel modules st parsed_ok) as ((_ & H2) & _).
  destruct c as [m o]. rewrite <- bases_eq in H. exact (H2 m o q H).
Qed.
Lemma defined_module m o : defined (db st) m o -> has_module stubs m.
Proof. intros (s & Hs & _). apply nodes_module. destruct (@stubs_homed source is_package condition printable limit fuel modules st parsed_ok) as ((H1 & _) & _). apply H1. now rewrite Hs. Qed.
Lemma ancestors_modules c d : reaches (db st) c d -> has_module stubs (fst c) ->
  (reaches (db st) c NamedTuple_path -> has_module stubs (fst NamedTuple_path)) -> has_module stubs (fst d).
Proof.
  induction 1 as [c|c b d Hb Hd IH]; intros Hc HN; [exact Hc|]. apply IH.
  - destruct (@base_of _ _ Hb) as [->|X]; [|eapply defined_module; exact X].
    apply HN. econstructor; [exact Hb|constructor].
  - intros X. apply HN. econstructor; eassumption.
Qed.
Lemma read_module m : was_read source is_package condition fuel modules m -> has_module stubs m.
Proof.
  intros (parsed & E & Hm). destruct (@parse_stubs_parsed source is_package condition printable limit fuel modules st parsed_ok) as (parsed' & E' & HP).
  rewrite E in E'. injection E' as <-.
  destruct (@process_homed printable limit parsed st (@parse_modules_noted source is_package condition fuel modules parsed tt E) HP) as [_ D].
  destruct (@parse_modules_listed source is_package condition fuel modules parsed tt E) as (_ & L & _).
  apply (@defined_module m []). apply D. specialize (L m Hm). unfold defined. destruct (dget m (definitions (db parsed))) as [s|]; [|contradiction].
  exists s. split; [reflexivity|constructor].
Qed.

Lemma builder_found c : acyclic (db st) c -> has_module stubs (fst c) ->
  (reaches (db st) c NamedTuple_path -> has_module stubs (fst NamedTuple_path)) ->
  exists l n b, lineage (db st) c l /\ nearest stubs (map (at_path (snd c)) l) b
    /\ forall limit, n <= limit -> to_class_builder_qualified_path stubs limit c = Return b.
Proof.
  intros A Hc HN. destruct (@acyclic_terminates stubs c A) as [l Hl].
  assert (L : lineage (db st) c l) by (apply (@mro_lineage stubs _ c l (Hl _ (Nat.lt_succ_diag_r _)))).
  assert (Hm : forall d, In d l -> has_module stubs (fst d)).
  { intros d Hd. apply (@ancestors_modules c); [|exact Hc|exact HN]. now apply (@lineage_In stubs c l L). }
  destruct (@first_builder_total stubs (snd c) l Hm) as [b Hb]. eexists l, _, b. split; [exact L|]. split; [now apply first_builder_nearest|].
  intros lim Hlim. unfold to_class_builder_qualified_path. now rewrite (Hl lim Hlim).
Qed.
(** ... and otherwise *)
Lemma cyclic_unbuilt lim c : ~ acyclic (db st) c -> has_module stubs (fst c) ->
  (reaches (db st) c NamedTuple_path -> has_module stubs (fst NamedTuple_path)) ->
  (forall d b, reaches (db st) c d -> ~ own_builder stubs (fst d, snd c) b) ->
  to_class_builder_qualified_path stubs lim c = Throws RecursionError.
Proof.
  intros A Hc HN Hb. unfold to_class_builder_qualified_path.
  destruct (to_mro stubs lim c) as [l [e|]] eqn:E; [|now apply mro_lineage, (@lineage_acyclic stubs) in E].
  pose proof (mro_failure _ _ _ E) as ->.
  assert (X : forall d, In d l -> reaches (db st) c d) by (intros d Hd; apply (@mro_sound stubs lim); now rewrite E).
  clear E. induction l as [|[m x] r IH]; [reflexivity|].
  assert (M : has_module stubs m) by (apply (@ancestors_modules c (m, x)); auto; apply X; now left).
  apply has_module_get in M. destruct M as [t Et].
  destruct (@first_builder_cons stubs (snd c) m x r (Some RecursionError) t Et) as [(b & B & _)|[_ Y]].
  - exfalso. exact (Hb (m, x) b (X _ (or_introl eq_refl)) B).
  - etransitivity; [exact Y|]. apply IH. intros d Hd. apply X. now right.
Qed.
End Found.

(** ** Builders of classes found in several places *)
Section Places.
Variables (source : path -> option (list stmt)) (is_package : path -> bool) (condition : list (pystr * qualified_path) -> expr -> res bool)
  (printable : N -> bool) (limit fuel : nat) (modules : list path) (st : state).
Hypothesis parsed_ok : parse_stubs_state source is_package condition printable (S limit) fuel modules = Ok st.
Hypothesis typing_read : was_read source is_package condition fuel modules [$"typing"].
Context {O : Type} `{Eqb O}.
Variables (sys_modules : dict pystr O) (getattr : O -> pystr -> option O) (own : O -> qualified_path)
  (table : dict path (dict path (list qualified_path))).
Notation stubs := (signature_tables st).

Lemma made_exact q l : defined (db st) (fst q) (snd q) -> lineage (db st) q l -> length l <= S limit ->
  forall b, to_class_builder_qualified_path stubs (S limit) q = Return b <-> made_by st q b.
Proof.
  intros D L Ll b.
  assert (X : to_class_builder_qualified_path stubs (S limit) q = Return b <-> nearest stubs (map (at_path (snd q)) l) b).
  { apply class_builder_exact; [now apply lineage_mro_length|].
    intros d Hd. apply (@ancestors_modules source is_package condition printable (S limit) fuel modules st parsed_ok q).
    - now apply (@lineage_In stubs q l L).
    - eapply defined_module; eassumption.
    - intros _. eapply read_module; eassumption. }
  rewrite X. split.
  - intros N. exists l. auto.
  - intros (l' & L' & N). now rewrite (@lineage_unique stubs _ _ _ L L').
Qed.
Lemma made_places o : has_places (S limit) st sys_modules getattr table own o ->
  (forall q, place_of (S limit) st sys_modules getattr table own o q -> exists l, lineage (db st) q l /\ length l <= S limit) ->
  exists qs, resolve_qualified_paths stubs (S limit) sys_modules getattr own table o = Return qs /\ qs <> []
    /\ forall r, choice (fun x => exists q, place_of (S limit) st sys_modules getattr table own o q /\ made_by st q x) r ->
         resolve_builder_qualified_path stubs (S limit) qs = match r with Some b => Return b | None => SignatureNotFound end.
Proof.
  intros F L. destruct (@paths_return unit (fun _ => true) (fun _ => true) tt limit st O _ sys_modules getattr own table (fun _ => Err ValueError) (fun _ => true) (fun _ => tt) o F) as (qs & Eq & I & _ & D).
  exists qs. split; [exact Eq|]. split.
  { intros ->. destruct F as [(q & Pq) _]. now apply I in Pq. }
  assert (B : forall q, In q qs -> forall b, to_class_builder_qualified_path stubs (S limit) q = Return b <-> made_by st q b).
  { intros q Hq. destruct (L q (proj1 (I q) Hq)) as (l & L1 & L2). eapply made_exact; eauto. }
  assert (T : forall q, In q qs -> exists b, to_class_builder_qualified_path stubs (S limit) q = Return b).
  { intros q Hq. destruct (L q (proj1 (I q) Hq)) as (l & L1 & L2). unfold to_class_builder_qualified_path.
    rewrite (@lineage_mro_length stubs q l L1 _ L2). apply first_builder_total.
    intros d Hd. apply (@ancestors_modules source is_package condition printable (S limit) fuel modules st parsed_ok q).
    - now apply (@lineage_In stubs q l L1).
    - eapply defined_module; [eassumption|]. now apply D.
    - intros _. eapply read_module; eassumption. }
  intros r Ch. pose proof (@resolve_builder_choice stubs (S limit) qs T) as X.
  assert (Ch' : choice (builds stubs (S limit) qs) r).
  { eapply choice_ext; [|exact Ch]. intros x. cbn beta. unfold builds. split.
    - intros (q & Pq & M). apply I in Pq. exists q. split; [exact Pq|]. now apply B.
    - intros (q & Hq & M). exists q. split; [now apply I|]. now apply (B q Hq). }
  destruct (resolve_builder_qualified_path stubs (S limit) qs) as [b| |e]; [| |destruct X];
    pose proof (choice_fun X Ch') as <-; reflexivity.
Qed.
End Places.

