(** C91: what is recorded for an object *)
From Verif Require Import Base Ast Conversion Generics SpecCatalog SpecArboreal Scoping SpecScoping ScopingProofs Signatures SpecSignatures SignaturesProofs SpecGenerics GenericsProofs Stubs SpecStubs SpecRecords StubsProofs SpecializeProofs MembersProofs.

(** ** No empty entries *)
Definition full (st : state) : Prop :=
  forall m t o l, dget m (nodes st) = Some t -> dget o t = Some l -> l <> [].
Lemma full_node m o n st : full st -> full (add_ast_node m [] o n st).
Proof.
  intros H m' t o' l Hm Ho. tables_in Hm. rewrite dget_dmodify in Hm. destruct (eqb_reflect m' m) as [->|Hne].
  - injection Hm as <-. rewrite dget_dmodify in Ho. destruct (eqb_reflect o' o) as [->|Hne'].
    + injection Ho as <-. now intros E%app_eq_nil.
    + unfold dget_or in Ho. destruct (dget m (nodes st)) as [t|] eqn:E; [|discriminate]. eapply H; eassumption.
  - eapply H; eassumption.
Qed.
Lemma full_event e st : full st -> full (apply_event e st).
Proof.
  intros H. by_event e; try exact H.
  - intros m t o l Hm Ho. tables_in Hm. rewrite dget_dset in Hm. destruct (m == m'); [injection Hm as <-; discriminate|]. eapply H; eassumption.
  - intros m t o l Hm. change (nodes (apply_event (Recorded m' o' k n) st)) with (nodes (add_ast_node m' [] o' n st)) in Hm. revert Hm. apply (@full_node m' o' n st H).
  - intros m t o l Hm. change (nodes (apply_event (Constructed m' o' n) st)) with (nodes (add_ast_node m' [] o' n st)) in Hm. revert Hm. apply (@full_node m' o' n st H).
Qed.
Lemma full_steps st es st' : steps st es st' -> full st -> full st'.
Proof. induction 1; auto using full_event. Qed.

(** ** Definitions only *)
Definition fact_defined (f : fact) : Prop :=
  match f with
  | Defines _ k s => definition s k
  | Builds _ s => definition s FUNCTION
  | _ => True
  end.
Section Facts.
Variable m : path.
Variable package : bool.
Variable condition : list (pystr * qualified_path) -> expr -> res bool.
Variable finds : list fact -> path -> path -> option qualified_path -> Prop.
Variable type_variable : list fact -> qualified_path -> option bool -> Prop.
Variable arguments_of : expr -> list expr -> Prop.
Notation says := (says m package condition finds type_variable arguments_of).
Notation all_say := (all_say m package condition finds type_variable arguments_of).
Notation says_cut := (says_cut m package condition finds type_variable arguments_of).
Notation all_cut := (all_cut m package condition finds type_variable arguments_of).
Scheme says_mind := Minimality for SpecStubs.says Sort Prop
  with all_say_mind := Minimality for SpecStubs.all_say Sort Prop.
Combined Scheme say_ind from says_mind, all_say_mind.
Scheme says_cut_mind := Minimality for SpecStubs.says_cut Sort Prop
  with all_cut_mind := Minimality for SpecStubs.all_cut Sort Prop.
Combined Scheme cut_ind from says_cut_mind, all_cut_mind.

(** The last definition of an object has the kind of the object, except for classes. *)
Definition last_kind (fs : list fact) : Prop :=
  forall o k, kind_in o fs = Some k -> k <> CLASS -> exists l s, nodes_in o fs = l ++ [s] /\ definition s k.
Definition good (fs : list fact) : Prop := Forall fact_defined fs /\ last_kind fs.

Lemma kind_in_app o fs gs : kind_in o (fs ++ gs) = fold_left (kind_step o) gs (kind_in o fs).
Proof. apply fold_left_app. Qed.
Lemma nodes_in_app o fs gs : nodes_in o (fs ++ gs) = nodes_in o fs ++ nodes_in o gs.
Proof. apply flat_map_app. Qed.
(** Facts that change neither *)
Definition silent (f : fact) : Prop := match f with Defines _ _ _ | Builds _ _ | ClassAt _ => False | _ => True end.
Lemma silent_kind o gs : Forall silent gs -> forall k, fold_left (kind_step o) gs k = k.
Proof. induction 1 as [|f gs Hf _ IH]; intros k; [reflexivity|]. cbn. destruct f; try destruct Hf; apply IH. Qed.
Lemma silent_nodes o gs : Forall silent gs -> nodes_in o gs = [].
Proof. induction 1 as [|f gs Hf _ IH]; [reflexivity|]. unfold nodes_in in *. cbn. destruct f; try destruct Hf; exact IH. Qed.
Lemma good_silent fs gs : Forall silent gs -> good fs -> good (fs ++ gs).
Proof.
  intros Hg [A B]. split.
  - apply Forall_app. split; [exact A|]. eapply Forall_impl; [|exact Hg]. now intros [].
  - intros o k. rewrite kind_in_app, (@silent_kind o gs Hg), nodes_in_app, (@silent_nodes o gs Hg), app_nil_r. apply B.
Qed.
Lemma good_defines fs o k s : definition s k -> good fs -> good (fs ++ [Defines o k s]).
Proof.
  intros Hd [A B]. split; [apply Forall_app; split; [exact A|now repeat constructor]|].
  intros o' k'. rewrite kind_in_app, nodes_in_app. cbn. destruct (eqb_reflect o o') as [->|Hne].
  - intros E _. injection E as <-. now exists (nodes_in o' fs), s.
  - rewrite app_nil_r. apply B.
Qed.
Lemma good_class fs o : good fs -> good (fs ++ [ClassAt o]).
Proof.
  intros [A B]. split; [apply Forall_app; split; [exact A|now repeat constructor]|].
  intros o' k'. rewrite kind_in_app, nodes_in_app. cbn. rewrite app_nil_r. destruct (o == o'); [|apply B].
  intros E. injection E as <-. now intros [].
Qed.
Lemma good_builds fs o s : definition s FUNCTION -> kind_in o fs = Some CLASS -> good fs -> good (fs ++ [Builds o s]).
Proof.
  intros Hd Hk [A B]. split; [apply Forall_app; split; [exact A|now repeat constructor]|].
  intros o' k'. rewrite kind_in_app, nodes_in_app. cbn. destruct (eqb_reflect o o') as [->|Hne].
  - rewrite Hk. intros E. injection E as <-. now intros [].
  - rewrite app_nil_r. apply B.
Qed.

Lemma stands_silent before parent p fs q : stands_for m finds before parent p fs q -> Forall silent fs.
Proof. intros H. inversion H; repeat constructor. Qed.
Lemma variables_silent parent before es fs ps : variables m finds type_variable parent before es fs ps -> Forall silent fs.
Proof. induction 1; auto. apply Forall_app. split; [eapply stands_silent; eassumption|assumption]. Qed.
Lemma variables_cut_silent parent before es fs : variables_cut m finds type_variable parent before es fs -> Forall silent fs.
Proof. induction 1; auto; [apply Forall_app; split; [|assumption]|]; eapply stands_silent; eassumption. Qed.
Lemma constructor_definition name body s : constructor_of name body s -> definition s FUNCTION.
Proof. destruct 1. constructor. Qed.
Definition class_now (o : path) (fs : list fact) : Prop := kind_in o fs = Some CLASS /\ good fs.
Lemma class_now_silent o fs gs : Forall silent gs -> class_now o fs -> class_now o (fs ++ gs).
Proof. intros Hg [A B]. split; [|now apply good_silent]. now rewrite kind_in_app, (@silent_kind o gs Hg). Qed.
Lemma class_now_builds o fs s : definition s FUNCTION -> class_now o fs -> class_now o (fs ++ [Builds o s]).
Proof. intros Hd [A B]. split; [now rewrite kind_in_app|now apply good_builds]. Qed.
Lemma base_says_good parent name body before b fs ps :
  base_says m finds type_variable arguments_of parent name body before b fs ps ->
  class_now (parent ++ [name]) before -> class_now (parent ++ [name]) (before ++ fs).
Proof.
  destruct 1; intros Hc; rewrite ?app_assoc.
  - apply class_now_builds; [eapply constructor_definition; eassumption|]. apply class_now_silent; [eapply stands_silent; eassumption|exact Hc].
  - apply class_now_silent; [eapply stands_silent; eassumption|exact Hc].
  - apply class_now_silent; [repeat constructor|]. apply class_now_silent; [eapply stands_silent; eassumption|exact Hc].
  - apply class_now_silent; [eapply variables_silent; eassumption|exact Hc].
  - apply class_now_silent; [repeat constructor|]. apply class_now_silent; [eapply variables_silent; eassumption|exact Hc].
Qed.
Lemma base_cut_silent parent before b fs : base_cut m finds type_variable arguments_of parent before b fs -> Forall silent fs.
Proof. destruct 1; [eapply variables_cut_silent|eapply variables_silent]; eassumption. Qed.
Lemma bases_say_good parent name body before bs fs ps :
  bases_say m finds type_variable arguments_of parent name body before bs fs ps ->
  class_now (parent ++ [name]) before -> class_now (parent ++ [name]) (before ++ fs).
Proof.
  induction 1; intros Hc; [now rewrite app_nil_r|]. rewrite app_assoc. apply IHbases_say. eapply base_says_good; eassumption.
Qed.
Lemma bases_cut_good parent name body before bs fs :
  bases_cut m finds type_variable arguments_of parent name body before bs fs ->
  class_now (parent ++ [name]) before -> class_now (parent ++ [name]) (before ++ fs).
Proof.
  induction 1; intros Hc.
  - apply class_now_silent; [eapply base_cut_silent; eassumption|exact Hc].
  - rewrite app_assoc. apply IHbases_cut. eapply base_says_good; eassumption.
Qed.
Lemma parameters_silent o vars fs : parameters_say o vars fs -> Forall silent fs.
Proof. destruct 1; repeat constructor. Qed.
Lemma class_now_start fs o : good fs -> class_now o (fs ++ [ClassAt o]).
Proof. intros H. split; [|now apply good_class]. rewrite kind_in_app. cbn. now rewrite eqb_refl. Qed.
Lemma concerning_silent {A} (f : A -> list fact -> Prop) xs fs : (forall x gs, f x gs -> Forall silent gs) -> concerning f xs fs -> Forall silent fs.
Proof. intros Hf. induction 1; [constructor|]. apply Forall_app. eauto. Qed.
Lemma import_silent x fs : import_says x fs -> Forall silent fs.
Proof.
  destruct 1 as [|name p fs Hp Hl Hn]; [repeat constructor|]. apply Forall_forall. intros f Hf.
  destruct (In_nth_error _ _ Hf) as [k Hk]. assert (k < length p) by (rewrite <- Hl; apply nth_error_Some; congruence).
  rewrite Hn in Hk by assumption. injection Hk as <-. exact I.
Qed.
Lemma from_silent pm x fs : from_says pm x fs -> Forall silent fs.
Proof. destruct 1; repeat constructor. Qed.

Lemma say_good :
  (forall before parent s fs, says before parent s fs -> good before -> good (before ++ fs)) /\
  (forall before parent ss fs, all_say before parent ss fs -> good before -> good (before ++ fs)).
Proof.
  apply say_ind; intros; rewrite ?app_nil_r; auto.
  - apply good_defines; [constructor|assumption].
  - rewrite app_assoc. apply good_silent; [repeat constructor|]. apply good_silent; [eapply stands_silent; eassumption|assumption].
  - match goal with H : concerning _ _ _ |- _ => revert before H1; induction H as [|x xs fs1 fs2 (p & Hp & ->) _ IH]; intros before HG end;
      [now rewrite app_nil_r|]. rewrite app_assoc. apply IH. apply good_defines; [constructor|assumption].
  - apply good_silent; [|assumption]. apply Forall_app. split; [eapply stands_silent; eassumption|].
    eapply concerning_silent; [|eassumption]. intros x gs (p' & _ & ->). repeat constructor.
  - apply good_defines; [constructor|assumption].
  - apply good_defines; [constructor|assumption].
  - change (ClassAt (parent ++ [name]) :: fs ++ fs' ++ fs'') with ([ClassAt (parent ++ [name])] ++ fs ++ fs' ++ fs''). rewrite !app_assoc.
    match goal with H : good _ -> good (_ ++ fs'') |- _ => revert H end.
    change (before ++ ClassAt (parent ++ [name]) :: fs ++ fs') with (before ++ [ClassAt (parent ++ [name])] ++ fs ++ fs'). rewrite !app_assoc. intros HI. apply HI.
    apply good_silent; [eapply parameters_silent; eassumption|]. eapply bases_say_good; [eassumption|]. now apply class_now_start.
  - apply good_silent; [|assumption]. eapply concerning_silent; [|eassumption]. apply import_silent.
  - apply good_silent; [|assumption]. eapply concerning_silent; [|eassumption]. apply from_silent.
  - rewrite app_assoc. auto.
Qed.
Lemma cut_good :
  (forall before parent s fs, says_cut before parent s fs -> good before -> good (before ++ fs)) /\
  (forall before parent ss fs, all_cut before parent ss fs -> good before -> good (before ++ fs)).
Proof.
  apply cut_ind; intros; rewrite ?app_nil_r; auto.
  - change (ClassAt (parent ++ [name]) :: fs) with ([ClassAt (parent ++ [name])] ++ fs). rewrite !app_assoc.
    eapply bases_cut_good; [eassumption|]. now apply class_now_start.
  - change (ClassAt (parent ++ [name]) :: fs ++ fs' ++ fs'') with ([ClassAt (parent ++ [name])] ++ fs ++ fs' ++ fs''). rewrite !app_assoc.
    match goal with H : good _ -> good (_ ++ fs'') |- _ => revert H end.
    change (before ++ ClassAt (parent ++ [name]) :: fs ++ fs') with (before ++ [ClassAt (parent ++ [name])] ++ fs ++ fs'). rewrite !app_assoc. intros HI. apply HI.
    apply good_silent; [eapply parameters_silent; eassumption|]. eapply bases_say_good; [eassumption|]. now apply class_now_start.
  - rewrite app_assoc. match goal with H : good _ -> good (_ ++ fs') |- _ => apply H end. eapply (proj1 say_good); eassumption.
Qed.
End Facts.

(** ** After parsing *)
Lemma defines_nodes o fs : Forall fact_defined fs -> Forall (fun s => exists k, definition s k) (nodes_in o fs).
Proof.
  induction 1 as [|f fs Hf _ IH]; [constructor|]. unfold nodes_in in *. cbn [flat_map]. apply Forall_app. split; [|exact IH].
  destruct f; try constructor; cbn in Hf; destruct (_ == o); repeat constructor; eauto.
Qed.
Lemma dget_nodes st m t o l : dget m (nodes st) = Some t -> dget o t = Some l -> nodes_of_object st m o = l.
Proof. intros Hm Ho. unfold nodes_of_object. rewrite Hm. match goal with |- match ?x with _ => _ end = _ => change (x = Some l) in Ho; now rewrite Ho end. Qed.
Lemma good_nil : good [].
Proof. split; [constructor|]. intros o k. discriminate. Qed.
Lemma told_good source is_package condition fuel st m body fs :
  module_says source is_package condition fuel st m body fs \/ module_cut source is_package condition fuel st m body fs -> good fs.
Proof.
  intros [H|H]; [eapply (proj2 (@say_good _ _ _ _ _ _)) in H|eapply (proj2 (@cut_good _ _ _ _ _ _)) in H]; exact H || exact good_nil.
Qed.
Lemma parse_modules_records source is_package condition fuel modules st u :
  parse_modules source is_package condition fuel modules = Done st u -> well_recorded st.
Proof.
  intros E.
  assert (T : forall m, exists fs, good fs /\ tables_say m st fs).
  { intros m. destruct (in_dec (list_eq_dec (list_eq_dec N.eq_dec)) m (visited st)) as [Hm|Hm].
    - destruct (@run_told source is_package condition fuel modules st u m E Hm) as (fuel' & body & fs & _ & H & T).
      exists fs. split; [eapply told_good; exact H|exact T].
    - exists []. split; [exact good_nil|].
      pose proof (parse_all_goes source is_package condition fuel (builtins_path :: modules) untouched_empty) as H.
      unfold parse_modules in E. rewrite E in H. destruct H as (es & H & _).
      now apply (untouched_steps (tr_steps H) untouched_empty). }
  assert (F : full st).
  { pose proof (parse_all_goes source is_package condition fuel (builtins_path :: modules) untouched_empty) as H.
    unfold parse_modules in E. rewrite E in H. destruct H as (es & H & _).
    eapply full_steps; [apply (tr_steps H)|]. intros m t o l. discriminate. }
  split.
  - intros m t o l Hm Ho. split; [now apply (F m t o)|]. destruct (T m) as (fs & [A _] & (B & _)).
    rewrite <- (@dget_nodes st m t o l Hm Ho), B. now apply defines_nodes.
  - intros m o k Hk Hc. destruct (T m) as (fs & [_ A] & (B & C & _)). rewrite B. apply A; [|exact Hc]. now rewrite <- C.
Qed.

(** ** Specialisation *)
Section Specialised.
Variable printable : N -> bool.
Variable limit : nat.

Lemma specialize_definition table s s' k : specialize_stmt table s = Ok s' -> definition s k -> definition s' k.
Proof.
  intros H D. destruct D; cbn [specialize_stmt] in H;
    repeat match type of H with (let* _ := ?x in _) = _ => destruct x; [|discriminate]; cbn [bind_res] in H end;
    injection H as <-; constructor.
Qed.
Lemma map_m_nonempty {A B} (f : A -> res B) l l' : map_m f l = Ok l' -> l <> [] -> l' <> [].
Proof. intros H Hl. apply map_m_ok in H. destruct H; [contradiction|discriminate]. Qed.
Lemma map_m_last {A B} (f : A -> res B) l x l' : map_m f (l ++ [x]) = Ok l' -> exists k y, l' = k ++ [y] /\ f x = Ok y.
Proof.
  intros H. apply map_m_ok in H. apply Forall2_app_inv_l in H. destruct H as (k & r & _ & H & ->). inversion H as [|? y ? r' Hy Hr]; subst.
  inversion Hr; subst. eauto.
Qed.
Lemma well_recorded_same st st' : nodes st' = nodes st -> kinds st' = kinds st -> well_recorded st -> well_recorded st'.
Proof. intros En Ek. unfold well_recorded, kind_of_object, nodes_of_object. now rewrite En, Ek. Qed.

Lemma specialize_fields_records generic sm specialization table an fields : forall st st',
  specialize_fields limit generic sm specialization table an fields st = Ok st' -> well_recorded st -> well_recorded st'.
Proof.
  induction fields as [|name r IH]; intros st st' H W; cbn [specialize_fields] in H; [now injection H as <-|].
  destruct (fetch (fst generic) (nodes st)) as [mn|] eqn:E1; [|discriminate]. cbn [bind_res] in H.
  destruct (fetch (snd generic ++ [name]) mn) as [gn|] eqn:E2; [|discriminate]. cbn [bind_res] in H.
  destruct (map_m (specialize_stmt table) gn) as [sp|] eqn:E3; [|discriminate]. cbn [bind_res] in H.
  set (st1 := with_nodes st _) in H.
  destruct (map_m to_names sp) as [df|] eqn:E4; [|discriminate]. cbn [bind_res] in H.
  destruct (add_dependencies limit sm (fst generic) an _ st1) as [st2|] eqn:E5; [|discriminate]. cbn [bind_res] in H.
  destruct (fetch (fst generic) (kinds st2)) as [mk|] eqn:E6; [|discriminate]. cbn [bind_res] in H.
  destruct (fetch (snd generic ++ [name]) mk) as [k|] eqn:E7; [|discriminate]. cbn [bind_res] in H.
  set (st3 := with_kinds st2 _) in H. apply IH in H; [exact H|]. clear H IH.
  apply add_dependencies_same in E5. destruct E5 as (_ & D2 & D3 & _).
  apply fetch_dget in E1, E2, E6, E7. destruct W as [W1 W2].
  assert (G : gn <> [] /\ Forall (fun s => exists k, definition s k) gn) by (eapply W1; eassumption). destruct G as [G1 G2].
  assert (N3 : nodes st3 = nodes st1) by exact D2.
  assert (K2 : kinds st2 = kinds st) by exact D3.
  assert (KG : kind_of_object st (fst generic) (snd generic ++ [name]) = Some k).
  { unfold kind_of_object. rewrite <- K2. match type of E6 with ?a = _ => match goal with |- match ?b with _ => _ end = _ => change b with a end end. rewrite E6. exact E7. }
  split.
  - intros m t o l Hm Ho. rewrite N3 in Hm. unfold st1 in Hm. cbn [with_nodes nodes] in Hm. rewrite dget_dmodify in Hm.
    destruct (eqb_reflect m specializations_path) as [->|Hne]; [|eapply W1; eassumption]. injection Hm as <-.
    rewrite dget_dset in Ho. destruct (o == specialization ++ [name]).
    + injection Ho as <-. split; [eapply map_m_nonempty; eassumption|]. apply map_m_ok in E3. clear -E3 G2.
      induction E3 as [|s s' l l' Hs _ IH]; [constructor|]. inversion G2 as [|? ? (k & Hk) G]; subst. constructor; [|now apply IH].
      exists k. eapply specialize_definition; eassumption.
    + unfold dget_or in Ho. destruct (dget specializations_path (nodes st)) as [t|] eqn:Et; [|discriminate]. eapply W1; eassumption.
  - assert (HN : forall m o, nodes_of_object st3 m o =
      if (m == specializations_path) && (o == specialization ++ [name]) then sp else nodes_of_object st m o).
    { intros m o. rewrite !nodes_of_object_or, N3. unfold st1. cbn [with_nodes nodes]. rewrite dget_or_dmodify.
      destruct (eqb_reflect m specializations_path) as [->|Hne]; cbn [andb]; [|reflexivity]. rewrite dget_or_dset. reflexivity. }
    assert (HK : forall m o, kind_of_object st3 m o =
      if (m == specializations_path) && (o == specialization ++ [name]) then Some k else kind_of_object st m o).
    { intros m o. rewrite !kind_of_object_or. unfold st3. cbn [with_kinds kinds]. rewrite dget_or_dmodify, K2.
      destruct (eqb_reflect m specializations_path) as [->|Hne]; cbn [andb]; [|reflexivity]. rewrite dget_dset. reflexivity. }
    intros m o k' Hk Hc. rewrite HK in Hk. rewrite HN.
    destruct ((m == specializations_path) && (o == specialization ++ [name])); [|now apply W2].
    injection Hk as <-. destruct (W2 _ _ _ KG Hc) as (l & s & Hl & Hs). rewrite (@dget_nodes st _ _ _ _ E1 E2) in Hl. subst gn.
    apply map_m_last in E3. destruct E3 as (l' & s' & -> & Hs'). exists l', s'. split; [reflexivity|]. eapply specialize_definition; eassumption.
Qed.
Lemma specialize_fields_entries generic sm specialization table an fields : fst generic <> specializations_path -> forall st st',
  specialize_fields limit generic sm specialization table an fields st = Ok st' ->
  forall name, In name fields -> exists t l, dget (fst generic) (nodes st) = Some t /\ dget (snd generic ++ [name]) t = Some l.
Proof.
  intros Hg. induction fields as [|name r IH]; intros st st' H x Hx; cbn [specialize_fields] in H; [destruct Hx|].
  destruct (fetch (fst generic) (nodes st)) as [mn|] eqn:E1; [|discriminate]. cbn [bind_res] in H.
  destruct (fetch (snd generic ++ [name]) mn) as [gn|] eqn:E2; [|discriminate]. cbn [bind_res] in H.
  apply fetch_dget in E1, E2. destruct Hx as [->|Hx]; [eauto|].
  destruct (map_m (specialize_stmt table) gn) as [sp|] eqn:E3; [|discriminate]. cbn [bind_res] in H.
  set (st1 := with_nodes st _) in H.
  destruct (map_m to_names sp) as [df|] eqn:E4; [|discriminate]. cbn [bind_res] in H.
  destruct (add_dependencies limit sm (fst generic) an _ st1) as [st2|] eqn:E5; [|discriminate]. cbn [bind_res] in H.
  destruct (fetch (fst generic) (kinds st2)) as [mk|] eqn:E6; [|discriminate]. cbn [bind_res] in H.
  destruct (fetch (snd generic ++ [name]) mk) as [k|] eqn:E7; [|discriminate]. cbn [bind_res] in H.
  destruct (IH _ _ H x Hx) as (t & l & A & B). apply add_dependencies_same in E5. destruct E5 as (_ & D2 & _).
  cbn [with_kinds nodes] in A. rewrite D2 in A. unfold st1 in A. cbn [with_nodes nodes] in A. rewrite dget_dmodify_other in A by exact Hg. eauto.
Qed.
Lemma specialize_fields_filled generic sm specialization table an fields : fst generic <> specializations_path -> forall st st',
  specialize_fields limit generic sm specialization table an fields st = Ok st' -> full st ->
  forall name, In name fields -> nodes_of_object st' specializations_path (specialization ++ [name]) <> [].
Proof.
  intros Hg st st' H F name Hn. destruct (@specialize_fields_entries _ _ _ _ _ _ Hg _ _ H name Hn) as (t & l & A & B).
  apply specialize_fields_spec in H; [|exact Hg]. destruct H as (_ & H & _). destruct (H name Hn) as ((l' & -> & H2 & _) & _).
  rewrite (@dget_nodes st _ _ _ _ A B) in H2. eapply map_m_nonempty; [exact H2|]. now apply (F _ _ _ _ A B).
Qed.
Lemma register_records generic sm specialization parameters arguments st st' :
  register_generic_specialization limit generic sm specialization parameters arguments st = Ok st' -> well_recorded st -> well_recorded st'.
Proof.
  intros H W. unfold register_generic_specialization in H. set (st1 := with_definitions st _) in H.
  destruct (fetch (fst generic) (definitions (db st1))) as [d|]; [|discriminate]. cbn [bind_res] in H.
  destruct (scope_at d (snd generic)) as [gs|]; [|discriminate]. cbn [bind_res] in H.
  set (st2 := with_definitions st1 _) in H.
  destruct (fetch (fst generic) (nodes st2)) as [mn|]; [|discriminate]. cbn [bind_res] in H.
  set (st3 := with_kinds st2 _) in H. apply specialize_fields_records in H; [exact H|].
  destruct W as [W1 W2]. split; [exact W1|]. intros m o k Hk Hc. apply W2; [|exact Hc].
  rewrite kind_of_object_or in *. unfold st3 in Hk. cbn [with_kinds kinds] in Hk. rewrite dget_or_dmodify in Hk.
  destruct (eqb_reflect m specializations_path) as [->|Hne]; [|exact Hk]. rewrite dget_dset in Hk.
  destruct (o == specialization); [|exact Hk]. injection Hk as <-. now destruct Hc.
Qed.
End Specialised.

(** ** All bases *)
Section Bases.
Variable printable : N -> bool.
Variable limit : nat.
Variable R : state -> state -> Prop.
Hypothesis R_refl : forall st, R st st.
Hypothesis R_trans : forall st1 st2 st3, R st1 st2 -> R st2 st3 -> R st1 st3.
(** What holds of the classes that are added to superclasses *)
Variable reached : state -> qualified_path -> Prop.
Hypothesis R_superclass : forall m c q st, reached st q -> R st (add_superclass m c q st).
Hypothesis R_bases : forall b st, R st (with_bases st b).
Hypothesis R_register : forall q sm v sl p m parent name parameters arguments sc st st',
  to_identifier printable (Subscript v sl) = Ok name -> dotted v p ->
  resolve_object_path (db st) limit m parent p [] = Resolved q ->
  fetch q (parameters_of st) = Ok parameters ->
  fetch specializations_path (definitions (db st)) = Ok sc -> dmem name (entries sc) = false ->
  register_generic_specialization limit q sm [name] parameters arguments st = Ok st' -> R st st'.
Hypothesis reached_later : forall st st' q, R st st' -> reached st q -> reached st' q.
Hypothesis reached_resolved : forall st m parent p q, resolve_object_path (db st) limit m parent p [] = Resolved q -> reached st q.
Hypothesis reached_before : forall st sc name, fetch specializations_path (definitions (db st)) = Ok sc -> dmem name (entries sc) = true ->
  reached st (specializations_path, [name]).
Hypothesis reached_registered : forall q sm name parameters arguments st st',
  register_generic_specialization limit q sm [name] parameters arguments st = Ok st' -> reached st' (specializations_path, [name]).

Lemma register_generic_base_R generic cm specialization table i st st' :
  register_generic_base printable limit generic cm specialization table i st = Ok st' -> R st st'.
Proof.
  intros H. unfold register_generic_base in H.
  destruct (fetch generic (bases_of st)) as [gb|] eqn:E1; [|discriminate]. cbn [bind_res] in H.
  destruct (nth_error gb i) as [b|] eqn:En; [|discriminate].
  assert (HP : forall b, (let* result := let* p := to_path b in let* q := resolve_stub limit (fst generic) [] p st in Ok (st, q) in
     Ok (add_superclass specializations_path specialization (snd result) (fst result))) = Ok st' -> R st st').
  { intros b' H'. destruct (to_path b') as [p|]; [|discriminate]. cbn [bind_res] in H'.
    destruct (resolve_stub limit (fst generic) [] p st) as [q|] eqn:Eq; [|discriminate]. cbn [bind_res] in H'. injection H' as <-. apply R_superclass.
    eapply reached_resolved, resolve_stub_Ok, Eq. }
  destruct b as [id|v a|v s|es|es|items|f es ks|l o r|o e|c|es]; try (eapply HP; exact H).
  destruct (specialize table (Subscript v s)) as [sp|] eqn:Esp; [|discriminate]. cbn [bind_res] in H.
  set (st1 := with_bases st _) in H.
  assert (S1 : R st st1) by apply R_bases.
  destruct (to_identifier printable sp) as [name|] eqn:Ei; [|discriminate]. cbn [bind_res] in H.
  destruct (fetch specializations_path (definitions (db st1))) as [sc|] eqn:E2; [|discriminate]. cbn [bind_res] in H.
  apply R_trans with (st2 := st1); [exact S1|].
  destruct (dmem name (entries sc)) eqn:E3; [injection H as <-; apply R_superclass; eapply reached_before; eassumption|].
  destruct sp as [id|v' a|v' s'|es|es|items|f es ks|l o r|o e|c|es]; try discriminate H.
  destruct (to_path v') as [p|] eqn:Ep; [|discriminate]. cbn [bind_res] in H. apply to_path_dotted in Ep.
  destruct (resolve_stub limit (fst generic) (removelast (snd generic)) p st1) as [q|] eqn:Er; [|discriminate]. cbn [bind_res] in H. apply resolve_stub_Ok in Er.
  destruct (fetch q (parameters_of st1)) as [ps|] eqn:E4; [|discriminate]. cbn [bind_res] in H.
  destruct (register_generic_specialization limit q cm [name] ps (unpack_ast_node s') st1) as [st2|] eqn:E5; [|discriminate].
  cbn [bind_res] in H. injection H as <-.
  eapply R_trans; [|apply R_superclass; eapply reached_registered; exact E5]. eapply R_register; eassumption.
Qed.
Lemma register_generic_bases_R generic cm specialization table l : forall st st',
  register_generic_bases printable limit generic cm specialization table l st = Ok st' -> R st st'.
Proof.
  induction l as [|i r IH]; intros st st' H; cbn [register_generic_bases] in H; [injection H as <-; apply R_refl|].
  destruct (register_generic_base printable limit generic cm specialization table i st) as [st1|] eqn:E; [|discriminate].
  cbn [bind_res] in H. eapply R_trans; [eapply register_generic_base_R; exact E|now apply IH].
Qed.
Lemma register_base_R base child st r : register_base_ast_node printable limit base child st = Ok r -> R st (fst r) /\ reached (fst r) (snd r).
Proof.
  intros H. unfold register_base_ast_node in H.
  assert (HP : forall b, (let* p := to_path b in let* q := resolve_stub limit (fst child) (removelast (snd child)) p st in Ok (st, q)) = Ok r -> R st (fst r) /\ reached (fst r) (snd r)).
  { intros b' H'. destruct (to_path b') as [p|]; [|discriminate]. cbn [bind_res] in H'.
    destruct (resolve_stub limit (fst child) (removelast (snd child)) p st) as [q|] eqn:Eq; [|discriminate]. cbn [bind_res] in H'. injection H' as <-.
    split; [apply R_refl|]. eapply reached_resolved, resolve_stub_Ok, Eq. }
  destruct base as [id|v a|v s|es|es|items|f es ks|l o rr|o e|c|es]; try (eapply HP; exact H).
  destruct (to_identifier printable (Subscript v s)) as [name|] eqn:Ei; [|discriminate]. cbn [bind_res] in H.
  destruct (fetch specializations_path (definitions (db st))) as [sc|] eqn:E2; [|discriminate]. cbn [bind_res] in H.
  destruct (dmem name (entries sc)) eqn:E3; [injection H as <-; split; [apply R_refl|eapply reached_before; eassumption]|].
  destruct (to_path v) as [p|] eqn:Ep; [|discriminate]. cbn [bind_res] in H. apply to_path_dotted in Ep.
  destruct (resolve_stub limit (fst child) (removelast (snd child)) p st) as [q|] eqn:Er; [|discriminate]. cbn [bind_res] in H. apply resolve_stub_Ok in Er.
  destruct (fetch q (parameters_of st)) as [ps|] eqn:E4; [|discriminate]. cbn [bind_res] in H.
  destruct (register_generic_specialization limit q (fst child) [name] ps (unpack_ast_node s) st) as [st2|] eqn:E5; [|discriminate].
  cbn [bind_res] in H.
  destruct (dmem [name] (dget_or specializations_path [] (superclasses (db st2)))); [discriminate|].
  destruct (fetch q (bases_of st2)) as [gb|]; [|discriminate]. cbn [bind_res] in H.
  destruct (register_generic_bases printable limit q (fst child) [name] _ (seq 0 (length gb)) st2) as [st3|] eqn:E6; [|discriminate].
  cbn [bind_res] in H. injection H as <-. cbn [fst snd]. apply register_generic_bases_R in E6.
  split; [|eapply reached_later; [exact E6|]; eapply reached_registered; exact E5].
  eapply R_trans; [eapply R_register; eassumption|exact E6].
Qed.
Lemma process_bases_R child l : forall st st', process_bases printable limit child l st = Ok st' -> R st st'.
Proof.
  induction l as [|i r IH]; intros st st' H; cbn [process_bases] in H; [injection H as <-; apply R_refl|].
  destruct (fetch child (bases_of st)) as [cb|]; [|discriminate]. cbn [bind_res] in H.
  destruct (nth_error cb i) as [b|]; [|discriminate].
  destruct (register_base_ast_node printable limit b child st) as [res|] eqn:E; [|discriminate]. cbn [bind_res] in H.
  apply register_base_R in E. destruct E as [E1 E2].
  eapply R_trans; [exact E1|]. eapply R_trans; [|eapply IH; exact H]. now apply R_superclass.
Qed.
Lemma process_classes_R l : forall st st', process_classes printable limit l st = Ok st' -> R st st'.
Proof.
  induction l as [|[c n] r IH]; intros st st' H; cbn [process_classes] in H; [injection H as <-; apply R_refl|].
  destruct (process_bases printable limit c (seq 0 n) st) as [st1|] eqn:E; [|discriminate]. cbn [bind_res] in H.
  eapply R_trans; [eapply process_bases_R; exact E|now apply IH].
Qed.
End Bases.

Lemma process_records printable limit st st' : process_classes_bases printable limit st = Ok st' -> well_recorded st -> well_recorded st'.
Proof.
  intros H W. unfold process_classes_bases in H.
  destruct (dmem specializations_path (nodes st) || dmem specializations_path (definitions (db st))
     || dmem specializations_path (kinds st) || dmem specializations_path (references (db st))) eqn:E; [discriminate|].
  refine (@process_classes_R printable limit (fun st st' => well_recorded st -> well_recorded st') _ _ (fun _ _ => True) _ _ _ _ _ _ _ _ _ _ H _); try (clear; now auto).
  - clear. intros q sm v sl p m parent name ps args sc st st' _ _ _ _ _ _ H. eapply register_records. exact H.
  - destruct W as [W1 W2]. split.
    + intros m t o l Hm Ho. cbn [with_nodes with_definitions with_kinds with_references with_db nodes] in Hm. rewrite dget_dset in Hm.
      destruct (m == specializations_path); [injection Hm as <-; discriminate|]. eapply W1; eassumption.
    + intros m o k. rewrite kind_of_object_or, nodes_of_object_or. cbn [with_nodes with_definitions with_kinds with_references with_db nodes kinds]. rewrite !dget_or_dset.
      destruct (m == specializations_path); [discriminate|]. rewrite <- kind_of_object_or, <- nodes_of_object_or. apply W2.
Qed.
Lemma stubs_records source is_package condition printable limit fuel modules st :
  parse_stubs_state source is_package condition printable limit fuel modules = Ok st -> well_recorded st.
Proof.
  intros H. destruct (@parse_stubs_parsed source is_package condition printable limit fuel modules st H) as (parsed & E & HP).
  eapply process_records; [exact HP|]. eapply parse_modules_records. exact E.
Qed.

(** ** Members of specialisations have definitions *)
Section Filled.
Variable printable : N -> bool.
Variable limit : nat.
Definition filled_from (st : state) (n : pystr) (s : scope) : Prop :=
  exists q d gs, specialisation_of printable limit st n q
    /\ dget (fst q) (definitions (db st)) = Some d /\ scope_at d (snd q) = Ok gs
    /\ (forall f, In f (dkeys (entries s)) <-> In f (dkeys (entries gs)))
    /\ forall f, In f (dkeys (entries gs)) ->
         nodes_of_object st (fst q) (snd q ++ [f]) <> [] /\ nodes_of_object st specializations_path [n; f] <> [].
Definition filled (st : state) : Prop :=
  forall sc n s, dget specializations_path (definitions (db st)) = Some sc -> dget n (entries sc) = Some s -> filled_from st n s.
Definition fills (st st' : state) : Prop :=
  parameters_elsewhere st -> well_recorded st -> filled st -> parameters_elsewhere st' /\ well_recorded st' /\ filled st'.
Lemma filled_later st st' n s : only_specializations st st' ->
  (forall f, In f (dkeys (entries s)) -> nodes_of_object st' specializations_path [n; f] = nodes_of_object st specializations_path [n; f]) ->
  filled_from st n s -> filled_from st' n s.
Proof.
  intros O S (q & d & gs & (Hq & v & sl & p & d' & m & parent & A & B & C & D) & E & F & G & N).
  exists q, d, gs. destruct (O _ Hq) as (X1 & _ & X & _). split; [|split; [now rewrite X|split; [exact F|split; [exact G|]]]].
  - split; [exact Hq|]. exists v, sl, p, d', m, parent. split; [exact A|]. split; [exact B|]. split; [|exact D].
    eapply same_names_trans; [exact C|now apply only_names].
  - intros f Hf. destruct (N f Hf) as [N1 N2]. split; [unfold nodes_of_object in *; now rewrite X1|].
    rewrite S; [exact N2|]. now apply G.
Qed.
Lemma fills_same st st' : keeps' st st' -> nodes st' = nodes st -> kinds st' = kinds st -> definitions (db st') = definitions (db st) -> fills st st'.
Proof.
  intros [[_ K] Ep] En Ek Ed P W F. split; [unfold parameters_elsewhere in *; now rewrite Ep|]. split; [now apply (@well_recorded_same st)|].
  intros sc n s Hsc Hn. rewrite Ed in Hsc. eapply filled_later; [now apply K| |now apply (F sc)].
  intros f _. unfold nodes_of_object. now rewrite En.
Qed.
Lemma register_fills q sm v sl p m parent name parameters arguments sc st st' :
  to_identifier printable (Subscript v sl) = Ok name -> dotted v p ->
  resolve_object_path (db st) limit m parent p [] = Resolved q ->
  fetch q (parameters_of st) = Ok parameters ->
  fetch specializations_path (definitions (db st)) = Ok sc -> dmem name (entries sc) = false ->
  register_generic_specialization limit q sm [name] parameters arguments st = Ok st' -> fills st st'.
Proof.
  intros Hi Hp Hr Hps Hs Hn H P W F.
  destruct (@register_keeps limit q sm name parameters arguments sc st st' Hps Hs Hn H) as [[[_ K] Q] _].
  pose proof (K P) as O.
  split; [unfold parameters_elsewhere in *; now rewrite Q|]. split; [eapply register_records; eassumption|].
  apply fetch_dget in Hps. pose proof (P _ _ Hps) as Hq. apply fetch_dget in Hs.
  destruct (@register_generic_spec limit q sm [name] parameters arguments st st' Hq H) as (_ & _ & _ & _ & gs & (d & Hd & Hgs) & _).
  unfold register_generic_specialization in H. set (st1 := with_definitions st _) in H.
  destruct (fetch (fst q) (definitions (db st1))) as [d'|] eqn:E1; [|discriminate]. cbn [bind_res] in H.
  assert (d' = d). { apply fetch_dget in E1. assert (X : dget (fst q) (definitions (db st1)) = dget (fst q) (definitions (db st))) by (apply dget_dmodify_other; exact Hq). congruence. }
  subst d'. destruct (scope_at d (snd q)) as [gs'|] eqn:E2; [|discriminate]. injection Hgs as ->. cbn [bind_res] in H.
  set (st2 := with_definitions st1 _) in H.
  destruct (fetch (fst q) (nodes st2)) as [mn|]; [|discriminate]. cbn [bind_res] in H.
  set (st3 := with_kinds st2 _) in H.
  assert (D3 : dget specializations_path (definitions (db st3)) = Some (update_at [name] gs (add_path [name] sc))).
  { unfold st3, st2, st1. tables. rewrite dget_dmodify, eqb_refl. unfold dget_or at 1. rewrite dget_dmodify, eqb_refl.
    unfold dget_or. change (dget specializations_path (definitions (db st)) = Some sc) in Hs. now rewrite Hs. }
  assert (W3 : nodes st3 = nodes st) by reflexivity.
  assert (F3 : full st3) by (intros m' t o l Hm Ho; now apply (proj1 W m' t o l)).
  pose proof (@specialize_fields_filled limit _ _ _ _ _ _ Hq _ _ H F3) as HE.
  pose proof (@specialize_fields_entries limit _ _ _ _ _ _ Hq _ _ H) as HT.
  apply specialize_fields_spec in H; [|exact Hq]. destruct H as (_ & A & B & _ & _ & I & _).
  intros sc' n s Hsc Hns. rewrite I, D3 in Hsc. injection Hsc as <-. cbn [update_at add_path entries] in Hns.
  rewrite dget_dset in Hns. destruct (eqb_reflect n name) as [->|Hne].
  - injection Hns as <-. destruct (O _ Hq) as (X1 & _ & X & _). exists q, d, gs.
    split; [|split; [now rewrite X|split; [exact E2|split]]].
    + split; [exact Hq|]. exists v, sl, p, (db st), m, parent. split; [exact Hi|]. split; [exact Hp|]. split; [now apply only_names|exact Hr].
    + intros f. cbn [entries]. rewrite fold_keys. unfold dget_or. rewrite !dget_dset, eqb_refl. cbn [entries].
      unfold dmem in Hn. destruct (dget name (entries sc)) as [y|]; [discriminate|]. cbn. tauto.
    + intros f Hf. split; [|now apply (HE f)]. destruct (HT f Hf) as (t & l & T1 & T2).
      rewrite W3 in T1. unfold nodes_of_object. rewrite X1. change (nodes_of_object st (fst q) (snd q ++ [f]) <> []).
      rewrite (@dget_nodes st _ _ _ _ T1 T2). now apply (proj1 W _ _ _ _ T1 T2).
  - rewrite dget_dset in Hns. destruct (eqb_reflect n name) as [|_]; [contradiction|].
    apply filled_later with (st := st); [exact O| |now apply (F sc)]. intros f _.
    destruct (B [n; f]) as [B1 _]; [intros x _ Ex; injection Ex as ->; now apply Hne|]. now rewrite B1.
Qed.
Lemma process_filled st st' : listed st -> well_recorded st ->
  process_classes_bases printable limit st = Ok st' -> filled st'.
Proof.
  intros (L1 & L2 & _) W H. unfold process_classes_bases in H.
  destruct (dmem specializations_path (nodes st) || dmem specializations_path (definitions (db st))
     || dmem specializations_path (kinds st) || dmem specializations_path (references (db st))) eqn:E; [discriminate|].
  apply Bool.orb_false_iff in E. destruct E as [E E4]. apply Bool.orb_false_iff in E. destruct E as [E E3].
  apply Bool.orb_false_iff in E. destruct E as [E1 E2].
  assert (P : parameters_elsewhere st).
  { intros q ps Hq Eq. apply L1 in Hq. apply L2 in Hq. rewrite Eq in Hq. apply dmem_not_In in E2. apply Hq. now apply dget_None. }
  apply (@process_classes_R printable limit fills) with (reached := fun _ _ => True) in H; [| | | | | |exact (fun _ _ _ _ _ => I)|exact (fun _ _ _ _ _ _ => I)|exact (fun _ _ _ _ _ => I)|exact (fun _ _ _ _ _ _ _ _ => I)].
  - apply H; [exact P| |].
    + destruct W as [W1 W2]. split.
      * intros m t o l Hm Ho. cbn [with_nodes with_definitions with_kinds with_references with_db nodes] in Hm. rewrite dget_dset in Hm.
        destruct (m == specializations_path); [injection Hm as <-; discriminate|]. eapply W1; eassumption.
      * intros m o k. rewrite kind_of_object_or, nodes_of_object_or. cbn [with_nodes with_definitions with_kinds with_references with_db nodes kinds]. rewrite !dget_or_dset.
        destruct (m == specializations_path); [discriminate|]. rewrite <- kind_of_object_or, <- nodes_of_object_or. apply W2.
    + intros sc n s Hs Hn. exfalso. cbn [with_nodes with_definitions with_kinds with_references db definitions with_db] in Hs.
      rewrite dget_dset, eqb_refl in Hs. injection Hs as <-. discriminate Hn.
  - intros st1 P1 W1 F1. auto.
  - intros st1 st2 st3 A B P1 W1 F1. destruct (A P1 W1 F1) as (P2 & W2 & F2). now apply B.
  - intros. apply fills_same; try reflexivity. apply keeps_superclass'.
  - intros. apply fills_same; try reflexivity. apply keeps_bases'.
  - intros. eapply register_fills; eassumption.
Qed.
End Filled.
Lemma stubs_filled source is_package condition printable limit fuel modules st n :
  parse_stubs_state source is_package condition printable limit fuel modules = Ok st ->
  defined (db st) specializations_path [n] ->
  exists q, specialisation_of printable limit st n q /\ defined (db st) (fst q) (snd q)
    /\ forall f, defined (db st) (fst q) (snd q ++ [f]) ->
         nodes_of_object st (fst q) (snd q ++ [f]) <> [] /\ nodes_of_object st specializations_path [n; f] <> [].
Proof.
  intros H (sc & Hs & Hp). destruct (@parse_stubs_parsed _ _ _ _ _ _ _ _ H) as (parsed & E & H').
  inversion Hp as [|? ? s ? Es _]; subst.
  destruct (@process_filled printable limit parsed st) with (sc := sc) (n := n) (s := s) as (q & d & gs & A & B & C & D & F); try assumption.
  - eapply parse_modules_listed. exact E.
  - eapply parse_modules_records. exact E.
  - exists q. split; [exact A|]. split.
    + exists d. split; [exact B|]. rewrite <- (app_nil_r (snd q)). apply (@scope_at_path _ _ _ C). constructor.
    + intros f (d' & Hd' & X). assert (d' = d) by congruence. subst d'. apply F. apply has_member. now apply (@scope_at_path _ _ _ C) in X.
Qed.
(** A member without definitions *)
Lemma register_missing limit generic sm specialization parameters arguments st d fields name :
  fst generic <> specializations_path -> well_recorded st ->
  dget (fst generic) (definitions (db st)) = Some d -> scope_at d (snd generic) = Ok fields ->
  In name (dkeys (entries fields)) -> nodes_of_object st (fst generic) (snd generic ++ [name]) = [] ->
  forall st', register_generic_specialization limit generic sm specialization parameters arguments st <> Ok st'.
Proof.
  intros Hq W Hd Hf Hn HN st' H.
  unfold register_generic_specialization in H. set (st1 := with_definitions st _) in H.
  destruct (fetch (fst generic) (definitions (db st1))) as [d'|] eqn:E1; [|discriminate]. cbn [bind_res] in H.
  assert (d' = d). { apply fetch_dget in E1. assert (X : dget (fst generic) (definitions (db st1)) = dget (fst generic) (definitions (db st))) by (apply dget_dmodify_other; exact Hq). congruence. }
  subst d'. rewrite Hf in H. cbn [bind_res] in H.
  set (st2 := with_definitions st1 _) in H.
  destruct (fetch (fst generic) (nodes st2)) as [mn|]; [|discriminate]. cbn [bind_res] in H.
  set (st3 := with_kinds st2 _) in H.
  destruct (@specialize_fields_entries limit _ _ _ _ _ _ Hq _ _ H name Hn) as (t & l & A & B).
  change (nodes st3) with (nodes st) in A. rewrite (@dget_nodes st _ _ _ _ A B) in HN. now apply (proj1 W _ _ _ _ A B).
Qed.
