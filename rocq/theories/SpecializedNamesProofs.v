(** C67: what the names in specialised definitions are resolved to *)
From Verif Require Import Base Ast Conversion Generics SpecCatalog SpecArboreal Scoping SpecScoping ScopingProofs SpecGenerics Stubs SpecStubs StubsProofs SpecializeProofs.

Lemma stmt_occurs_names n s : stmt_occurs n s <-> In n (names_stmt s).
Proof.
  unfold stmt_occurs.
  assert (HA : forall l, (exists e, In e (flat_map (fun x => present (arg_annotation x)) l) /\ occurs n e) <-> In n (flat_map names_arg l)).
  { intros l. rewrite in_flat_map. split.
    - intros (e & He & H). apply in_flat_map in He. destruct He as (x & Hx & He). exists x. split; [exact Hx|].
      unfold names_arg, names_opt. destruct (arg_annotation x); [|contradiction]. destruct He as [->|[]]. now apply occurs_names.
    - intros (x & Hx & H). unfold names_arg, names_opt in H. destruct (arg_annotation x) as [e|] eqn:E; [|contradiction].
      exists e. split; [|now apply occurs_names]. apply in_flat_map. exists x. split; [exact Hx|]. rewrite E. now left. }
  assert (HO : forall o, (exists e, In e (present o) /\ occurs n e) <-> In n (names_opt o)).
  { intros [e|]; cbn [present names_opt In]; [rewrite <- occurs_names|]; split; [intros (x & [->|[]] & H); exact H|eauto|intros (x & [] & _)|contradiction]. }
  assert (HE : forall l, (exists e, In e l /\ occurs n e) <-> In n (flat_map names_in l)).
  { intros l. rewrite in_flat_map. split; intros (e & He & H); exists e; (split; [exact He|now apply occurs_names]). }
  assert (HK : forall l, (exists e, In e (flat_map present l) /\ occurs n e) <-> In n (flat_map names_opt l)).
  { intros l. rewrite in_flat_map. split.
    - intros (e & He & H). apply in_flat_map in He. destruct He as (o & Ho & He). exists o. split; [exact Ho|]. apply HO. eauto.
    - intros (o & Ho & H). apply HO in H. destruct H as (e & He & H). exists e. split; [apply in_flat_map; eauto|exact H]. }
  assert (HP : forall a b, (exists e, In e (a ++ b) /\ occurs n e) <-> (exists e, In e a /\ occurs n e) \/ (exists e, In e b /\ occurs n e)).
  { intros a b. split.
    - intros (e & He & H). apply in_app_or in He. destruct He; eauto.
    - intros [(e & He & H)|(e & He & H)]; exists e; (split; [apply in_or_app; auto|exact H]). }
  assert (HS : forall o, In n (flat_map names_arg (present o)) <-> In n (names_opt_arg o)).
  { intros [a|]; cbn; [now rewrite app_nil_r|reflexivity]. }
  assert (HF : forall f, (exists e, In e (function_parts f) /\ occurs n e) <-> In n (names_function f)).
  { intros f. unfold function_parts, names_function. rewrite !HP, HA, HE, HK, HE, HO, !flat_map_app, !in_app_iff, !HS. tauto. }
  destruct s; cbn [stmt_parts names_stmt]; try exact (HF _); try (split; [intros (e & [] & _)|contradiction]).
  - change (annotation :: present value) with ([annotation] ++ present value). rewrite HP, HO, in_app_iff, HE. cbn. now rewrite app_nil_r.
  - rewrite HE. cbn. now rewrite app_nil_r.
Qed.

Lemma to_names_defines n s l : to_names s = Ok l -> (In n l <-> defines n s).
Proof.
  assert (HT : forall t x, target_name t = Ok x -> (n = x <-> t = Name n)).
  { intros t x H. destruct t; try discriminate. injection H as ->. split; congruence. }
  intros H. destruct s as [t a v|ts v|f|f|name bs body|te b o|ns|mo ns lv|ch]; cbn [to_names] in H; try discriminate; cbn [defines].
  - destruct (target_name t) as [x|] eqn:E; [|discriminate]. injection H as <-. cbn [In]. rewrite <- (HT _ _ E). intuition.
  - revert l H. induction ts as [|t r IH]; intros l H; cbn [map_m] in H; [injection H as <-; reflexivity|].
    destruct (target_name t) as [x|] eqn:E; [|discriminate]. cbn [bind_res] in H.
    destruct (map_m target_name r) as [y|]; [|discriminate]. injection H as <-. cbn [In]. rewrite <- (HT _ _ E), (IH _ eq_refl). intuition.
  - injection H as <-. cbn. intuition.
  - injection H as <-. cbn. intuition.
  - injection H as <-. cbn. intuition.
Qed.
Lemma all_names_define n l : forall df, map_m to_names l = Ok df -> (In n (concat df) <-> exists s, In s l /\ defines n s).
Proof.
  induction l as [|s r IH]; intros df H; cbn [map_m] in H; [injection H as <-; cbn; split; [contradiction|intros (s & [] & _)]|].
  destruct (to_names s) as [x|] eqn:E; [|discriminate]. cbn [bind_res] in H.
  destruct (map_m to_names r) as [y|]; [|discriminate]. injection H as <-. cbn [concat]. rewrite in_app_iff, (IH _ eq_refl), (@to_names_defines n _ _ E).
  split; [intros [H|(s' & Hs & H)]; [exists s|exists s']; split; auto; [now left|now right]|].
  intros (s' & [->|Hs] & H); [now left|right; eauto].
Qed.

Lemma alike_refl d : alike d d.
Proof. now repeat split. Qed.
Lemma alike_trans d1 d2 d3 : alike d1 d2 -> alike d2 d3 -> alike d1 d3.
Proof. intros (A & B & C & D) (E & F & G & H). repeat split; try congruence. intros m Hm. now rewrite D, H. Qed.
Lemma alike_sym d1 d2 : alike d1 d2 -> alike d2 d1.
Proof. intros (A & B & C & D). repeat split; auto. intros m Hm. symmetry. now apply D. Qed.

Lemma kept_once (x : pystr) l : In x l -> In x (dedupe l).
Proof.
  induction l as [|y l IH]; cbn [dedupe In]; [auto|]. intros H. rewrite filter_In.
  destruct (eqb_reflect x y) as [->|Hn]; [now left|]. right. split; [apply IH; destruct H; [congruence|assumption]|reflexivity].
Qed.
Section Names.
Variable limit : nat.
Definition spec_reference (st : state) (p : path) : option qualified_path :=
  reference (db st) specializations_path p.
Definition origin (sm gm : path) (an : list pystr) (n : pystr) : path := if mem n an then sm else gm.
(** The references of the specialisations between two states *)
Definition only_dependencies (sm gm : path) (an : list pystr) (st st' : state) : Prop :=
  alike (db st) (db st')
  /\ (has_references (db st) specializations_path -> has_references (db st') specializations_path)
  /\ forall p, spec_reference st' p = spec_reference st p
       \/ exists n q, p = [n] /\ fst q <> builtins_path /\ spec_reference st' p = Some q /\ denotes limit (db st') (origin sm gm an n) n q.

Lemma denotes_alike d d' m n q : alike d d' -> denotes limit d m n q -> denotes limit d' m n q.
Proof. intros H (x & A & B). exists x. split; [eapply alike_trans; eassumption|exact B]. Qed.
Lemma only_refl sm gm an st : only_dependencies sm gm an st st.
Proof. split; [apply alike_refl|]. split; [auto|]. now left. Qed.
Lemma only_dependencies_trans sm gm an st1 st2 st3 :
  only_dependencies sm gm an st1 st2 -> only_dependencies sm gm an st2 st3 -> only_dependencies sm gm an st1 st3.
Proof.
  intros (A & B & C) (D & E & F). split; [eapply alike_trans; eassumption|]. split; [auto|]. intros p.
  destruct (F p) as [->|H]; [|now right]. destruct (C p) as [->|(n & q & -> & Hq & E1 & H)]; [now left|].
  right. exists n, q. repeat split; auto. eapply denotes_alike; eassumption.
Qed.
(** A name has been taken care of. *)
Definition cared (sm gm : path) (an : list pystr) (st : state) (n : pystr) : Prop :=
  exists q, denotes limit (db st) (origin sm gm an n) n q /\ (fst q = builtins_path \/ spec_reference st [n] = Some q).
Lemma cared_later sm gm an st st' n : only_dependencies sm gm an st st' -> cared sm gm an st n -> cared sm gm an st' n.
Proof.
  intros (A & _ & C) (q & D & H). destruct H as [H|H].
  - exists q. split; [eapply denotes_alike; eassumption|now left].
  - destruct (C [n]) as [E|(n' & q' & E & _ & E1 & H')].
    + exists q. split; [eapply denotes_alike; eassumption|]. right. now rewrite E.
    + injection E as <-. exists q'. split; [exact H'|now right].
Qed.

Lemma add_reference_alike n q st : alike (db st) (db (add_reference specializations_path [n] q st)).
Proof. repeat split. intros m Hm. cbn. symmetry. now apply dget_dmodify_other. Qed.
Lemma add_reference_spec n q st p :
  spec_reference (add_reference specializations_path [n] q st) p = if p == [n] then Some q else spec_reference st p.
Proof.
  assert (X : dget specializations_path (references (db (add_reference specializations_path [n] q st)))
              = Some (dset [n] q (dget_or specializations_path [] (references (db st))))).
  { etransitivity; [apply dget_dmodify|]. now rewrite eqb_refl. }
  unfold spec_reference, reference. destruct (dget specializations_path (references (db (add_reference specializations_path [n] q st)))) as [x|]; [|discriminate].
  injection X as ->. etransitivity; [apply dget_dset|]. destruct (p == [n]); [reflexivity|].
  unfold dget_or. set (y := dget specializations_path (references (db st))). change (dget p (match y with Some a => a | None => [] end) = match y with Some t => dget p t | None => None end). now destruct y.
Qed.

Lemma add_dependencies_names sm gm an names : forall st st', add_dependencies limit sm gm an names st = Ok st' ->
  only_dependencies sm gm an st st' /\ forall n, In n names -> cared sm gm an st' n.
Proof.
  induction names as [|n r IH]; intros st st' H; cbn [add_dependencies] in H.
  - injection H as <-. split; [apply only_refl|contradiction].
  - unfold resolve_stub in H.
    destruct (resolve_object_path (db st) limit (if mem n an then sm else gm) [] [n] []) as [q| |] eqn:E; try discriminate. cbn [bind_res] in H.
    destruct (eqb_reflect (fst q) builtins_path) as [Hq|Hq].
    + destruct (IH _ _ H) as [A B]. split; [exact A|]. intros x [<-|Hx]; [|auto]. eapply cared_later; [exact A|].
      exists q. split; [exists (db st); split; [apply alike_refl|exact E]|now left].
    + destruct (IH _ _ H) as [A B].
      assert (D : denotes limit (db (add_reference specializations_path [n] q st)) (origin sm gm an n) n q).
      { exists (db st). split; [apply add_reference_alike|exact E]. }
      split.
      * eapply only_dependencies_trans; [|exact A]. split; [apply add_reference_alike|]. split.
        { intros _. unfold has_references. cbn. apply dmem_In. unfold dmem. now rewrite dget_dmodify, eqb_refl. }
        intros p. rewrite add_reference_spec. destruct (eqb_reflect p [n]) as [->|]; [|now left].
        right. exists n, q. now repeat split.
      * intros x [<-|Hx]; [|auto]. eapply cared_later; [exact A|]. exists q. split; [exact D|]. right. now rewrite add_reference_spec, eqb_refl.
Qed.

(** The free names of a specialised field have been taken care of. *)
Definition field_cared (sm gm : path) (an : list pystr) (specialization : path) (st : state) (name : pystr) : Prop :=
  forall n, (exists s, In s (nodes_of_object st specializations_path (specialization ++ [name])) /\ stmt_occurs n s) ->
    (forall s, In s (nodes_of_object st specializations_path (specialization ++ [name])) -> ~ defines n s) ->
    cared sm gm an st n.

Lemma specialize_fields_names generic sm specialization table an fields :
  forall st st', specialize_fields limit generic sm specialization table an fields st = Ok st' ->
  only_dependencies sm (fst generic) an st st'
  /\ (forall o, (forall name, In name fields -> o <> specialization ++ [name]) ->
        nodes_of_object st' specializations_path o = nodes_of_object st specializations_path o)
  /\ forall name, In name fields -> field_cared sm (fst generic) an specialization st' name.
Proof.
  induction fields as [|name r IH]; intros st st' H; cbn [specialize_fields] in H.
  - injection H as <-. split; [apply only_refl|]. split; [reflexivity|contradiction].
  - destruct (fetch (fst generic) (nodes st)) as [mn|] eqn:E1; [|discriminate]. cbn [bind_res] in H.
    destruct (fetch (snd generic ++ [name]) mn) as [gn|] eqn:E2; [|discriminate]. cbn [bind_res] in H.
    destruct (map_m (specialize_stmt table) gn) as [sp|] eqn:E3; [|discriminate]. cbn [bind_res] in H.
    set (st1 := with_nodes st _) in H.
    destruct (map_m to_names sp) as [df|] eqn:E4; [|discriminate]. cbn [bind_res] in H.
    destruct (add_dependencies limit sm (fst generic) an _ st1) as [st2|] eqn:E5; [|discriminate]. cbn [bind_res] in H.
    destruct (fetch (fst generic) (kinds st2)) as [mk|] eqn:E6; [|discriminate]. cbn [bind_res] in H.
    destruct (fetch (snd generic ++ [name]) mk) as [k|] eqn:E7; [|discriminate]. cbn [bind_res] in H.
    set (st3 := with_kinds st2 _) in H.
    destruct (IH _ _ H) as (A & B & C).
    destruct (@add_dependencies_same _ _ _ _ _ _ _ E5) as (_ & N & _).
    destruct (@add_dependencies_names _ _ _ _ _ _ E5) as (D1 & D2).
    assert (HN : forall o, nodes_of_object st3 specializations_path o =
      if o == specialization ++ [name] then sp else nodes_of_object st specializations_path o).
    { intros o. unfold st3, nodes_of_object. cbn [with_kinds nodes]. rewrite N. unfold st1. cbn [with_nodes nodes].
      rewrite dget_dmodify, eqb_refl, dget_dset. destruct (o == specialization ++ [name]); [reflexivity|].
      unfold dget_or. now destruct (dget specializations_path (nodes st)). }
    split; [|split].
    + eapply only_dependencies_trans; [|exact A]. exact D1.
    + intros o Ho. rewrite B by (intros n Hn; apply Ho; now right). rewrite HN.
      match goal with |- (if ?b then _ else _) = _ => replace b with false; [reflexivity|] end. symmetry. apply eqb_neq, Ho. now left.
    + intros x Hx. destruct (in_dec (list_eq_dec N.eq_dec) x r) as [Hr|Hr]; [now apply C|].
      assert (x = name) by (destruct Hx; [now symmetry|contradiction]). subst x.
      intros n (s & Hs & Hn) Hd. eapply cared_later; [exact A|]. rewrite B in Hs, Hd.
      2, 3: intros n' Hn' E; apply app_one_inj in E; subst; contradiction.
      rewrite HN, eqb_refl in Hs, Hd. apply D2. apply filter_In. split.
      * apply kept_once. apply in_flat_map. exists s. split; [exact Hs|]. now apply stmt_occurs_names.
      * apply Bool.negb_true_iff. apply mem_not_In. intros Hi. apply (@all_names_define n _ _ E4) in Hi.
        destruct Hi as (s' & Hs' & Hd'). exact (Hd s' Hs' Hd').
Qed.

Lemma register_names generic sm specialization parameters arguments st st' :
  register_generic_specialization limit generic sm specialization parameters arguments st = Ok st' ->
  fst generic <> specializations_path ->
  (forall p, spec_reference st' p = spec_reference st p
       \/ exists n q, p = [n] /\ fst q <> builtins_path /\ spec_reference st' p = Some q
            /\ denotes limit (db st') (origin sm (fst generic) (flat_map names_in arguments) n) n q)
  /\ (has_references (db st) specializations_path -> has_references (db st') specializations_path)
  /\ submodules (db st') = submodules (db st)
  /\ exists fields,
       (exists d, dget (fst generic) (definitions (db st)) = Some d /\ scope_at d (snd generic) = Ok fields)
       /\ forall name, In name (dkeys (entries fields)) -> field_cared sm (fst generic) (flat_map names_in arguments) specialization st' name.
Proof.
  intros H Hg. unfold register_generic_specialization in H. set (st1 := with_definitions st _) in H.
  destruct (fetch (fst generic) (definitions (db st1))) as [d|] eqn:E1; [|discriminate]. cbn [bind_res] in H.
  destruct (scope_at d (snd generic)) as [sc|] eqn:E2; [|discriminate]. cbn [bind_res] in H.
  destruct (fetch (fst generic) (nodes _)) as [mn|] eqn:E3; [|discriminate]. cbn [bind_res] in H.
  apply specialize_fields_names in H. destruct H as ((A1 & A2 & A3) & _ & C).
  split; [exact A3|]. split; [exact A2|]. split; [symmetry; apply A1|].
  exists sc. split; [|exact C]. exists d. split; [|exact E2].
  apply fetch_dget in E1. rewrite <- E1. symmetry. apply dget_dmodify_other. exact Hg.
Qed.

Lemma update_at_has p other : forall s, has_path (update_at p other s) p.
Proof.
  induction p as [|part r IH]; intros s; [constructor|]. cbn [update_at].
  eapply hp_down; [|apply IH]. cbn [entries]. rewrite dget_dset, eqb_refl. reflexivity.
Qed.
Lemma register_defines generic sm specialization parameters arguments st st' :
  register_generic_specialization limit generic sm specialization parameters arguments st = Ok st' ->
  defined (db st') specializations_path specialization.
Proof.
  intros H. unfold register_generic_specialization in H.
  destruct (fetch (fst generic) _) as [d|]; [|discriminate]. cbn [bind_res] in H.
  destruct (scope_at d (snd generic)) as [sc|]; [|discriminate]. cbn [bind_res] in H.
  destruct (fetch (fst generic) (nodes _)) as [mn|]; [|discriminate]. cbn [bind_res] in H.
  apply specialize_fields_names in H. destruct H as (((A & _) & _) & _). cbn [with_kinds with_nodes with_definitions db definitions] in A.
  unfold defined. rewrite <- A. eexists. split; [etransitivity; [apply dget_dmodify|]; rewrite eqb_refl; reflexivity|]. apply update_at_has.
Qed.

(** The names of specialised definitions resolve to what they were resolved to, apart from
    those of builtins that are in the table already. *)
Lemma names_keep_meaning generic sm specialization parameters arguments st st' :
  register_generic_specialization limit generic sm specialization parameters arguments st = Ok st' ->
  fst generic <> specializations_path ->
  has_references (db st) specializations_path -> star_imports (db st) specializations_path = [] ->
  exists fields,
    (exists d, dget (fst generic) (definitions (db st)) = Some d /\ scope_at d (snd generic) = Ok fields)
    /\ forall name n, In name (dkeys (entries fields)) ->
       (exists s, In s (nodes_of_object st' specializations_path (specialization ++ [name])) /\ stmt_occurs n s) ->
       (forall s, In s (nodes_of_object st' specializations_path (specialization ++ [name])) -> ~ defines n s) ->
       ~ defined (db st') specializations_path [n] -> ~ defined (db st') specializations_path (specialization ++ [n]) ->
       let means q := resolves (db st') specializations_path specialization [n] [] (Resolved q) in
       exists q, denotes limit (db st') (origin sm (fst generic) (flat_map names_in arguments) n) n q
         /\ (fst q <> builtins_path -> means q)
         /\ (fst q = builtins_path -> snd q = [n] -> reference (db st) specializations_path [n] = None -> means q)
         /\ (forall r, fst q = builtins_path -> reference (db st) specializations_path [n] = Some r ->
               defined (db st') (fst r) (snd r) -> means r).
Proof.
  intros H Hg HR HS. pose proof (@register_defines _ _ _ _ _ _ _ H) as HD. destruct (@register_names _ _ _ _ _ _ _ H Hg) as (A & B & C & fields & D & E).
  exists fields. split; [exact D|]. intros name n Hn Ho Hd Hm He means.
  assert (HS' : star_imports (db st') specializations_path = []) by (unfold star_imports in *; rewrite C; exact HS).
  assert (R : forall s p, reference (db s) specializations_path p = spec_reference s p).
  { reflexivity. }
  assert (HN : not_enclosed (db st') specializations_path specialization n) by now right.
  assert (HK : known (db st') specializations_path) by (eapply defined_known; exact HD).
  assert (HQ : forall m q, denotes limit (db st') m n q -> defined (db st') (fst q) (snd q)).
  { intros m [qm qo] (d & (X & _) & Y). apply resolve_sound in Y. unfold defined in *. now rewrite <- X. }
  assert (Referred : forall q, spec_reference st' [n] = Some q -> defined (db st') (fst q) (snd q) -> means q).
  { intros q F1 F2. apply resolves_unenclosed; auto. eapply (@resolves_reference _ _ _ _ _ 1 q q); auto.
    - intros s Hs. rewrite HS' in Hs. destruct Hs.
    - intros j Hj. cbn in Hj. lia.
    - left. destruct q as [qm qo]. cbn [fst snd] in *. now apply resolves_defined.
    - cbn [skipn]. rewrite app_nil_r. destruct q as [qm qo]. cbn [fst snd] in *. now apply resolves_defined. }
  destruct (A [n]) as [F|(n' & q' & F & F1 & F2 & F3)].
  - destruct (E name Hn n Ho Hd) as (q & F1 & F2). exists q. split; [exact F1|]. split; [|split].
    + intros Hq. destruct F2 as [F2|F2]; [contradiction|]. apply Referred; [exact F2|]. exact (HQ _ _ F1).
    + intros Hq Hs Hr. destruct q as [qm qo]. cbn [fst snd] in *. subst qm qo.
      pose proof (HQ _ _ F1) as HB. cbn [fst snd] in HB.
      apply resolves_unenclosed; auto. apply resolves_builtins; auto.
      * intros s Hs. rewrite HS' in Hs. destruct Hs.
      * intros k Hk. assert (k = 1) by (cbn in Hk; lia). subst k. cbn [firstn]. rewrite R, F. exact Hr.
      * eapply defined_known; exact HB.
    + intros r Hq Hr Hdr. apply Referred; [|exact Hdr]. rewrite F. exact Hr.
  - injection F as <-. exists q'. split; [exact F3|]. split; [|split].
    + intros _. apply Referred; [exact F2|]. exact (HQ _ _ F3).
    + intros X. contradiction.
    + intros r X. contradiction.
Qed.
End Names.
