(** Proofs about the specialisation of generic classes (stubs.py:703-972). *)
From Verif Require Import Base Ast Conversion Generics SpecGenerics GenericsProofs Scoping SpecScoping Signatures SignaturesProofs Stubs SpecStubs StubsProofs.
Set Implicit Arguments.

Lemma same_refl m st : same_module m st st.
Proof. repeat split. Qed.
Lemma same_trans m st1 st2 st3 : same_module m st1 st2 -> same_module m st2 st3 -> same_module m st1 st3.
Proof. intros (A1 & A2 & A3 & A4 & A5 & A6) (B1 & B2 & B3 & B4 & B5 & B6). repeat split; etransitivity; eassumption. Qed.

Lemma dget_dmodify_other {K A} `{Eqb K} k k' (d0 : A) f d : k <> k' -> dget k (dmodify k' d0 f d) = dget k d.
Proof. intros Hk. rewrite dget_dmodify. destruct (eqb_reflect k k'); [easy|reflexivity]. Qed.

Lemma specialize_stmt_instance table s s' :
  (match s with SAnnAssign _ _ _ | SAssign _ _ | SFunctionDef _ | SAsyncFunctionDef _ => True | _ => False end) ->
  specialize_stmt table s = Ok s' -> stmt_instance table s s'.
Proof.
  intros Hk H. destruct s as [t a v|ts v|f|f|name bases body|test b o|ns|mo ns l|ch]; try contradiction; cbn in H.
  - destruct (specialize table a) as [a'|] eqn:Ea; [|discriminate]. destruct (specialize_opt table v) as [v'|] eqn:Ev; [|discriminate].
    cbn in H. injection H as <-. constructor; [now apply specialize_instance|now apply specialize_opt_instance].
  - destruct (specialize table v) as [v'|] eqn:Ev; [|discriminate]. cbn in H. injection H as <-. constructor. now apply specialize_instance.
  - destruct (specialize_function table f) as [f'|] eqn:Ef; [|discriminate]. cbn in H. injection H as <-. constructor. now apply specialize_function_instance.
  - destruct (specialize_function table f) as [f'|] eqn:Ef; [|discriminate]. cbn in H. injection H as <-. constructor. now apply specialize_function_instance.
Qed.
(** What can be specialised and named at all *)
Lemma to_names_kind s s' table l : specialize_stmt table s = Ok s' -> to_names s' = Ok l ->
  (forall n bs body, s <> SClassDef n bs body) ->
  match s with SAnnAssign _ _ _ | SAssign _ _ | SFunctionDef _ | SAsyncFunctionDef _ => True | _ => False end.
Proof.
  intros H1 H2 Hc. destruct s as [t a v|ts v|f|f|name bases body|test b o|ns|mo ns lv|ch]; try exact I.
  - now destruct (Hc name bases body).
  - injection H1 as <-. discriminate H2.
  - injection H1 as <-. discriminate H2.
  - injection H1 as <-. discriminate H2.
  - injection H1 as <-. discriminate H2.
Qed.

Section Specializations.
Variable printable : N -> bool.
Variable limit : nat.

Lemma add_dependencies_same sm gm an names : forall st st', add_dependencies limit sm gm an names st = Ok st' ->
  (forall m, m <> specializations_path -> same_module m st st') /\ nodes st' = nodes st /\ kinds st' = kinds st /\
  definitions (db st') = definitions (db st) /\ bases_of st' = bases_of st /\ parameters_of st' = parameters_of st /\
  superclasses (db st') = superclasses (db st).
Proof.
  induction names as [|n r IH]; intros st st' H; cbn [add_dependencies] in H.
  - injection H as <-. repeat split.
  - destruct (resolve_stub limit (if mem n an then sm else gm) [] [n] st) as [q|] eqn:E; [|discriminate]. cbn [bind_res] in H.
    destruct (fst q == builtins_path); [now apply IH|]. apply IH in H. destruct H as (A & B & C & D & E1 & F & G). repeat split; try assumption.
    intros. now apply A.
    all: specialize (A m H); destruct A as (A1 & A2 & A3 & A4 & A5 & A6); try assumption.
    rewrite A4. cbn. now apply dget_dmodify_other.
Qed.

(** One field specialised *)
Definition field_specialised (generic : qualified_path) (specialization : path) (table : dict path expr)
    (st st' : state) (name : pystr) : Prop :=
  (exists l, nodes_of_object st' specializations_path (specialization ++ [name]) = l /\
     map_m (specialize_stmt table) (nodes_of_object st (fst generic) (snd generic ++ [name])) = Ok l /\
     exists names, map_m to_names l = Ok names) /\
  kind_of_object st (fst generic) (snd generic ++ [name]) <> None /\
  kind_of_object st' specializations_path (specialization ++ [name]) = kind_of_object st (fst generic) (snd generic ++ [name]).

Lemma nodes_same m o st st' : same_module m st st' -> nodes_of_object st' m o = nodes_of_object st m o.
Proof. intros (A & _). unfold nodes_of_object. now rewrite A. Qed.
Lemma kind_same m o st st' : same_module m st st' -> kind_of_object st' m o = kind_of_object st m o.
Proof. intros (_ & A & _). unfold kind_of_object. now rewrite A. Qed.
Lemma app_one_inj {A} (p : list A) a b : p ++ [a] = p ++ [b] -> a = b.
Proof. intros H. apply app_inj_tail in H. now destruct H. Qed.

Lemma specialize_fields_spec generic sm specialization table an fields : fst generic <> specializations_path ->
  forall st st', specialize_fields limit generic sm specialization table an fields st = Ok st' ->
  (forall m, m <> specializations_path -> same_module m st st') /\
  (forall name, In name fields -> field_specialised generic specialization table st st' name) /\
  (forall o, (forall name, In name fields -> o <> specialization ++ [name]) ->
     nodes_of_object st' specializations_path o = nodes_of_object st specializations_path o /\
     kind_of_object st' specializations_path o = kind_of_object st specializations_path o) /\
  bases_of st' = bases_of st /\ parameters_of st' = parameters_of st /\ definitions (db st') = definitions (db st) /\
  superclasses (db st') = superclasses (db st).
Proof.
  intros Hg. induction fields as [|name r IH]; intros st st' H; cbn [specialize_fields] in H.
  - injection H as <-. repeat split; contradiction.
  - destruct (fetch (fst generic) (nodes st)) as [mn|] eqn:E1; [|discriminate]. cbn [bind_res] in H.
    destruct (fetch (snd generic ++ [name]) mn) as [gn|] eqn:E2; [|discriminate]. cbn [bind_res] in H.
    destruct (map_m (specialize_stmt table) gn) as [sp|] eqn:E3; [|discriminate]. cbn [bind_res] in H.
    set (st1 := with_nodes st _) in H.
    destruct (map_m to_names sp) as [df|] eqn:E4; [|discriminate]. cbn [bind_res] in H.
    destruct (add_dependencies limit sm (fst generic) an _ st1) as [st2|] eqn:E5; [|discriminate]. cbn [bind_res] in H.
    destruct (fetch (fst generic) (kinds st2)) as [mk|] eqn:E6; [|discriminate]. cbn [bind_res] in H.
    destruct (fetch (snd generic ++ [name]) mk) as [k|] eqn:E7; [|discriminate]. cbn [bind_res] in H.
    set (st3 := with_kinds st2 _) in H.
    apply IH in H. destruct H as (I1 & I2 & I3 & I4 & I5 & I6 & I7).
    apply add_dependencies_same in E5. destruct E5 as (D1 & D2 & D3 & D4 & D5 & D6 & D7).
    assert (S13 : forall m, m <> specializations_path -> same_module m st st3).
    { intros m Hm. specialize (D1 m Hm). destruct D1 as (A1 & A2 & A3 & A4 & A5 & A6).
      repeat split; unfold st3; cbn [with_kinds nodes kinds db]; try assumption.
      - rewrite A1. unfold st1. cbn [with_nodes nodes]. now apply dget_dmodify_other.
      - rewrite dget_dmodify_other by exact Hm. exact A2. }
    assert (HN : forall o, nodes_of_object st3 specializations_path o =
      if o == specialization ++ [name] then sp else nodes_of_object st specializations_path o).
    { intros o. unfold st3, nodes_of_object. cbn [with_kinds nodes]. rewrite D2. unfold st1. cbn [with_nodes nodes].
      rewrite dget_dmodify, eqb_refl, dget_dset. destruct (o == specialization ++ [name]); [reflexivity|].
      unfold dget_or. now destruct (dget specializations_path (nodes st)). }
    assert (HK : forall o, kind_of_object st3 specializations_path o =
      if o == specialization ++ [name] then Some k else kind_of_object st specializations_path o).
    { intros o. unfold st3, kind_of_object. cbn [with_kinds kinds]. rewrite dget_dmodify, eqb_refl, dget_dset.
      destruct (o == specialization ++ [name]); [reflexivity|]. rewrite D3. unfold st1. cbn [with_nodes kinds].
      unfold dget_or. now destruct (dget specializations_path (kinds st)). }
    assert (HG : nodes_of_object st (fst generic) (snd generic ++ [name]) = gn).
    { unfold nodes_of_object. unfold fetch in E1, E2. destruct (dget (fst generic) (nodes st)) as [x|]; [|discriminate].
      injection E1 as ->. match type of E2 with (match ?d with _ => _ end = _) => change (match d with Some l => l | None => [] end = gn); destruct d; congruence end. }
    assert (HKG : kind_of_object st (fst generic) (snd generic ++ [name]) = Some k).
    { change (kind_of_object st1 (fst generic) (snd generic ++ [name]) = Some k). rewrite <- (@kind_same _ _ _ _ (D1 _ Hg)). unfold kind_of_object. unfold fetch in E6, E7.
      destruct (dget (fst generic) (kinds st2)) as [x|]; [|discriminate]. injection E6 as ->.
      match type of E7 with (match ?d with _ => _ end = _) => change (d = Some k); destruct d; congruence end. }
    split; [|split; [|split; [|split; [|split; [|split]]]]].
    + intros m Hm. eapply same_trans; [now apply S13|now apply I1].
    + intros n Hn. destruct (in_dec (list_eq_dec N.eq_dec) n r) as [Hr|Hr].
      * destruct (I2 n Hr) as ((l & F1 & F2 & F3) & F4 & F5).
        rewrite (@nodes_same _ _ _ _ (S13 _ Hg)) in F2. rewrite (@kind_same _ _ _ _ (S13 _ Hg)) in F4, F5.
        split; [exists l; auto|]. auto.
      * assert (n = name) by (destruct Hn; [now symmetry|contradiction]). subst n.
        destruct (I3 (specialization ++ [name])) as [J1 J2].
        { intros n' Hn' E. apply app_one_inj in E. subst. contradiction. }
        split; [|split].
        -- exists sp. split; [rewrite J1, HN, eqb_refl; reflexivity|split; [now rewrite HG|now exists df]].
        -- rewrite HKG. discriminate.
        -- rewrite J2, HK, eqb_refl. now symmetry.
    + intros o Ho. destruct (I3 o) as [J1 J2]; [intros n Hn; apply Ho; now right|]. 
      assert (Eo : (o == specialization ++ [name]) = false) by (apply eqb_neq, Ho; now left).
      
      split; [rewrite J1, HN|rewrite J2, HK];
        match goal with |- (if ?b then _ else _) = _ => replace b with false by (symmetry; exact Eo) end; reflexivity.
    + rewrite I4. exact D5.
    + rewrite I5. exact D6.
    + rewrite I6. exact D4.
    + rewrite I7. exact D7.
Qed.

Lemma register_generic_spec generic sm specialization parameters arguments st st' :
  fst generic <> specializations_path ->
  register_generic_specialization limit generic sm specialization parameters arguments st = Ok st' ->
  (forall m, m <> specializations_path -> same_module m st st') /\ bases_of st' = bases_of st /\ parameters_of st' = parameters_of st /\
  superclasses (db st') = superclasses (db st) /\
  exists sc, (exists d, dget (fst generic) (definitions (db st)) = Some d /\ scope_at d (snd generic) = Ok sc) /\
    forall name, In name (dkeys (entries sc)) -> field_specialised generic specialization (table_of parameters arguments) st st' name.
Proof.
  intros Hg H. unfold register_generic_specialization in H.
  set (st1 := with_definitions st _) in H.
  destruct (fetch (fst generic) (definitions (db st1))) as [d|] eqn:E1; [|discriminate]. cbn [bind_res] in H.
  destruct (scope_at d (snd generic)) as [sc|] eqn:E2; [|discriminate]. cbn [bind_res] in H.
  set (st2 := with_definitions st1 _) in H.
  destruct (fetch (fst generic) (nodes st2)) as [mn|] eqn:E3; [|discriminate]. cbn [bind_res] in H.
  set (st3 := with_kinds st2 _) in H.
  assert (S13 : forall m, m <> specializations_path -> same_module m st st3).
  { intros m Hm. unfold st3, st2, st1. repeat split; tables; try (now apply dget_dmodify_other).
    rewrite !dget_dmodify_other; easy. }
  apply specialize_fields_spec in H; [|exact Hg]. destruct H as (I1 & I2 & I3 & I4 & I5 & I6 & I7).
  split; [|split; [|split; [|split]]].
  - intros m Hm. eapply same_trans; [now apply S13|now apply I1].
  - exact I4.
  - exact I5.
  - exact I7.
  - exists sc. split.
    + exists d. split; [|exact E2]. unfold fetch in E1. unfold st1 in E1. cbn [with_definitions with_db db definitions] in E1.
      rewrite dget_dmodify_other in E1 by exact Hg. destruct (dget (fst generic) (definitions (db st))); [now injection E1 as ->|discriminate].
    + intros n Hn. destruct (I2 n Hn) as ((l & F1 & F2 & F3) & F4 & F5).
      rewrite (@nodes_same _ _ _ _ (S13 _ Hg)) in F2. rewrite (@kind_same _ _ _ _ (S13 _ Hg)) in F4, F5.
      split; [exists l; auto|]. auto.
Qed.

(** *** Consistency *)
Definition parameters_elsewhere (st : state) : Prop :=
  forall q ps, dget q (parameters_of st) = Some ps -> fst q <> specializations_path.
Lemma consistent_same st st' : (forall m, m <> specializations_path -> same_module m st st') -> consistent st ->
  (forall o, nodes_of_object st' specializations_path o <> [] -> kind_of_object st' specializations_path o <> None) ->
  (forall o, kind_of_object st' specializations_path o <> None -> defined (db st') specializations_path o) -> consistent st'.
Proof.
  intros HS [C1 C2] H1 H2. split; intros m o H.
  - destruct (eqb_reflect m specializations_path) as [->|Hm]; [now apply H1|].
    specialize (HS m Hm). rewrite (kind_same _ HS). rewrite (nodes_same _ HS) in H. now apply C1.
  - destruct (eqb_reflect m specializations_path) as [->|Hm]; [now apply H2|].
    specialize (HS m Hm). rewrite (kind_same _ HS) in H. destruct (C2 m o H) as (s & E & P). exists s.
    destruct HS as (_ & _ & E3 & _). now rewrite E3.
Qed.
Lemma has_path_update name other : forall s, dmem name (entries s) = false -> forall p, has_path s p ->
  has_path (update_at [name] other (add_path [name] s)) p.
Proof.
  intros s Hd p Hp. destruct Hp as [|s n s' q Hs Hq]; [constructor|].
  assert (Hn : n <> name).
  { intros ->. apply dmem_not_In in Hd. apply Hd. apply (in_map fst) with (x := (name, s')). eapply dget_Some_In. exact Hs. }
  econstructor; [|exact Hq]. cbn [update_at add_path entries]. rewrite !dget_dset.
  destruct (eqb_reflect n name); [easy|exact Hs].
Qed.
Lemma dmem_fold {K A} `{Eqb K} (l : list (K * A)) k : forall d, In k (dkeys l) \/ dget k d <> None ->
  dget k (fold_left (fun d kv => dset (fst kv) (snd kv) d) l d) <> None.
Proof.
  induction l as [|[k' a] l IH]; intros d Hk; cbn [fold_left]; [destruct Hk; easy|].
  apply IH. cbn [fst snd]. rewrite dget_dset. destruct (eqb_reflect k k'); [right; discriminate|].
  destruct Hk as [[Hk|Hk]|Hk]; [cbn in Hk; congruence|now left|now right].
Qed.
Lemma has_path_fields name other s field : In field (dkeys (entries other)) ->
  has_path (update_at [name] other (add_path [name] s)) [name; field].
Proof.
  intros Hf. cbn [update_at add_path entries].
  econstructor; [cbn [entries]; now rewrite dget_dset, eqb_refl|].
  match goal with |- has_path (Scope (fold_left ?f ?l ?d)) _ => pose proof (@dmem_fold pystr scope _ l field d (or_introl Hf)) as X; destruct (dget field (fold_left f l d)) as [z|] eqn:E; [|easy] end.
  econstructor; [exact E|constructor].
Qed.
Lemma has_path_name name other s : has_path (update_at [name] other (add_path [name] s)) [name].
Proof. cbn [update_at add_path entries]. econstructor; [cbn [entries]; now rewrite dget_dset, eqb_refl|constructor]. Qed.

Lemma register_consistent generic sm name parameters arguments st st' :
  fst generic <> specializations_path ->
  dmem name (entries (dget_or specializations_path (Scope []) (definitions (db st)))) = false ->
  register_generic_specialization limit generic sm [name] parameters arguments st = Ok st' ->
  consistent st -> consistent st'.
Proof.
  intros Hg Hd H HC. unfold register_generic_specialization in H.
  set (st1 := with_definitions st _) in H.
  destruct (fetch (fst generic) (definitions (db st1))) as [d|] eqn:E1; [|discriminate]. cbn [bind_res] in H.
  destruct (scope_at d (snd generic)) as [sc|] eqn:E2; [|discriminate]. cbn [bind_res] in H.
  set (st2 := with_definitions st1 _) in H.
  destruct (fetch (fst generic) (nodes st2)) as [mn|] eqn:E3; [|discriminate]. cbn [bind_res] in H.
  set (st3 := with_kinds st2 _) in H.
  set (s0 := dget_or specializations_path (Scope []) (definitions (db st))) in *.
  assert (D3 : dget specializations_path (definitions (db st3)) = Some (update_at [name] sc (add_path [name] s0))).
  { unfold st3, st2, st1. tables. rewrite dget_dmodify, eqb_refl. unfold dget_or at 1. rewrite dget_dmodify, eqb_refl. reflexivity. }
  assert (S3 : forall m, m <> specializations_path -> same_module m st st3).
  { intros m Hm. unfold st3, st2, st1. repeat split; tables; try (now apply dget_dmodify_other).
    rewrite !dget_dmodify_other; easy. }
  assert (K3 : forall o, kind_of_object st3 specializations_path o <> None -> o = [name] \/ kind_of_object st specializations_path o <> None).
  { intros o Ho. unfold st3, kind_of_object in Ho. unfold st2, st1 in Ho. cbn [with_kinds with_definitions with_db kinds db] in Ho.
    rewrite dget_dmodify, eqb_refl, dget_dset in Ho. destruct (eqb_reflect o [name]) as [Eo|]; [now left|]. right. unfold kind_of_object.
    unfold dget_or in Ho. now destruct (dget specializations_path (kinds st)). }
  assert (P3 : forall o, has_path s0 o -> defined (db st3) specializations_path o).
  { intros o Ho. eexists. split; [exact D3|]. now apply has_path_update. }
  assert (C3 : consistent st3).
  { apply consistent_same with (st := st); [exact S3|exact HC| |].
    - intros o Ho. destruct HC as [C1 _]. assert (Hk : kind_of_object st specializations_path o <> None) by (apply C1; exact Ho).
      unfold st3, st2, st1, kind_of_object. tables. rewrite dget_dmodify, eqb_refl, dget_dset.
      destruct (o == [name]); [discriminate|]. unfold kind_of_object in Hk. unfold dget_or.
      now destruct (dget specializations_path (kinds st)).
    - intros o Ho. destruct (K3 o Ho) as [->|Hk].
      + eexists. split; [exact D3|]. apply has_path_name.
      + apply P3. destruct HC as [_ C2]. destruct (C2 _ _ Hk) as (s & Es & Ps). unfold s0, dget_or. now rewrite Es. }
  assert (F3 : forall field, In field (dkeys (entries sc)) -> defined (db st3) specializations_path [name; field]).
  { intros field Hf. eexists. split; [exact D3|]. now apply has_path_fields. }
  apply specialize_fields_spec in H; [|exact Hg]. destruct H as (I1 & I2 & I3 & I4 & I5 & I6 & I7).
  destruct C3 as [C31 C32].
  assert (FS : forall o, (exists field, In field (dkeys (entries sc)) /\ o = [name; field]) \/
                (forall field, In field (dkeys (entries sc)) -> o <> [name] ++ [field])).
  { intros o. destruct o as [|a [|b [|c r]]].
    1,2,4: right; intros field _ E; discriminate E.
    destruct (list_eq_dec N.eq_dec a name) as [->|Ha]; [|right; intros field _ E; injection E; congruence].
    destruct (in_dec (list_eq_dec N.eq_dec) b (dkeys (entries sc))) as [Hb|Hb].
    - left. now exists b.
    - right. intros field Hf E. injection E as E. subst field; contradiction. }
  apply consistent_same with (st := st3); [exact I1|now split| |].
  - intros o Ho. destruct (FS o) as [(field & Hf & ->)|Hn].
    + destruct (I2 field Hf) as (_ & G1 & G2). change [name; field] with ([name] ++ [field]). now rewrite G2.
    + destruct (I3 o Hn) as [J1 J2]. rewrite J2. apply C31. now rewrite <- J1.
  - intros o Ho. assert (defined (db st3) specializations_path o) as (s & Es & Ps).
    { destruct (FS o) as [(field & Hf & ->)|Hn]; [now apply F3|]. destruct (I3 o Hn) as [J1 J2]. apply C32. now rewrite <- J2. }
    exists s. now rewrite I6.
Qed.

Definition good (st : state) : Prop := consistent st /\ parameters_elsewhere st.
(** Tables of real modules other than the list of superclasses *)
Definition same_tables (m : path) (st st' : state) : Prop :=
  dget m (nodes st') = dget m (nodes st) /\ dget m (kinds st') = dget m (kinds st)
  /\ dget m (definitions (db st')) = dget m (definitions (db st))
  /\ dget m (references (db st')) = dget m (references (db st))
  /\ dget m (submodules (db st')) = dget m (submodules (db st)).
Definition only_specializations (st st' : state) : Prop := forall m, m <> specializations_path -> same_tables m st st'.
Lemma only_refl st : only_specializations st st.
Proof. intros m _. repeat split. Qed.
Lemma only_trans st1 st2 st3 : only_specializations st1 st2 -> only_specializations st2 st3 -> only_specializations st1 st3.
Proof.
  intros H1 H2 m Hm. destruct (H1 m Hm) as (A1 & A2 & A3 & A4 & A5), (H2 m Hm) as (B1 & B2 & B3 & B4 & B5).
  repeat split; etransitivity; eassumption.
Qed.
Lemma only_same st st' : (forall m, m <> specializations_path -> same_module m st st') -> only_specializations st st'.
Proof. intros H m Hm. destruct (H m Hm) as (A1 & A2 & A3 & A4 & A5 & _). repeat split; assumption. Qed.
Definition keeps (st st' : state) : Prop := (good st -> good st') /\ (parameters_elsewhere st -> only_specializations st st').
Lemma keeps_refl st : keeps st st.
Proof. split; [auto|]. intros _. apply only_refl. Qed.
Lemma keeps_superclass m c q st : keeps st (add_superclass m c q st).
Proof. split; [|intros _ x _; repeat split]. intros [[C1 C2] P]. split; [split; assumption|exact P]. Qed.
Lemma keeps_bases b st : keeps st (with_bases st b).
Proof. split; [|intros _ x _; repeat split]. intros [[C1 C2] P]. split; [split; assumption|exact P]. Qed.

(** The superclasses of real modules are unchanged, and bases are changed only by
    specialisation. *)
Definition base_later (b b' : expr) : Prop :=
  b' = b \/ exists v s v' s', b = Subscript v s /\ b' = Subscript v' s' /\ rewritten b b'.
Definition bases_later (st st' : state) : Prop :=
  forall q, match dget q (bases_of st) with
            | Some l => exists l', dget q (bases_of st') = Some l' /\ Forall2 base_later l l'
            | None => dget q (bases_of st') = None
            end.
Definition settled (st st' : state) : Prop :=
  (forall m, m <> specializations_path -> dget m (superclasses (db st')) = dget m (superclasses (db st))) /\ bases_later st st'.
Lemma rewritten_trans e1 e2 e3 : rewritten e1 e2 -> rewritten e2 e3 -> rewritten e1 e3.
Proof. intros H. induction 1 as [|t a b c H1 IH H2]; [exact H|]. econstructor; [now apply IH|exact H2]. Qed.
Lemma base_later_trans b1 b2 b3 : base_later b1 b2 -> base_later b2 b3 -> base_later b1 b3.
Proof.
  intros [->|(v & s & v' & s' & -> & -> & R)]; [easy|]. intros [->|(v2 & s2 & v3 & s3 & E & -> & R')]; right.
  - now exists v, s, v', s'.
  - exists v, s, v3, s3. repeat split. eapply rewritten_trans; eassumption.
Qed.
Lemma Forall2_same {A} (R : A -> A -> Prop) l : (forall a, R a a) -> Forall2 R l l.
Proof. intros H. induction l; now constructor. Qed.
Lemma Forall2_chain {A} (R : A -> A -> Prop) : (forall a b c, R a b -> R b c -> R a c) ->
  forall l1 l2 l3, Forall2 R l1 l2 -> Forall2 R l2 l3 -> Forall2 R l1 l3.
Proof.
  intros HR l1 l2 l3 H. revert l3. induction H as [|a b l1 l2 H1 H2 IH]; intros l3 H3; [exact H3|].
  inversion H3; subst. constructor; [eapply HR; eassumption|now apply IH].
Qed.
Lemma bases_later_same st st' : bases_of st' = bases_of st -> bases_later st st'.
Proof.
  intros E q. rewrite E. destruct (dget q (bases_of st)) as [l|]; [|reflexivity]. exists l. split; [reflexivity|].
  apply Forall2_same. now left.
Qed.
Lemma bases_later_trans st1 st2 st3 : bases_later st1 st2 -> bases_later st2 st3 -> bases_later st1 st3.
Proof.
  intros H1 H2 q. specialize (H1 q). specialize (H2 q). destruct (dget q (bases_of st1)) as [l|].
  - destruct H1 as (l' & E & F). rewrite E in H2. destruct H2 as (l'' & E' & F'). exists l''. split; [exact E'|].
    eapply Forall2_chain; [exact base_later_trans|eassumption|eassumption].
  - now rewrite H1 in H2.
Qed.
Lemma settled_refl st : settled st st.
Proof. split; [reflexivity|]. now apply bases_later_same. Qed.
Lemma settled_trans st1 st2 st3 : settled st1 st2 -> settled st2 st3 -> settled st1 st3.
Proof. intros [A B] [C D]. split; [intros m Hm; rewrite (C m Hm); now apply A|eapply bases_later_trans; eassumption]. Qed.
Lemma settled_same st st' : superclasses (db st') = superclasses (db st) -> bases_of st' = bases_of st -> settled st st'.
Proof. intros A B. split; [now intros m _; rewrite A|now apply bases_later_same]. Qed.
Lemma settled_specialization o q st : settled st (add_superclass specializations_path o q st).
Proof. split; [|now apply bases_later_same]. intros m Hm. cbn. now apply dget_dmodify_other. Qed.

(** [keeps] carrying the parameters table along *)
Definition keeps' (st st' : state) : Prop := keeps st st' /\ parameters_of st' = parameters_of st.
Lemma keeps_trans' st1 st2 st3 : keeps' st1 st2 -> keeps' st2 st3 -> keeps' st1 st3.
Proof.
  intros [[A B] C] [[D E] F]. split; [split|congruence]; [auto|]. intros P. eapply only_trans; [now apply B|]. apply E.
  unfold parameters_elsewhere in *. now rewrite C.
Qed.
Lemma fetch_dget {K A} `{Eqb K} k (d : dict K A) a : fetch k d = Ok a -> dget k d = Some a.
Proof. unfold fetch. destruct (dget k d); [now intros [= ->]|discriminate]. Qed.
Lemma fields_same generic sm specialization table an fields : forall st st',
  specialize_fields limit generic sm specialization table an fields st = Ok st' ->
  parameters_of st' = parameters_of st /\ bases_of st' = bases_of st /\ superclasses (db st') = superclasses (db st).
Proof.
  induction fields as [|f r IH]; intros st st' H; cbn [specialize_fields] in H; [now injection H as <-|].
  repeat match type of H with bind_res ?x _ = _ => let E := fresh in destruct x eqn:E; [|discriminate H]; cbn [bind_res] in H end.
  apply IH in H. destruct H as (-> & -> & ->).
  match goal with E : add_dependencies _ _ _ _ _ _ = Ok _ |- _ => apply add_dependencies_same in E; destruct E as (_ & _ & _ & _ & E1 & E2 & E3) end.
  cbn [with_kinds parameters_of bases_of db]. now rewrite E1, E2, E3.
Qed.
Lemma register_same generic sm specialization parameters arguments st st' :
  register_generic_specialization limit generic sm specialization parameters arguments st = Ok st' ->
  parameters_of st' = parameters_of st /\ bases_of st' = bases_of st /\ superclasses (db st') = superclasses (db st).
Proof.
  intros H. unfold register_generic_specialization in H.
  destruct (fetch (fst generic) _) as [d|]; [|discriminate]. cbn [bind_res] in H.
  destruct (scope_at d (snd generic)) as [sc|]; [|discriminate]. cbn [bind_res] in H.
  destruct (fetch (fst generic) (nodes _)) as [mn|]; [|discriminate]. cbn [bind_res] in H.
  apply fields_same in H. exact H.
Qed.
Lemma register_keeps q sm name parameters arguments s st st' :
  fetch q (parameters_of st) = Ok parameters ->
  fetch specializations_path (definitions (db st)) = Ok s -> dmem name (entries s) = false ->
  register_generic_specialization limit q sm [name] parameters arguments st = Ok st' -> keeps' st st' /\ settled st st'.
Proof.
  intros Hp Hs Hn H. apply fetch_dget in Hp, Hs.
  assert (HG : parameters_elsewhere st -> (forall m, m <> specializations_path -> same_module m st st') /\ parameters_of st' = parameters_of st).
  { intros P. destruct (@register_generic_spec q sm [name] parameters arguments st st' (P _ _ Hp) H) as (A & B & C & _). now split. }
  destruct (@register_same _ _ _ _ _ _ _ H) as (HQ & HB & HS).
  split; [|now apply settled_same]. split; [split|exact HQ].
  - intros [HC P]. split.
    + eapply register_consistent; [exact (P _ _ Hp)| |exact H|exact HC]. unfold dget_or. now rewrite Hs.
    + destruct (HG P) as [_ HGp]. unfold parameters_elsewhere. now rewrite HGp.
  - intros P. apply only_same. now apply HG.
Qed.
Lemma keeps_refl' st : keeps' st st.
Proof. split; [apply keeps_refl|reflexivity]. Qed.
Lemma keeps_superclass' m c q st : keeps' st (add_superclass m c q st).
Proof. split; [apply keeps_superclass|reflexivity]. Qed.
Lemma keeps_bases' b st : keeps' st (with_bases st b).
Proof. split; [apply keeps_bases|reflexivity]. Qed.

Definition passes (st st' : state) : Prop := keeps' st st' /\ settled st st'.
Lemma passes_refl st : passes st st.
Proof. split; [apply keeps_refl'|apply settled_refl]. Qed.
Lemma passes_trans st1 st2 st3 : passes st1 st2 -> passes st2 st3 -> passes st1 st3.
Proof. intros [A B] [C D]. split; [eapply keeps_trans'; eassumption|eapply settled_trans; eassumption]. Qed.
Lemma passes_specialization o q st : passes st (add_superclass specializations_path o q st).
Proof. split; [apply keeps_superclass'|apply settled_specialization]. Qed.
Lemma set_nth_later i b b' : forall l, nth_error l i = Some b -> base_later b b' -> Forall2 base_later l (set_nth i b' l).
Proof.
  unfold set_nth. induction i as [|i IH]; intros [|x l] H L; try discriminate H; cbn in *.
  - injection H as ->. constructor; [exact L|]. apply Forall2_same. now left.
  - constructor; [now left|]. now apply IH.
Qed.

Lemma register_generic_base_keeps generic cm specialization table i st st' :
  register_generic_base printable limit generic cm specialization table i st = Ok st' -> passes st st'.
Proof.
  intros H. unfold register_generic_base in H.
  destruct (fetch generic (bases_of st)) as [gb|] eqn:E1; [|discriminate]. cbn [bind_res] in H.
  destruct (nth_error gb i) as [b|] eqn:En; [|discriminate].
  assert (HP : forall b, (let* result := let* p := to_path b in let* q := resolve_stub limit (fst generic) [] p st in Ok (st, q) in
     Ok (add_superclass specializations_path specialization (snd result) (fst result))) = Ok st' -> passes st st').
  { intros b' H'. destruct (to_path b') as [p|]; [|discriminate]. cbn [bind_res] in H'.
    destruct (resolve_stub limit (fst generic) [] p st) as [q|]; [|discriminate]. cbn [bind_res] in H'. injection H' as <-. apply passes_specialization. }
  destruct b as [id|v a|v s|es|es|items|f es ks|l o r|o e|c|es]; try (eapply HP; exact H).
  destruct (specialize table (Subscript v s)) as [sp|] eqn:Esp; [|discriminate]. cbn [bind_res] in H.
  set (st1 := with_bases st _) in H.
  assert (S1 : passes st st1).
  { split; [apply keeps_bases'|]. split; [reflexivity|]. intros x. unfold st1. cbn [with_bases bases_of]. rewrite dget_dset.
    destruct (eqb_reflect x generic) as [->|].
    - apply fetch_dget in E1. rewrite E1. eexists. split; [reflexivity|]. eapply set_nth_later; [exact En|]. right.
      pose proof (specialize_instance _ _ Esp) as J. inversion J as [e p argument Hd|e p Hd| |v0 v' s0 s' Hv Hsl| | | | | | | | ]; subst; try (now inversion Hd).
      exists v, s, v', s'. repeat split. econstructor; [constructor|exact J].
    - destruct (dget x (bases_of st)) as [l|]; [|reflexivity]. exists l. split; [reflexivity|]. apply Forall2_same. now left. }
  destruct (to_identifier printable sp) as [name|]; [|discriminate]. cbn [bind_res] in H.
  destruct (fetch specializations_path (definitions (db st1))) as [sc|] eqn:E2; [|discriminate]. cbn [bind_res] in H.
  apply passes_trans with (st2 := st1); [exact S1|].
  destruct (dmem name (entries sc)) eqn:E3; [injection H as <-; apply passes_specialization|].
  destruct sp as [id|v' a|v' s'|es|es|items|f es ks|l o r|o e|c|es]; try discriminate H.
  destruct (to_path v') as [p|]; [|discriminate]. cbn [bind_res] in H.
  destruct (resolve_stub limit (fst generic) (removelast (snd generic)) p st1) as [q|]; [|discriminate]. cbn [bind_res] in H.
  destruct (fetch q (parameters_of st1)) as [ps|] eqn:E4; [|discriminate]. cbn [bind_res] in H.
  destruct (register_generic_specialization limit q cm [name] ps (unpack_ast_node s') st1) as [st2|] eqn:E5; [|discriminate].
  cbn [bind_res] in H. injection H as <-.
  eapply passes_trans; [|apply passes_specialization]. eapply register_keeps; eassumption.
Qed.
Lemma register_generic_bases_keeps generic cm specialization table l : forall st st',
  register_generic_bases printable limit generic cm specialization table l st = Ok st' -> passes st st'.
Proof.
  induction l as [|i r IH]; intros st st' H; cbn [register_generic_bases] in H; [injection H as <-; apply passes_refl|].
  destruct (register_generic_base printable limit generic cm specialization table i st) as [st1|] eqn:E; [|discriminate].
  cbn [bind_res] in H. eapply passes_trans; [eapply register_generic_base_keeps; exact E|now apply IH].
Qed.
Lemma register_base_keeps base child st r : register_base_ast_node printable limit base child st = Ok r -> passes st (fst r).
Proof.
  intros H. unfold register_base_ast_node in H.
  assert (HP : forall b, (let* p := to_path b in let* q := resolve_stub limit (fst child) (removelast (snd child)) p st in Ok (st, q)) = Ok r -> passes st (fst r)).
  { intros b' H'. destruct (to_path b') as [p|]; [|discriminate]. cbn [bind_res] in H'.
    destruct (resolve_stub limit (fst child) (removelast (snd child)) p st) as [q|]; [|discriminate]. cbn [bind_res] in H'. injection H' as <-. apply passes_refl. }
  destruct base as [id|v a|v s|es|es|items|f es ks|l o rr|o e|c|es]; try (eapply HP; exact H).
  destruct (to_identifier printable (Subscript v s)) as [name|]; [|discriminate]. cbn [bind_res] in H.
  destruct (fetch specializations_path (definitions (db st))) as [sc|] eqn:E2; [|discriminate]. cbn [bind_res] in H.
  destruct (dmem name (entries sc)) eqn:E3; [injection H as <-; apply passes_refl|].
  destruct (to_path v) as [p|]; [|discriminate]. cbn [bind_res] in H.
  destruct (resolve_stub limit (fst child) (removelast (snd child)) p st) as [q|]; [|discriminate]. cbn [bind_res] in H.
  destruct (fetch q (parameters_of st)) as [ps|] eqn:E4; [|discriminate]. cbn [bind_res] in H.
  destruct (register_generic_specialization limit q (fst child) [name] ps (unpack_ast_node s) st) as [st2|] eqn:E5; [|discriminate].
  cbn [bind_res] in H.
  destruct (dmem [name] (dget_or specializations_path [] (superclasses (db st2)))); [discriminate|].
  destruct (fetch q (bases_of st2)) as [gb|]; [|discriminate]. cbn [bind_res] in H.
  destruct (register_generic_bases printable limit q (fst child) [name] _ (seq 0 (length gb)) st2) as [st3|] eqn:E6; [|discriminate].
  cbn [bind_res] in H. injection H as <-. cbn [fst].
  eapply passes_trans; [eapply register_keeps; eassumption|]. eapply register_generic_bases_keeps. exact E6.
Qed.
Lemma process_bases_keeps child l : forall st st', process_bases printable limit child l st = Ok st' -> keeps' st st'.
Proof.
  induction l as [|i r IH]; intros st st' H; cbn [process_bases] in H; [injection H as <-; apply keeps_refl'|].
  destruct (fetch child (bases_of st)) as [cb|]; [|discriminate]. cbn [bind_res] in H.
  destruct (nth_error cb i) as [b|]; [|discriminate].
  destruct (register_base_ast_node printable limit b child st) as [res|] eqn:E; [|discriminate]. cbn [bind_res] in H.
  eapply keeps_trans'; [apply (register_base_keeps _ _ _ E)|]. eapply keeps_trans'; [|eapply IH; exact H]. apply keeps_superclass'.
Qed.
Lemma process_classes_keeps l : forall st st', process_classes printable limit l st = Ok st' -> keeps' st st'.
Proof.
  induction l as [|[c n] r IH]; intros st st' H; cbn [process_classes] in H; [injection H as <-; apply keeps_refl'|].
  destruct (process_bases printable limit c (seq 0 n) st) as [st1|] eqn:E; [|discriminate]. cbn [bind_res] in H.
  eapply keeps_trans'; [eapply process_bases_keeps; exact E|now apply IH].
Qed.
Lemma process_classes_bases_spec st st' : listed st -> consistent st -> process_classes_bases printable limit st = Ok st' ->
  consistent st' /\ only_specializations st st'.
Proof.
  intros (L1 & L2 & _) [C1 C2] H. unfold process_classes_bases in H.
  destruct (dmem specializations_path (nodes st) || dmem specializations_path (definitions (db st))
     || dmem specializations_path (kinds st) || dmem specializations_path (references (db st))) eqn:E; [discriminate|].
  apply Bool.orb_false_iff in E. destruct E as [E E4]. apply Bool.orb_false_iff in E. destruct E as [E E3].
  apply Bool.orb_false_iff in E. destruct E as [E1 E2].
  assert (P : parameters_elsewhere st).
  { intros q ps Hq Eq. apply L1 in Hq. apply L2 in Hq. rewrite Eq in Hq. apply dmem_not_In in E2. apply Hq. now apply dget_None. }
  match type of H with process_classes _ _ _ ?x = _ => set (st1 := x) in * end.
  assert (O1 : only_specializations st st1).
  { intros m Hm. unfold st1. repeat split; tables; try reflexivity; cbn [references]; rewrite dget_dset; (destruct (eqb_reflect m specializations_path); [easy|reflexivity]). }
  assert (G1 : good st1).
  { split; [|exact P]. split.
    - intros m o Ho. destruct (eqb_reflect m specializations_path) as [->|Hm].
      + exfalso. apply Ho. unfold st1, nodes_of_object. tables. now rewrite dget_dset, eqb_refl.
      + destruct (O1 m Hm) as (A1 & A2 & _). unfold nodes_of_object in Ho. rewrite A1 in Ho. unfold kind_of_object. rewrite A2. apply C1. exact Ho.
    - intros m o Ho. destruct (eqb_reflect m specializations_path) as [->|Hm].
      + exfalso. apply Ho. unfold st1, kind_of_object. tables. now rewrite dget_dset, eqb_refl.
      + destruct (O1 m Hm) as (A1 & A2 & A3 & _). unfold kind_of_object in Ho. rewrite A2 in Ho. destruct (C2 m o Ho) as (s & Es & Ps).
        exists s. now rewrite A3. }
  apply process_classes_keeps in H. destruct H as [[K1 K2] _]. split; [now apply K1|].
  eapply only_trans; [exact O1|]. apply K2. exact P.
Qed.

(** *** Superclasses *)
Definition supers (st : state) (m o : path) : list qualified_path := dget_or o [] (dget_or m [] (superclasses (db st))).
Lemma supers_settled st st' m o : m <> specializations_path -> settled st st' -> supers st' m o = supers st m o.
Proof. intros Hm [H _]. exact (f_equal (fun x => dget_or o [] match x with Some a => a | None => [] end) (H m Hm)). Qed.
Lemma supers_added st m o q x y : supers (add_superclass m o q st) x y = if (x, y) == ((m, o) : qualified_path) then supers st x y ++ [q] else supers st x y.
Proof.
  unfold supers. tables. rewrite dget_or_dmodify, pair_eqb. destruct (eqb_reflect x m) as [->|]; cbn [andb]; [|reflexivity].
  rewrite dget_or_dmodify. destruct (eqb_reflect y o) as [->|]; reflexivity.
Qed.
Lemma only_names st st' : only_specializations st st' -> same_names (db st) (db st').
Proof. intros H m Hm. destruct (H m Hm) as (_ & _ & A & B & C). auto. Qed.
Lemma same_names_trans d1 d2 d3 : same_names d1 d2 -> same_names d2 d3 -> same_names d1 d3.
Proof. intros H1 H2 m Hm. destruct (H1 m Hm) as (A & B & C), (H2 m Hm) as (D & E & F). repeat split; congruence. Qed.
Lemma superclass_later st st' m o b q : same_names (db st) (db st') ->
  superclass_of printable limit st m o b q -> superclass_of printable limit st' m o b q.
Proof.
  intros H [b' p q' d Hd Hn Hr|v s b' n Hr Hi]; [|econstructor; eassumption].
  eapply sc_plain; [exact Hd|eapply same_names_trans; eassumption|exact Hr].
Qed.
Lemma register_base_result base base' m o st r : base_later base base' ->
  register_base_ast_node printable limit base' (m, o) st = Ok r -> superclass_of printable limit st m o base (snd r).
Proof.
  intros L H.
  assert (HP : base' = base -> (let* p := to_path base' in let* q := resolve_stub limit m (removelast o) p st in Ok (st, q)) = Ok r ->
    superclass_of printable limit st m o base (snd r)).
  { intros <- H'. destruct (to_path base') as [p|] eqn:Ep; [|discriminate]. cbn [bind_res] in H'. apply to_path_dotted in Ep.
    unfold resolve_stub in H'. destruct (resolve_object_path (db st) limit m (removelast o) p []) as [q| |e] eqn:Er; [|discriminate|discriminate].
    injection H' as <-. cbn [snd]. eapply sc_plain; [exact Ep| |exact Er]. now intros x _. }
  assert (HS : forall v s v' s', base = Subscript v s -> base' = Subscript v' s' -> rewritten base base' -> superclass_of printable limit st m o base (snd r)).
  { intros v s v' s' -> -> R. unfold register_base_ast_node in H.
    destruct (to_identifier printable (Subscript v' s')) as [name|] eqn:En; [|discriminate]. cbn [bind_res] in H.
    enough (snd r = (specializations_path, [name])) as -> by (econstructor; eassumption).
    destruct (fetch specializations_path (definitions (db st))) as [sc|]; [|discriminate]. cbn [bind_res] in H.
    destruct (dmem name (entries sc)); [now injection H as <-|].
    repeat match type of H with
           | bind_res ?x _ = _ => destruct x; [|discriminate H]; cbn [bind_res] in H
           | (if ?x then _ else _) = _ => destruct x; [discriminate H|]
           end.
    now injection H as <-. }
  destruct L as [E|(v & s & v' & s' & E1 & E2 & R)]; [|eapply HS; eassumption].
  destruct base' as [id|v a|v s|es|es|items|f es ks|l o' rr|o' e|c|es]; try (apply HP; [exact E|exact H]).
  eapply HS; [symmetry; exact E|reflexivity|rewrite <- E; constructor].
Qed.
Lemma process_bases_others c l : forall st st', process_bases printable limit c l st = Ok st' ->
  bases_later st st' /\ forall m o, m <> specializations_path -> (m, o) <> c -> supers st' m o = supers st m o.
Proof.
  induction l as [|i r IH]; intros st st' H; cbn [process_bases] in H; [injection H as <-; split; [now apply bases_later_same|reflexivity]|].
  destruct (fetch c (bases_of st)) as [cb|]; [|discriminate]. cbn [bind_res] in H.
  destruct (nth_error cb i) as [b|]; [|discriminate].
  destruct (register_base_ast_node printable limit b c st) as [[st1 q]|] eqn:E; [|discriminate]. cbn [bind_res fst snd] in H.
  destruct (register_base_keeps _ _ _ E) as [_ Se]. cbn [fst] in Se. apply IH in H. destruct H as [B S]. split.
  - eapply bases_later_trans; [apply Se|]. eapply bases_later_trans; [|exact B]. now apply bases_later_same.
  - intros m o Hm Ho. rewrite (S m o Hm Ho), supers_added. destruct c as [x y]. cbn [fst snd].
    rewrite (proj2 (eqb_neq _ _)) by exact Ho. now apply supers_settled.
Qed.
Lemma process_classes_others m o : m <> specializations_path -> forall l st st',
  ~ In (m, o) (map fst l) -> process_classes printable limit l st = Ok st' -> supers st' m o = supers st m o.
Proof.
  intros Hm. induction l as [|[c n] r IH]; intros st st' N H; cbn [process_classes] in H; [now injection H as <-|].
  destruct (process_bases printable limit c (seq 0 n) st) as [st1|] eqn:E; [|discriminate]. cbn [bind_res] in H.
  cbn [map fst In] in N. rewrite (IH st1 st' ltac:(tauto) H).
  apply (process_bases_others _ _ _ E); [exact Hm|]. intros <-. apply N. now left.
Qed.
Lemma bases_later_some st st' q bs : bases_later st st' -> dget q (bases_of st) = Some bs ->
  exists l', dget q (bases_of st') = Some l' /\ Forall2 base_later bs l'.
Proof. intros H E. specialize (H q). now rewrite E in H. Qed.
Lemma skipn_nth {A} (l : list A) : forall i a, nth_error l i = Some a -> skipn i l = a :: skipn (S i) l.
Proof. induction l as [|x l IH]; intros [|i] a H; try discriminate H; [now injection H as ->|]. cbn. now rewrite (IH i a H). Qed.
Lemma Forall2_nth {A B} (R : A -> B -> Prop) l l' : Forall2 R l l' -> forall i b, nth_error l' i = Some b -> exists a, nth_error l i = Some a /\ R a b.
Proof. induction 1 as [|a b l l' H1 H2 IH]; intros [|i] x E; try discriminate E; cbn in *; [injection E as <-; eauto|auto]. Qed.
Lemma process_bases_superclasses m o : m <> specializations_path -> forall n i st st' bs0 bs,
  parameters_elsewhere st -> process_bases printable limit (m, o) (seq i n) st = Ok st' ->
  dget (m, o) (bases_of st) = Some bs -> Forall2 base_later bs0 bs -> i + n = length bs0 ->
  exists qs, supers st' m o = supers st m o ++ qs /\ Forall2 (superclass_of printable limit st' m o) (skipn i bs0) qs.
Proof.
  intros Hm. induction n as [|n IH]; intros i st st' bs0 bs P H Hb F Hl; cbn [seq process_bases] in H.
  - injection H as <-. exists []. rewrite app_nil_r. split; [reflexivity|]. rewrite skipn_all2 by lia. constructor.
  - match type of H with bind_res ?x _ = _ => destruct x as [cb|] eqn:Ef; [|discriminate H] end. cbn [bind_res] in H. apply fetch_dget in Ef.
    pose proof (eq_trans (eq_sym Ef) Hb) as Ec. injection Ec as ->.
    destruct (nth_error bs i) as [b|] eqn:En; [|discriminate].
    destruct (register_base_ast_node printable limit b (m, o) st) as [[st1 q]|] eqn:E; [|discriminate]. cbn [bind_res fst snd] in H.
    destruct (Forall2_nth F i En) as (b0 & E0 & L).
    destruct (register_base_keeps _ _ _ E) as [[[_ K] K'] Se]. cbn [fst] in K, K', Se.
    set (st2 := add_superclass m o q st1) in H.
    assert (P2 : parameters_elsewhere st2) by (unfold parameters_elsewhere, st2; cbn [add_superclass with_superclasses with_db parameters_of]; now rewrite K').
    destruct (@bases_later_some _ _ (m, o) bs (proj2 Se) Hb) as (bs1 & B1 & F1).
    assert (F2 : Forall2 base_later bs0 bs1) by (eapply Forall2_chain; [exact base_later_trans|eassumption|eassumption]).
    destruct (IH (S i) st2 st' bs0 bs1 P2 H B1 F2 ltac:(lia)) as (qs & Q1 & Q2).
    pose proof (process_bases_keeps _ _ _ H) as [[_ K2] _]. specialize (K2 P2).
    exists (q :: qs). split.
    + rewrite Q1. unfold st2. rewrite supers_added, eqb_refl, <- app_assoc. cbn [app]. now rewrite (@supers_settled st st1 m o Hm Se).
    + rewrite (skipn_nth _ _ E0). constructor; [|exact Q2].
      eapply superclass_later; [|exact (@register_base_result b0 b m o st (st1, q) L E)].
      eapply same_names_trans; [apply only_names, K; exact P|]. eapply same_names_trans; [|apply only_names, K2].
      intros x _. repeat split.
Qed.
Lemma process_classes_superclasses m o : m <> specializations_path -> forall l st st' bs0 bs,
  parameters_elsewhere st -> process_classes printable limit l st = Ok st' -> NoDup (map fst l) ->
  dget (m, o) (bases_of st) = Some bs -> Forall2 base_later bs0 bs -> In ((m, o), length bs0) l ->
  exists qs, supers st' m o = supers st m o ++ qs /\ Forall2 (superclass_of printable limit st' m o) bs0 qs.
Proof.
  intros Hm. induction l as [|[c n] r IH]; intros st st' bs0 bs P H N Hb F Hi; [contradiction|]. cbn [process_classes] in H.
  destruct (process_bases printable limit c (seq 0 n) st) as [st1|] eqn:E; [|discriminate]. cbn [bind_res] in H.
  cbn [map fst] in N. inversion N as [|x y N1 N2]; subst.
  destruct (process_bases_others _ _ _ E) as [B1 S1]. pose proof (process_bases_keeps _ _ _ E) as [[_ K1] K1'].
  assert (P1 : parameters_elsewhere st1) by (unfold parameters_elsewhere; now rewrite K1').
  pose proof (process_classes_keeps _ _ H) as [[_ K2] _]. specialize (K2 P1).
  destruct Hi as [Hi|Hi].
  - injection Hi as -> ->. destruct (@process_bases_superclasses m o Hm _ 0 st st1 bs0 bs P E Hb F eq_refl) as (qs & Q1 & Q2).
    exists qs. split.
    + rewrite <- Q1. now apply process_classes_others with (l := r).
    + cbn [skipn] in Q2. clear -Q2 K2. induction Q2; constructor; [|assumption]. eapply superclass_later; [|eassumption]. now apply only_names.
  - assert (Hc : (m, o) <> c) by (intros <-; apply N1; apply in_map_iff; now exists ((m, o), length bs0)).
    destruct (@bases_later_some _ _ (m, o) bs B1 Hb) as (bs1 & B1' & F1). clear B1. rename B1' into B1.
    destruct (IH st1 st' bs0 bs1 P1 H N2 B1) as (qs & Q1 & Q2); [eapply Forall2_chain; [exact base_later_trans|eassumption|eassumption]|exact Hi|].
    exists qs. split; [|exact Q2]. rewrite Q1. f_equal. now apply S1.
Qed.
Lemma process_superclasses st st' m o : listed st -> process_classes_bases printable limit st = Ok st' ->
  m <> specializations_path ->
  exists qs, supers st' m o = supers st m o ++ qs /\
    Forall2 (superclass_of printable limit st' m o) (match dget (m, o) (bases_of st) with Some bs => bs | None => [] end) qs.
Proof.
  intros (L1 & L2 & N) H Hm. unfold process_classes_bases in H.
  destruct (dmem specializations_path (nodes st) || dmem specializations_path (definitions (db st))
     || dmem specializations_path (kinds st) || dmem specializations_path (references (db st))) eqn:E; [discriminate|].
  apply Bool.orb_false_iff in E. destruct E as [E E4]. apply Bool.orb_false_iff in E. destruct E as [E E3].
  apply Bool.orb_false_iff in E. destruct E as [E1 E2].
  assert (P : parameters_elsewhere st).
  { intros q ps Hq Eq. apply L1 in Hq. apply L2 in Hq. rewrite Eq in Hq. apply dmem_not_In in E2. apply Hq. now apply dget_None. }
  match type of H with process_classes _ _ ?l ?x = _ => set (st1 := x) in *; set (cs := l) in * end.
  assert (NC : NoDup (map fst cs)).
  { unfold cs. rewrite map_map. cbn [fst]. exact N. }
  change (supers st m o) with (supers st1 m o).
  destruct (dget (m, o) (bases_of st)) as [bs|] eqn:Eb.
  - apply process_classes_superclasses with (l := cs) (bs := bs); try assumption.
    + apply Forall2_same. now left.
    + unfold cs. apply in_map_iff. exists ((m, o), bs). split; [reflexivity|]. now apply dget_Some_In.
  - exists []. split; [|constructor]. rewrite app_nil_r.
    assert (Hn : ~ In (m, o) (map fst cs)).
    { unfold cs. rewrite map_map. cbn [fst]. intros Hi. apply dget_None in Eb. now apply Eb. }
    now apply process_classes_others with (l := cs).
Qed.
Lemma process_keeps st st' : process_classes_bases printable limit st = Ok st' ->
  dget specializations_path (definitions (db st)) = None /\ parameters_of st' = parameters_of st.
Proof.
  intros H. unfold process_classes_bases in H.
  destruct (dmem specializations_path (nodes st) || dmem specializations_path (definitions (db st))
     || dmem specializations_path (kinds st) || dmem specializations_path (references (db st))) eqn:E; [discriminate|].
  apply Bool.orb_false_iff in E. destruct E as [E E4]. apply Bool.orb_false_iff in E. destruct E as [E E3].
  apply Bool.orb_false_iff in E. destruct E as [E1 E2]. split; [apply dget_None; now apply dmem_not_In|].
  apply process_classes_keeps in H. exact (proj2 H).
Qed.
End Specializations.

(** *** The whole run *)
Lemma each_app {A} (f : A -> state -> step unit) xs ys : forall st,
  each f (xs ++ ys) st = sbind (each f xs st) (fun st _ => each f ys st).
Proof.
  induction xs as [|x xs IH]; intros st; cbn [app each sbind]; [reflexivity|].
  destruct (f x st) as [st1 []|st1|e]; cbn [sbind]; [apply IH|reflexivity|reflexivity].
Qed.
Lemma stubs_tables source is_package condition printable limit fuel modules parsed u m fs st :
  parse_modules source is_package condition fuel modules = Done parsed u ->
  process_classes_bases printable limit parsed = Ok st ->
  In m (visited parsed) -> tables_say m parsed fs -> finally_say printable limit m st fs.
Proof.
  intros E H Hi T.
  pose proof (@parse_modules_consistent source is_package condition fuel modules) as HC. rewrite E in HC.
  pose proof (@parse_modules_listed source is_package condition fuel modules parsed u E) as HL.
  destruct (@process_keeps printable limit parsed st H) as [Hd Hp].
  assert (Hm : m <> specializations_path) by (intros ->; now apply HL in Hi).
  destruct (@process_classes_bases_spec printable limit parsed st HL HC H) as [_ O].
  destruct (O m Hm) as (O1 & O2 & O5 & O3 & O4). destruct T as (T1 & T2 & T3 & T4 & T5 & T6 & T7 & T8).
  repeat apply conj.
  - intros o. rewrite <- T1. unfold nodes_of_object. now rewrite O1.
  - intros o. rewrite <- T2. unfold kind_of_object. now rewrite O2.
  - intros o. now rewrite Hp.
  - intros p. rewrite <- T5. exact (f_equal (fun x => dget p match x with Some a => a | None => [] end) O3).
  - rewrite <- T6. exact (f_equal (fun x => match x with Some a => a | None => [] end) O4).
  - intros o Ho. rewrite <- (T8 o Ho). unfold defined. now rewrite O5.
  - intros o. destruct (@process_superclasses printable limit parsed st m o HL H Hm) as (qs & Q1 & Q2). exists qs. split.
    + unfold supers in Q1. rewrite Q1. f_equal. apply T7.
    + rewrite <- T3. exact Q2.
Qed.
Lemma parse_stubs_parsed source is_package condition printable limit fuel modules st :
  parse_stubs_state source is_package condition printable limit fuel modules = Ok st ->
  exists parsed, parse_modules source is_package condition fuel modules = Done parsed tt
    /\ process_classes_bases printable limit parsed = Ok st.
Proof.
  unfold parse_stubs_state. destruct (parse_modules source is_package condition fuel modules) as [st1 []|st1|e]; try discriminate. eauto.
Qed.
Lemma stubs_told source is_package condition printable limit fuel modules st :
  parse_stubs_state source is_package condition printable limit fuel modules = Ok st ->
  exists parsed, parse_modules source is_package condition fuel modules = Done parsed tt
  /\ (forall m, In m modules -> In m (visited parsed))
  /\ forall m, In m (visited parsed) ->
     exists body fs, source m = Some body /\ told_by source is_package condition parsed m body fs
       /\ finally_say printable limit m st fs.
Proof.
  intros H. destruct (@parse_stubs_parsed source is_package condition printable limit fuel modules st H) as (parsed & E & HP).
  exists parsed. split; [exact E|]. split.
  - intros m Hm. eapply (@parse_all_visited source is_package condition fuel m _ _ _ _ untouched_empty E). now right.
  - intros m Hm. destruct (@run_told source is_package condition fuel modules parsed tt m E Hm) as (fuel' & body & fs & A & B & C).
    exists body, fs. split; [exact A|]. split; [exists fuel'; exact B|]. eapply stubs_tables; eassumption.
Qed.
Lemma stubs_content source is_package condition printable limit fuel modules m st :
  read_in_turn source is_package condition fuel modules m ->
  parse_stubs_state source is_package condition printable limit fuel modules = Ok st ->
  exists parsed body fs, parse_modules source is_package condition fuel modules = Done parsed tt
  /\ source m = Some body /\ module_says source is_package condition (pred fuel) parsed m body fs
  /\ finally_say printable limit m st fs.
Proof.
  intros (before & after & st0 & u0 & Em & H0 & Hv) H.
  destruct (@parse_stubs_parsed source is_package condition printable limit fuel modules st H) as (parsed & E & HP).
  pose proof E as E'. unfold parse_modules in E'. rewrite Em, each_app, H0 in E'. cbn [sbind] in E'.
  destruct (@run_content source is_package condition fuel m before after st0 parsed u0 tt H0 Hv E') as (Hi & body & fs & Hb & Hs & T).
  exists parsed, body, fs. split; [exact E|]. split; [exact Hb|]. split; [exact Hs|]. eapply stubs_tables; eassumption.
Qed.

(** The table matches parameters and arguments by position. *)
Lemma combine_fst {A B} (xs : list A) (ys : list B) : NoDup xs -> NoDup (map fst (combine xs ys)).
Proof.
  revert ys. induction xs as [|x xs IH]; intros ys Hn; [constructor|]. destruct ys as [|y ys]; [constructor|].
  inv Hn. cbn. constructor; [|now apply IH]. intros Hi. apply in_map_iff in Hi. destruct Hi as ([a b] & E & Hi). cbn in E. subst.
  apply in_combine_l in Hi. contradiction.
Qed.
Lemma dget_combine {K A} `{Eqb K} (p : K) (a : A) : forall xs ys, NoDup xs ->
  (dget p (combine xs ys) = Some a <-> exists i, nth_error xs i = Some p /\ nth_error ys i = Some a).
Proof.
  induction xs as [|x xs IH]; intros ys Hn.
  - cbn. split; [discriminate|]. intros ([|i] & E & _); discriminate E.
  - destruct ys as [|y ys].
    + cbn. split; [discriminate|]. intros ([|i] & _ & E); discriminate E.
    + inv Hn. change (dget p (combine (x :: xs) (y :: ys))) with (if p == x then Some y else dget p (combine xs ys)). destruct (eqb_reflect p x) as [->|Hx].
      * split; [intros E; injection E as E; subst y; now exists 0|]. intros ([|i] & E1 & E2); [injection E2 as E2; now subst y|].
        cbn in E1. apply nth_error_In in E1. contradiction.
      * rewrite IH by assumption. split.
        -- intros (i & E1 & E2). now exists (S i).
        -- intros ([|i] & E1 & E2); [cbn in E1; congruence|]. now exists i.
Qed.
Lemma table_of_spec parameters arguments p a : NoDup parameters ->
  (dget p (table_of parameters arguments) = Some a <-> exists i, nth_error parameters i = Some p /\ nth_error arguments i = Some a).
Proof.
  intros Hn. unfold table_of. rewrite dict_of_NoDup by now apply combine_fst. now apply dget_combine.
Qed.
