(** C69: specialisations have the members of their generic classes *)
From Verif Require Import Base Ast Conversion Generics SpecCatalog SpecArboreal Scoping SpecScoping ScopingProofs Signatures SpecSignatures SignaturesProofs SpecGenerics GenericsProofs Stubs SpecStubs StubsProofs SpecializeProofs.

Section Members.
Variable printable : N -> bool.
Variable limit : nat.

Definition made (st : state) (n : pystr) (s : scope) : Prop :=
  exists q d gs, specialisation_of printable limit st n q
    /\ dget (fst q) (definitions (db st)) = Some d /\ scope_at d (snd q) = Ok gs
    /\ forall f, In f (dkeys (entries s)) <-> In f (dkeys (entries gs)).
Definition all_made (st : state) : Prop :=
  forall sc n s, dget specializations_path (definitions (db st)) = Some sc -> dget n (entries sc) = Some s -> made st n s.
Definition makes (st st' : state) : Prop := parameters_elsewhere st -> all_made st -> parameters_elsewhere st' /\ all_made st'.

Lemma makes_trans st1 st2 st3 : makes st1 st2 -> makes st2 st3 -> makes st1 st3.
Proof. intros A B P H. destruct (A P H) as [P' H']. now apply B. Qed.
Lemma made_later st st' n s : only_specializations st st' -> made st n s -> made st' n s.
Proof.
  intros O (q & d & gs & (Hq & v & sl & p & d' & m & parent & A & B & C & D) & E & F & G).
  exists q, d, gs. split; [|split; [|split; [exact F|exact G]]].
  - split; [exact Hq|]. exists v, sl, p, d', m, parent. split; [exact A|]. split; [exact B|]. split; [|exact D].
    eapply same_names_trans; [exact C|now apply only_names].
  - destruct (O _ Hq) as (_ & _ & X & _). now rewrite X.
Qed.
Lemma makes_same st st' : keeps' st st' -> dget specializations_path (definitions (db st')) = dget specializations_path (definitions (db st)) -> makes st st'.
Proof.
  intros [[_ K] Q] E P H. split; [unfold parameters_elsewhere in *; now rewrite Q|].
  intros sc n s Hs Hn. eapply made_later; [now apply K|]. rewrite E in Hs. now apply (H sc).
Qed.
Lemma makes_refl st : makes st st.
Proof. now split. Qed.
Lemma makes_superclass m c q st : makes st (add_superclass m c q st).
Proof. apply makes_same; [apply keeps_superclass'|reflexivity]. Qed.

Lemma fold_keys {A} (l : list (pystr * A)) k : forall d,
  In k (dkeys (fold_left (fun d kv => dset (fst kv) (snd kv) d) l d)) <-> In k (dkeys l) \/ In k (dkeys d).
Proof.
  induction l as [|[k' a] l IH]; intros d; cbn [fold_left]; [cbn; tauto|].
  rewrite IH. cbn [fst snd dkeys map In].
  assert (X : In k (dkeys (dset k' a d)) <-> k' = k \/ In k (dkeys d)).
  { rewrite <- !dmem_In. unfold dmem. rewrite dget_dset. destruct (eqb_reflect k k') as [->|Hn]; [tauto|].
    split; [now right|]. intros [->|Hi]; [now destruct Hn|exact Hi]. }
  unfold dkeys in *. rewrite X. tauto.
Qed.

Lemma register_makes q sm v sl p m parent name parameters arguments sc st st' :
  to_identifier printable (Subscript v sl) = Ok name -> dotted v p ->
  resolve_object_path (db st) limit m parent p [] = Resolved q ->
  fetch q (parameters_of st) = Ok parameters ->
  fetch specializations_path (definitions (db st)) = Ok sc -> dmem name (entries sc) = false ->
  register_generic_specialization limit q sm [name] parameters arguments st = Ok st' -> makes st st'.
Proof.
  intros Hi Hp Hr Hps Hs Hn H P HM.
  destruct (@register_keeps limit q sm name parameters arguments sc st st' Hps Hs Hn H) as [[[_ K] Q] _].
  pose proof (K P) as O. split; [unfold parameters_elsewhere in *; now rewrite Q|].
  apply fetch_dget in Hps. pose proof (P _ _ Hps) as Hq. apply fetch_dget in Hs.
  destruct (@register_generic_spec limit q sm [name] parameters arguments st st' Hq H) as (_ & _ & _ & _ & gs & (d & Hd & Hgs) & _).
  unfold register_generic_specialization in H. set (st1 := with_definitions st _) in H.
  destruct (fetch (fst q) (definitions (db st1))) as [d'|] eqn:E1; [|discriminate]. cbn [bind_res] in H.
  assert (d' = d). { apply fetch_dget in E1. assert (X : dget (fst q) (definitions (db st1)) = dget (fst q) (definitions (db st))) by (apply dget_dmodify_other; exact Hq). congruence. }
  subst d'. destruct (scope_at d (snd q)) as [gs'|] eqn:E2; [|discriminate]. injection Hgs as ->. cbn [bind_res] in H.
  set (st2 := with_definitions st1 _) in H.
  destruct (fetch (fst q) (nodes st2)) as [mn|]; [|discriminate]. cbn [bind_res] in H.
  set (st3 := with_kinds st2 _) in H.
  assert (D3 : dget specializations_path (definitions (db st3)) = Some (update_at [name] gs (add_path [name] sc))).
  { unfold st3, st2, st1. tables. rewrite dget_dmodify, eqb_refl. unfold dget_or at 1. rewrite dget_dmodify, eqb_refl.
    unfold dget_or. change (dget specializations_path (definitions (db st)) = Some sc) in Hs. now rewrite Hs. }
  apply specialize_fields_spec in H; [|exact Hq]. destruct H as (_ & _ & _ & _ & _ & I & _).
  intros sc' n s Hsc Hns. rewrite I, D3 in Hsc. injection Hsc as <-. cbn [update_at add_path entries] in Hns.
  rewrite dget_dset in Hns. destruct (eqb_reflect n name) as [->|Hne].
  - injection Hns as <-. exists q, d, gs. split; [|split; [|split; [exact E2|]]].
    + split; [exact Hq|]. exists v, sl, p, (db st), m, parent. split; [exact Hi|]. split; [exact Hp|]. split; [now apply only_names|exact Hr].
    + destruct (O _ Hq) as (_ & _ & X & _). now rewrite X.
    + intros f. cbn [entries]. rewrite fold_keys. unfold dget_or. rewrite !dget_dset, eqb_refl. cbn [entries].
      unfold dmem in Hn. destruct (dget name (entries sc)) as [y|]; [discriminate|]. cbn. tauto.
  - rewrite dget_dset in Hns. destruct (eqb_reflect n name) as [|_]; [contradiction|]. eapply made_later; [exact O|]. now apply (HM sc).
Qed.

Lemma resolve_stub_Ok m parent p st q : resolve_stub limit m parent p st = Ok q -> resolve_object_path (db st) limit m parent p [] = Resolved q.
Proof. unfold resolve_stub. destruct (resolve_object_path (db st) limit m parent p []); [now intros [= ->]|discriminate|discriminate]. Qed.
Lemma register_generic_base_makes generic cm specialization table i st st' :
  register_generic_base printable limit generic cm specialization table i st = Ok st' -> makes st st'.
Proof.
  intros H. unfold register_generic_base in H.
  destruct (fetch generic (bases_of st)) as [gb|] eqn:E1; [|discriminate]. cbn [bind_res] in H.
  destruct (nth_error gb i) as [b|] eqn:En; [|discriminate].
  assert (HP : forall b, (let* result := let* p := to_path b in let* q := resolve_stub limit (fst generic) [] p st in Ok (st, q) in
     Ok (add_superclass specializations_path specialization (snd result) (fst result))) = Ok st' -> makes st st').
  { intros b' H'. destruct (to_path b') as [p|]; [|discriminate]. cbn [bind_res] in H'.
    destruct (resolve_stub limit (fst generic) [] p st) as [q|]; [|discriminate]. cbn [bind_res] in H'. injection H' as <-. apply makes_superclass. }
  destruct b as [id|v a|v s|es|es|items|f es ks|l o r|o e|c|es]; try (eapply HP; exact H).
  destruct (specialize table (Subscript v s)) as [sp|] eqn:Esp; [|discriminate]. cbn [bind_res] in H.
  set (st1 := with_bases st _) in H.
  assert (S1 : makes st st1) by (apply makes_same; [apply keeps_bases'|reflexivity]).
  destruct (to_identifier printable sp) as [name|] eqn:Ei; [|discriminate]. cbn [bind_res] in H.
  destruct (fetch specializations_path (definitions (db st1))) as [sc|] eqn:E2; [|discriminate]. cbn [bind_res] in H.
  apply makes_trans with (st2 := st1); [exact S1|].
  destruct (dmem name (entries sc)) eqn:E3; [injection H as <-; apply makes_superclass|].
  destruct sp as [id|v' a|v' s'|es|es|items|f es ks|l o r|o e|c|es]; try discriminate H.
  destruct (to_path v') as [p|] eqn:Ep; [|discriminate]. cbn [bind_res] in H. apply to_path_dotted in Ep.
  destruct (resolve_stub limit (fst generic) (removelast (snd generic)) p st1) as [q|] eqn:Er; [|discriminate]. cbn [bind_res] in H.
  apply resolve_stub_Ok in Er.
  destruct (fetch q (parameters_of st1)) as [ps|] eqn:E4; [|discriminate]. cbn [bind_res] in H.
  destruct (register_generic_specialization limit q cm [name] ps (unpack_ast_node s') st1) as [st2|] eqn:E5; [|discriminate].
  cbn [bind_res] in H. injection H as <-.
  eapply makes_trans; [|apply makes_superclass]. eapply register_makes; eassumption.
Qed.
Lemma register_generic_bases_makes generic cm specialization table l : forall st st',
  register_generic_bases printable limit generic cm specialization table l st = Ok st' -> makes st st'.
Proof.
  induction l as [|i r IH]; intros st st' H; cbn [register_generic_bases] in H; [injection H as <-; apply makes_refl|].
  destruct (register_generic_base printable limit generic cm specialization table i st) as [st1|] eqn:E; [|discriminate].
  cbn [bind_res] in H. eapply makes_trans; [eapply register_generic_base_makes; exact E|now apply IH].
Qed.
Lemma register_base_makes base child st r : register_base_ast_node printable limit base child st = Ok r -> makes st (fst r).
Proof.
  intros H. unfold register_base_ast_node in H.
  assert (HP : forall b, (let* p := to_path b in let* q := resolve_stub limit (fst child) (removelast (snd child)) p st in Ok (st, q)) = Ok r -> makes st (fst r)).
  { intros b' H'. destruct (to_path b') as [p|]; [|discriminate]. cbn [bind_res] in H'.
    destruct (resolve_stub limit (fst child) (removelast (snd child)) p st) as [q|]; [|discriminate]. cbn [bind_res] in H'. injection H' as <-. apply makes_refl. }
  destruct base as [id|v a|v s|es|es|items|f es ks|l o rr|o e|c|es]; try (eapply HP; exact H).
  destruct (to_identifier printable (Subscript v s)) as [name|] eqn:Ei; [|discriminate]. cbn [bind_res] in H.
  destruct (fetch specializations_path (definitions (db st))) as [sc|] eqn:E2; [|discriminate]. cbn [bind_res] in H.
  destruct (dmem name (entries sc)) eqn:E3; [injection H as <-; apply makes_refl|].
  destruct (to_path v) as [p|] eqn:Ep; [|discriminate]. cbn [bind_res] in H. apply to_path_dotted in Ep.
  destruct (resolve_stub limit (fst child) (removelast (snd child)) p st) as [q|] eqn:Er; [|discriminate]. cbn [bind_res] in H.
  apply resolve_stub_Ok in Er.
  destruct (fetch q (parameters_of st)) as [ps|] eqn:E4; [|discriminate]. cbn [bind_res] in H.
  destruct (register_generic_specialization limit q (fst child) [name] ps (unpack_ast_node s) st) as [st2|] eqn:E5; [|discriminate].
  cbn [bind_res] in H.
  destruct (dmem [name] (dget_or specializations_path [] (superclasses (db st2)))); [discriminate|].
  destruct (fetch q (bases_of st2)) as [gb|]; [|discriminate]. cbn [bind_res] in H.
  destruct (register_generic_bases printable limit q (fst child) [name] _ (seq 0 (length gb)) st2) as [st3|] eqn:E6; [|discriminate].
  cbn [bind_res] in H. injection H as <-. cbn [fst].
  eapply makes_trans; [eapply register_makes; eassumption|]. eapply register_generic_bases_makes. exact E6.
Qed.
Lemma process_bases_makes child l : forall st st', process_bases printable limit child l st = Ok st' -> makes st st'.
Proof.
  induction l as [|i r IH]; intros st st' H; cbn [process_bases] in H; [injection H as <-; apply makes_refl|].
  destruct (fetch child (bases_of st)) as [cb|]; [|discriminate]. cbn [bind_res] in H.
  destruct (nth_error cb i) as [b|]; [|discriminate].
  destruct (register_base_ast_node printable limit b child st) as [res|] eqn:E; [|discriminate]. cbn [bind_res] in H.
  eapply makes_trans; [eapply register_base_makes; exact E|]. eapply makes_trans; [|eapply IH; exact H]. apply makes_superclass.
Qed.
Lemma process_classes_makes l : forall st st', process_classes printable limit l st = Ok st' -> makes st st'.
Proof.
  induction l as [|[c n] r IH]; intros st st' H; cbn [process_classes] in H; [injection H as <-; apply makes_refl|].
  destruct (process_bases printable limit c (seq 0 n) st) as [st1|] eqn:E; [|discriminate]. cbn [bind_res] in H.
  eapply makes_trans; [eapply process_bases_makes; exact E|now apply IH].
Qed.
Lemma process_makes st st' : listed st -> process_classes_bases printable limit st = Ok st' -> all_made st'.
Proof.
  intros (L1 & L2 & _) H. unfold process_classes_bases in H.
  destruct (dmem specializations_path (nodes st) || dmem specializations_path (definitions (db st))
     || dmem specializations_path (kinds st) || dmem specializations_path (references (db st))) eqn:E; [discriminate|].
  apply Bool.orb_false_iff in E. destruct E as [E E4]. apply Bool.orb_false_iff in E. destruct E as [E E3].
  apply Bool.orb_false_iff in E. destruct E as [E1 E2].
  assert (P : parameters_elsewhere st).
  { intros q ps Hq Eq. apply L1 in Hq. apply L2 in Hq. rewrite Eq in Hq. apply dmem_not_In in E2. apply Hq. now apply dget_None. }
  apply process_classes_makes in H. apply H; [exact P|].
  intros sc n s Hs Hn. exfalso. cbn [with_nodes with_definitions with_kinds with_references db definitions with_db] in Hs.
  rewrite dget_dset, eqb_refl in Hs. injection Hs as <-. discriminate Hn.
Qed.

Lemma scope_at_path o : forall d s, scope_at d o = Ok s -> forall p, has_path d (o ++ p) <-> has_path s p.
Proof.
  induction o as [|n o IH]; intros d s H p; cbn [scope_at] in H; [injection H as ->; reflexivity|].
  destruct (fetch n (entries d)) as [s'|] eqn:E; [|discriminate]. cbn [bind_res] in H. apply fetch_dget in E.
  rewrite <- (IH _ _ H p). cbn [app]. split.
  - intros X. inversion X; subst. congruence.
  - intros X. econstructor; eassumption.
Qed.
Lemma has_member s f : has_path s [f] <-> In f (dkeys (entries s)).
Proof.
  rewrite <- dmem_In. unfold dmem. split.
  - intros X. inversion X as [|? ? s' ? E]; subst. destruct (dget f (entries s)); [reflexivity|discriminate].
  - intros X. destruct (dget f (entries s)) as [s'|] eqn:E; [|discriminate]. econstructor; [exact E|constructor].
Qed.
Lemma made_members st n : all_made st -> defined (db st) specializations_path [n] ->
  exists q, specialisation_of printable limit st n q /\ defined (db st) (fst q) (snd q)
    /\ forall f, defined (db st) specializations_path [n; f] <-> defined (db st) (fst q) (snd q ++ [f]).
Proof.
  intros H (sc & Hs & Hp). inversion Hp as [|? ? s ? E _]; subst. destruct (H sc n s Hs E) as (q & d & gs & A & B & C & D).
  exists q. split; [exact A|]. split.
  - exists d. split; [exact B|]. rewrite <- (app_nil_r (snd q)). apply (@scope_at_path _ _ _ C). constructor.
  - intros f. specialize (D f). rewrite <- !has_member in D. split.
    + intros (sc' & Hs' & X). assert (sc' = sc) by congruence. subst sc'. exists d. split; [exact B|]. apply (@scope_at_path _ _ _ C). apply D.
      inversion X; subst. congruence.
    + intros (d' & Hd' & X). assert (d' = d) by congruence. subst d'. exists sc. split; [exact Hs|]. econstructor; [exact E|]. apply D.
      now apply (@scope_at_path _ _ _ C) in X.
Qed.
End Members.

Lemma stubs_members source is_package condition printable limit fuel modules st n :
  parse_stubs_state source is_package condition printable limit fuel modules = Ok st ->
  defined (db st) specializations_path [n] ->
  exists q, specialisation_of printable limit st n q /\ defined (db st) (fst q) (snd q)
    /\ forall f, defined (db st) specializations_path [n; f] <-> defined (db st) (fst q) (snd q ++ [f]).
Proof.
  intros H. destruct (@parse_stubs_parsed _ _ _ _ _ _ _ _ H) as (parsed & E & H').
  apply made_members. eapply process_makes; [|exact H']. eapply parse_modules_listed. exact E.
Qed.
