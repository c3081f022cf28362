(** Proofs about class hierarchies and the choice of a builder
    (signatures.py:423-519). *)
From Verif Require Import Base Models SpecCall Ast Conversion Scoping SpecScoping ScopingProofs
  Signatures SpecSignatures SignaturesProofs.
Set Implicit Arguments.

Section Mro.
Variable stubs : stubs_tables.
Notation db := (database_of stubs).

(** The loop over the bases *)
Fixpoint each (rec : qualified_path -> list qualified_path * option exc) (bs : list qualified_path)
  : list qualified_path * option exc :=
  match bs with
  | [] => ([], None)
  | b :: r =>
      let '(items, failure) := rec b in
      match failure with
      | Some e => (items, Some e)
      | None => let '(items', failure') := each rec r in (items ++ items', failure')
      end
  end.
Lemma to_mro_S f c :
  to_mro stubs (S f) c = (c :: fst (each (to_mro stubs f) (bases db c)), snd (each (to_mro stubs f) (bases db c))).
Proof.
  cbn [to_mro]. unfold bases.
  set (go := fix each bs := match bs with [] => _ | b :: r => _ end).
  assert (E : forall bs, go bs = each (to_mro stubs f) bs).
  { induction bs as [|b bs IH]; [reflexivity|]. cbn. destruct (to_mro stubs f b) as [l [e|]]; [reflexivity|].
    fold go. now rewrite IH. }
  destruct (dget (fst c) (superclasses db)) as [t|]; [|reflexivity].
  destruct (dget (snd c) t) as [bs|]; [|reflexivity]. rewrite E. now destruct (each (to_mro stubs f) bs).
Qed.

Lemma each_done rec bs l :
  each rec bs = (l, None) <-> exists ls, Forall2 (fun b l => rec b = (l, None)) bs ls /\ l = concat ls.
Proof.
  revert l. induction bs as [|b bs IH]; intros l; cbn.
  - split; [intros E; inv E; exists []; split; [constructor | reflexivity]|].
    intros (ls & H & ->). now inv H.
  - destruct (rec b) as [lb [e|]] eqn:Eb.
    + split; [discriminate|]. intros (ls & H & _). inv H. congruence.
    + destruct (each rec bs) as [lr o] eqn:Er. split.
      * intros E. inv E. destruct (proj1 (IH lr) eq_refl) as (ls & H & ->). exists (lb :: ls). split; [now constructor | reflexivity].
      * intros (ls & H & ->). inv H. rewrite Eb in H2. inv H2.
        specialize (proj2 (IH (concat l')) (ex_intro _ l' (conj H4 eq_refl))). intros E. inv E. reflexivity.
Qed.

Lemma mro_lineage f c l : to_mro stubs f c = (l, None) -> lineage db c l.
Proof.
  revert c l. induction f as [|f IH]; intros c l; [discriminate|]. rewrite to_mro_S.
  destruct (each (to_mro stubs f) (bases db c)) as [l' o] eqn:E. cbn. intros H. inv H.
  apply each_done in E as (ls & H & ->). constructor.
  clear -H IH. induction H; constructor; auto.
Qed.

Lemma mro_more f f' c l : f <= f' -> to_mro stubs f c = (l, None) -> to_mro stubs f' c = (l, None).
Proof.
  revert f' c l. induction f as [|f IH]; intros [|f'] c l Hf; try discriminate; [lia|]. rewrite !to_mro_S.
  destruct (each (to_mro stubs f) (bases db c)) as [l' o] eqn:E. cbn. intros H. inv H.
  apply each_done in E as (ls & H & ->).
  assert (E : each (to_mro stubs f') (bases db c) = (concat ls, None)).
  { apply each_done. exists ls. split; [|reflexivity]. clear -H IH Hf.
    induction H; constructor; auto. apply IH; [lia | assumption]. }
  now rewrite E.
Qed.

Section LineageInd.
Variable P : qualified_path -> list qualified_path -> Prop.
Hypothesis step : forall c ls, Forall2 (lineage db) (bases db c) ls -> Forall2 P (bases db c) ls -> P c (c :: concat ls).
Fixpoint lineage_ind' c l (H : lineage db c l) : P c l :=
  match H in lineage _ c l return P c l with
  | @li _ c ls F =>
      @step c ls F ((fix go bs ls (F : Forall2 (lineage db) bs ls) : Forall2 P bs ls :=
                 match F in Forall2 _ bs ls return Forall2 P bs ls with
                 | Forall2_nil _ => Forall2_nil _
                 | Forall2_cons b l Hb Hr => Forall2_cons b l (@lineage_ind' _ _ Hb) (go _ _ Hr)
                 end) _ _ F)
  end.
End LineageInd.

Lemma lineage_mro c l : lineage db c l -> exists n, forall f, n <= f -> to_mro stubs f c = (l, None).
Proof.
  revert c l. apply lineage_ind'. intros c ls _ H.
  assert (E : exists n, forall f, n <= f -> each (to_mro stubs f) (bases db c) = (concat ls, None)).
  { assert (exists n, forall f, n <= f -> Forall2 (fun b l => to_mro stubs f b = (l, None)) (bases db c) ls).
    { induction H as [|b l bs ls [n Hn] _ [n' Hn']]; [exists 0; constructor|].
      exists (Nat.max n n'). intros f Hf. constructor; [apply Hn | apply Hn']; lia. }
    destruct H0 as [n Hn]. exists n. intros f Hf. apply each_done. exists ls. auto. }
  destruct E as [n Hn]. exists (S n). intros [|f] Hf; [lia|]. rewrite to_mro_S, Hn by lia. reflexivity.
Qed.

(** As many levels as there are classes are enough. *)
Lemma lineage_mro_length c l : lineage db c l -> forall f, length l <= f -> to_mro stubs f c = (l, None).
Proof.
  revert c l. apply (@lineage_ind' (fun c l => forall f, length l <= f -> to_mro stubs f c = (l, None))). intros c ls _ H f Hf. cbn [length] in Hf. destruct f as [|f]; [lia|].
  rewrite to_mro_S. replace (each (to_mro stubs f) (bases db c)) with (concat ls, @None exc); [reflexivity|].
  symmetry. apply each_done. exists ls. split; [|reflexivity].
  assert (L : length (concat ls) <= f) by lia. clear Hf. induction H as [|b l bs ls Hb _ IH]; [constructor|].
  cbn in L. rewrite app_length in L. constructor; [apply Hb; lia|apply IH; lia].
Qed.

Lemma lineage_In c l : lineage db c l -> forall d, In d l <-> reaches db c d.
Proof.
  revert c l. apply (@lineage_ind' (fun c l => forall d, In d l <-> reaches db c d)).
  intros c ls _ H d. cbn. rewrite in_concat. split.
  - intros [<-|(l & Hl & Hd)]; [constructor|].
    destruct (Forall2_In_r _ H Hl) as (b & Hb & Hbl). econstructor; [exact Hb | now apply Hbl].
  - intros R. inv R; [now left|]. right. destruct (Forall2_In_l _ H H0) as (l & Hl & Hbl).
    exists l. split; [exact Hl | now apply Hbl].
Qed.
Lemma lineage_head c l : lineage db c l -> exists r, l = c :: r.
Proof. intros H. inv H. eauto. Qed.

Lemma Forall2_fun {A B} (R : A -> B -> Prop) xs ys zs :
  Forall2 (fun x y => forall z, R x z -> y = z) xs ys -> Forall2 R xs zs -> ys = zs.
Proof.
  intros H. revert zs. induction H; intros zs Hz; inv Hz; [reflexivity|]. f_equal; auto.
Qed.
Lemma lineage_unique c l l' : lineage db c l -> lineage db c l' -> l = l'.
Proof.
  intros H. revert l'. revert c l H. apply (@lineage_ind' (fun c l => forall l', lineage db c l' -> l = l')).
  intros c ls _ H l' H'. inv H'. f_equal. f_equal. eapply Forall2_fun; eauto.
Qed.
Lemma length_concat_In {A} (ls : list (list A)) l : In l ls -> length l <= length (concat ls).
Proof.
  induction ls as [|x ls IH]; [easy|]. cbn. rewrite app_length. intros [->|H]; [lia|]. apply IH in H. lia.
Qed.
Lemma lineage_reaches c l : lineage db c l ->
  forall d, reaches db c d -> exists ld, lineage db d ld /\ length ld <= length l.
Proof.
  intros H d R. revert l H. induction R as [c|c b d Hb R IH]; intros l H; [now exists l|].
  inv H. destruct (Forall2_In_l _ H0 Hb) as (lb & Hlb & Hl). destruct (IH _ Hl) as (ld & Hd & Hlen).
  exists ld. split; [easy|]. apply length_concat_In in Hlb. cbn. lia.
Qed.
Lemma lineage_acyclic c l : lineage db c l -> acyclic db c.
Proof.
  intros H d R (b & Hb & Rb). destruct (lineage_reaches H R) as (ld & Hd & _).
  pose proof Hd as Hd'. inversion Hd' as [c0 ls Hls]; subst.
  destruct (Forall2_In_l _ Hls Hb) as (lb & Hlb & Hl).
  destruct (lineage_reaches Hl Rb) as (ld' & Hd2 & Hlen).
  apply (lineage_unique Hd) in Hd2. subst ld'. apply length_concat_In in Hlb. cbn in Hlen. lia.
Qed.

(** Classes with recorded bases *)
Definition table : list qualified_path :=
  flat_map (fun '(m, t) => map (fun o => (m, o)) (dkeys t)) (superclasses db).
Lemma bases_table c : bases db c <> [] -> In c table.
Proof.
  unfold bases. destruct c as [m o]. cbn. destruct (dget m (superclasses db)) as [t|] eqn:Em; [|easy].
  destruct (dget o t) as [bs|] eqn:Eo; [|easy]. intros _. unfold table. apply in_flat_map. exists (m, t).
  split; [now apply dget_Some_In|]. apply in_map. apply dget_Some_In in Eo.
  unfold dkeys. apply in_map_iff. now exists (o, bs).
Qed.

Lemma acyclic_mro f c (visited : list qualified_path) :
  NoDup visited -> incl visited table -> (forall v, In v visited -> inherits_from db v c) ->
  acyclic db c -> length table < f + length visited -> exists l, to_mro stubs f c = (l, None).
Proof.
  revert c visited. induction f as [|f IH]; intros c vs Hn Hi Hv Ha Hf.
  - apply (NoDup_incl_length Hn) in Hi. lia.
  - rewrite to_mro_S.
    assert (E : exists l, each (to_mro stubs f) (bases db c) = (l, None)).
    { assert (exists ls, Forall2 (fun b l => to_mro stubs f b = (l, None)) (bases db c) ls).
      { apply Forall2_exists. intros b Hb. apply (IH b (c :: vs)).
        - constructor; [|exact Hn]. intros Hc. apply Hv in Hc. now apply (Ha c (re_self _ _)).
        - intros v [<-|Hv']; [|now apply Hi]. apply bases_table. intros E. now rewrite E in Hb.
        - intros v [<-|Hv'].
          + exists b. split; [exact Hb | constructor].
          + destruct (Hv v Hv') as (x & Hx & R). exists x. split; [exact Hx|].
            clear -R Hb. induction R; [econstructor; [exact Hb | constructor] | econstructor; eauto].
        - intros d R. apply Ha. econstructor; eauto.
        - cbn. lia. }
      destruct H as [ls H]. exists (concat ls). apply each_done. eauto. }
    destruct E as [l E]. rewrite E. eauto.
Qed.

Lemma acyclic_terminates c : acyclic db c ->
  exists l, forall f, length table < f -> to_mro stubs f c = (l, None).
Proof.
  intros Ha. destruct (@acyclic_mro (S (length table)) c []) as [l Hl]; auto.
  - constructor.
  - intros v [].
  - intros v [].
  - cbn. lia.
  - exists l. intros f Hf. now apply (mro_more (f := S (length table))).
Qed.

(** Whatever has been yielded is reachable, even if the recursion limit is hit. *)
Lemma each_In rec bs d : In d (fst (each rec bs)) -> exists b, In b bs /\ In d (fst (rec b)).
Proof.
  induction bs as [|b bs IH]; cbn; [easy|]. destruct (rec b) as [l [e|]] eqn:E.
  - cbn. intros H. exists b. rewrite E. auto.
  - destruct (each rec bs) as [l' o]. cbn in *. rewrite in_app_iff. intros [H|H].
    + exists b. rewrite E. auto.
    + destruct (IH H) as (b' & Hb & Hd). exists b'. auto.
Qed.
Lemma mro_sound f c d : In d (fst (to_mro stubs f c)) -> reaches db c d.
Proof.
  revert c. induction f as [|f IH]; intros c; [easy|]. rewrite to_mro_S. cbn. intros [<-|H]; [constructor|].
  apply each_In in H as (b & Hb & Hd). econstructor; eauto.
Qed.
Lemma mro_head f c : exists r o, to_mro stubs (S f) c = (c :: r, o).
Proof. rewrite to_mro_S. eauto. Qed.

(** The only failure is the recursion limit. *)
Lemma mro_failure f c l e : to_mro stubs f c = (l, Some e) -> e = RecursionError.
Proof.
  revert c l. induction f as [|f IH]; intros c l; [intros E; now inv E|]. rewrite to_mro_S. intros E. inv E.
  clear -IH H1. induction (bases db c) as [|b bs IHb]; [discriminate|]. cbn in H1.
  destruct (to_mro stubs f b) as [lb [e'|]] eqn:Eb; [cbn in H1; inv H1; eauto|].
  destruct (each (to_mro stubs f) bs). cbn in *. auto.
Qed.

(** ** Builders *)
Lemma has_nodes_dmem m t o : dget m (raw_ast_nodes stubs) = Some t -> dmem o t = true <-> has_nodes stubs m o.
Proof.
  intros E. rewrite dmem_In. split; [intros H; now exists t|]. intros (t' & E' & H). congruence.
Qed.
Lemma has_nodes_not m t o : dget m (raw_ast_nodes stubs) = Some t -> dmem o t = false <-> ~ has_nodes stubs m o.
Proof. intros E. rewrite <- (@has_nodes_dmem _ _ o E). destruct (dmem o t); split; congruence. Qed.

Definition at_path (o : path) (c : qualified_path) : qualified_path := (fst c, o).
Lemma first_builder_cons o m x r failure t :
  dget m (raw_ast_nodes stubs) = Some t ->
  (exists b, own_builder stubs (m, o) b /\ first_builder stubs o ((m, x) :: r) failure = Return b)
  \/ ((forall b, ~ own_builder stubs (m, o) b)
      /\ first_builder stubs o ((m, x) :: r) failure = first_builder stubs o r failure).
Proof.
  intros E. cbn [first_builder]. unfold lookup. rewrite E. cbn [obind].
  unfold initializer_name, constructor_name.
  destruct (dmem (o ++ [$"__init__"]) t) eqn:Ei.
  - left. eexists. split; [|reflexivity]. constructor. now apply (@has_nodes_dmem _ _ _ E).
  - apply (@has_nodes_not _ _ _ E) in Ei. destruct (dmem (o ++ [$"__new__"]) t) eqn:En.
    + left. eexists. split; [|reflexivity]. constructor; [exact Ei|]. now apply (@has_nodes_dmem _ _ _ E).
    + apply (@has_nodes_not _ _ _ E) in En. right. split; [|reflexivity]. intros b Hb. now inv Hb.
Qed.
Lemma own_builder_fun c b b' : own_builder stubs c b -> own_builder stubs c b' -> b = b'.
Proof. intros H H'. inv H; inv H'; tauto. Qed.
Lemma has_module_get m : has_module stubs m -> exists t, dget m (raw_ast_nodes stubs) = Some t.
Proof.
  intros H. destruct (dget m (raw_ast_nodes stubs)) eqn:E; [eauto|]. apply dget_None in E. now destruct E.
Qed.

(** What the loop computes: the nearest builder, except that every base is
    looked up under the path of the class itself. *)
Lemma first_builder_nearest o l b :
  (forall d, In d l -> has_module stubs (fst d)) ->
  first_builder stubs o l None = Return b <-> nearest stubs (map (at_path o) l) b.
Proof.
  induction l as [|[m x] l IH]; intros Hm.
  - cbn. split; [intros E; inv E; constructor | intros H; now inv H].
  - destruct (@has_module_get m (Hm (m, x) (or_introl eq_refl))) as [t Et].
    specialize (IH (fun d Hd => Hm d (or_intror Hd))). cbn [map]. unfold at_path at 1; cbn [fst].
    destruct (@first_builder_cons o _ x l None _ Et) as [(b0 & Hb & ->)|[Hno ->]].
    + split; [intros E; inv E; now constructor|]. intros H.
      inversion H as [|c0 r0 b1 Ho|c0 r0 b1 Hn Hr]; subst; [f_equal; eapply own_builder_fun; eauto|].
      now destruct (Hn b0).
    + rewrite IH. split; [intros H; now constructor|]. intros H.
      inversion H as [|c0 r0 b1 Ho|c0 r0 b1 Hn Hr]; subst; [now apply Hno in Ho | assumption].
Qed.
Lemma first_builder_total o l :
  (forall d, In d l -> has_module stubs (fst d)) -> exists b, first_builder stubs o l None = Return b.
Proof.
  induction l as [|[m x] l IH]; intros Hm; [cbn; eauto|].
  destruct (@has_module_get m (Hm (m, x) (or_introl eq_refl))) as [t Et].
  destruct (@first_builder_cons o _ x l None _ Et) as [(b0 & Hb & ->)|[Hno ->]]; eauto.
  apply IH. intros d Hd. apply Hm. now right.
Qed.
Lemma first_builder_not_found o l failure : first_builder stubs o l failure <> SignatureNotFound.
Proof.
  induction l as [|[m x] l IH]; cbn [first_builder]; [now destruct failure|]. unfold lookup.
  destruct (dget m (raw_ast_nodes stubs)); cbn [obind]; [|discriminate].
  destruct (dmem _ _); [discriminate|]. now destruct (dmem _ _).
Qed.

Lemma class_builder_own limit c b :
  1 <= limit -> own_builder stubs c b -> to_class_builder_qualified_path stubs limit c = Return b.
Proof.
  intros Hl Hb. destruct limit as [|f]; [lia|]. unfold to_class_builder_qualified_path.
  destruct (mro_head f c) as (r & o & ->). destruct c as [m p]. cbn [snd].
  assert (Hm : exists t, dget m (raw_ast_nodes stubs) = Some t) by (inversion Hb as [? ? (t & ? & _)|? ? _ (t & ? & _)]; eauto).
  destruct Hm as [t Et]. destruct (@first_builder_cons p _ p r o _ Et) as [(b0 & Hb0 & E)|[Hno _]].
  - etransitivity; [exact E|]. f_equal. eapply own_builder_fun; eauto.
  - now apply Hno in Hb.
Qed.

Lemma class_builder_exact limit c l b :
  to_mro stubs limit c = (l, None) -> (forall d, In d l -> has_module stubs (fst d)) ->
  to_class_builder_qualified_path stubs limit c = Return b <-> nearest stubs (map (at_path (snd c)) l) b.
Proof.
  intros E Hm. unfold to_class_builder_qualified_path. rewrite E. now apply first_builder_nearest.
Qed.

(** ** Choice *)
Lemma omap_ok {A B} (f : A -> outcome B) xs ys :
  omap f xs = Return ys <-> Forall2 (fun x y => f x = Return y) xs ys.
Proof.
  revert ys. induction xs as [|x xs IH]; intros ys; cbn.
  - split; [intros E; inv E; constructor | intros H; now inv H].
  - destruct (f x) as [y| |e] eqn:E; cbn [obind].
    + destruct (omap f xs) as [zs| |e]; cbn [obind].
      * split; [intros H; inv H; constructor; [exact E | now apply IH]|].
        intros H. inv H. apply IH in H4. congruence.
      * split; [discriminate|]. intros H. inv H. apply IH in H4. discriminate.
      * split; [discriminate|]. intros H. inv H. apply IH in H4. discriminate.
    + split; [discriminate|]. intros H. inv H. congruence.
    + split; [discriminate|]. intros H. inv H. congruence.
Qed.
Lemma omap_throws {A B} (f : A -> outcome B) xs :
  (forall x, In x xs -> f x <> SignatureNotFound) ->
  (exists e, omap f xs = Throws e) <-> exists x e, In x xs /\ f x = Throws e.
Proof.
  induction xs as [|x xs IH]; intros Hn; cbn.
  - split; [intros [e E]; discriminate | intros (y & e & [] & _)].
  - specialize (IH (fun y Hy => Hn y (or_intror Hy))). destruct (f x) as [y| |e] eqn:E; cbn [obind].
    + destruct (omap f xs) as [zs| |e'] eqn:Ez; cbn [obind].
      * split; [intros [e He]; discriminate|]. intros (z & e & [<-|Hz] & Hf); [congruence|].
        destruct (proj2 IH) as [e' He']; [eauto | discriminate].
      * split; [intros [e He]; discriminate|]. intros (z & e & [<-|Hz] & Hf); [congruence|].
        destruct (proj2 IH) as [e' He']; [eauto | discriminate].
      * split; [|eauto]. intros _. destruct (proj1 IH (ex_intro _ e' eq_refl)) as (z & e & Hz & Hf). eauto.
    + now destruct (Hn x (or_introl eq_refl)).
    + split; eauto.
Qed.

Lemma set_of_In {A} `{Eqb A} (xs : list A) x : In x (set_of xs) <-> In x xs.
Proof.
  induction xs as [|y xs IH]; cbn; [reflexivity|]. destruct (mem y xs) eqn:E.
  - rewrite IH. apply mem_In in E. split; [auto|]. now intros [->|].
  - cbn. now rewrite IH.
Qed.
Lemma set_of_NoDup {A} `{Eqb A} (xs : list A) : NoDup (set_of xs).
Proof.
  induction xs as [|y xs IH]; cbn; [constructor|]. destruct (mem y xs) eqn:E; [exact IH|].
  constructor; [|exact IH]. rewrite set_of_In. now apply mem_not_In.
Qed.
Lemma singleton_only {A} (xs : list A) a : NoDup xs -> xs = [a] <-> only (fun x => In x xs) a.
Proof.
  unfold only. intros Hn. split.
  - intros -> x. cbn. intuition.
  - intros H. destruct xs as [|x xs]; [now destruct (proj2 (H a) eq_refl)|].
    assert (x = a) by (apply H; now left). subst x. destruct xs as [|y xs]; [reflexivity|].
    assert (y = a) by (apply H; right; now left). subst y. inv Hn. destruct H2. now left.
Qed.

Section Choice.
Variable limit : nat.
Notation builder_of := (to_class_builder_qualified_path stubs limit).
Definition builds (qs : list qualified_path) (b : qualified_path) : Prop :=
  exists q, In q qs /\ builder_of q = Return b.

Lemma builders_In qs bs : omap builder_of qs = Return bs -> forall b, In b bs <-> builds qs b.
Proof.
  intros H b. apply omap_ok in H. split.
  - intros Hb. destruct (Forall2_In_r _ H Hb) as (q & Hq & E). now exists q.
  - intros (q & Hq & E). destruct (Forall2_In_l _ H Hq) as (b' & Hb & E'). congruence.
Qed.

Lemma only_ext {A} (P Q : A -> Prop) a : (forall x, P x <-> Q x) -> only P a <-> only Q a.
Proof. unfold only. intros H. split; intros Ho x; rewrite <- Ho; [now rewrite H | now rewrite <- H]. Qed.

Lemma choice_ext (P Q : qualified_path -> Prop) r : (forall x, P x <-> Q x) -> choice P r -> choice Q r.
Proof.
  intros E H.
  assert (E' : forall x, P x /\ x <> object_new <-> Q x /\ x <> object_new) by (intros x; now rewrite E).
  inversion H as [b Ho|b Hn Ho|Ho Hb]; subst.
  - apply ch_unique. now apply (@only_ext _ P Q b E).
  - apply ch_besides; [now apply E|]. now apply (@only_ext _ _ _ b E').
  - apply ch_none.
    + intros b Hq. apply (Ho b). now apply (@only_ext _ P Q b E).
    + intros Hn b Hq. apply (Hb (proj2 (E _) Hn) b). now apply (@only_ext _ _ _ b E').
Qed.

Lemma decide_cases (candidates : list qualified_path) : NoDup candidates ->
  match match candidates with
        | [q] => Return q
        | _ => if mem object_builder_qualified_path candidates
               then match filter (fun q => negb (q == object_builder_qualified_path)) candidates with
                    | [q] => Return q
                    | _ => SignatureNotFound
                    end
               else SignatureNotFound
        end with
  | Return b => choice (fun b => In b candidates) (Some b)
  | SignatureNotFound => choice (fun b => In b candidates) None
  | Throws _ => False
  end.
Proof.
  intros Hn.
  destruct candidates as [|a [|a' r]].
  - cbn. apply ch_none; [|easy]. intros b H. now destruct (proj2 (H b) eq_refl).
  - apply ch_unique. now apply singleton_only.
  - set (cs := a :: a' :: r) in *.
    assert (N1 : forall b, ~ only (fun x => In x cs) b).
    { intros b H. apply (singleton_only _ Hn) in H. discriminate. }
    assert (Hf : forall x, In x (filter (fun q => negb (q == object_builder_qualified_path)) cs)
                           <-> In x cs /\ x <> object_new).
    { intros x. rewrite filter_In, negb_true_iff. now rewrite eqb_neq. }
    assert (Hnf : NoDup (filter (fun q => negb (q == object_builder_qualified_path)) cs)) by now apply NoDup_filter.
    destruct (mem object_builder_qualified_path cs) eqn:Em.
    + apply mem_In in Em. set (fs := filter _ cs) in *.
      assert (N2 : fs <> [] -> (forall b, fs <> [b]) -> choice (fun b => In b cs) None).
      { intros _ H. apply ch_none; [exact N1|]. intros _ b Ho. apply (H b). apply (singleton_only _ Hnf).
        now apply (@only_ext _ _ _ b Hf). }
      destruct fs as [|x [|y fs0]] eqn:Efs.
      * apply ch_none; [exact N1|]. intros _ b Ho. destruct (proj2 (Ho b) eq_refl) as [H1 H2].
        now apply (proj2 (Hf b)).
      * apply ch_besides; [exact Em|]. apply (@only_ext _ _ _ x Hf). now apply (singleton_only _ Hnf).
      * apply N2; [discriminate|]. intros b; discriminate.
    + apply mem_not_In in Em. apply ch_none; [exact N1|]. intros H. now destruct Em.
Qed.

Lemma resolve_builder_choice qs :
  (forall q, In q qs -> exists b, builder_of q = Return b) ->
  match resolve_builder_qualified_path stubs limit qs with
  | Return b => choice (builds qs) (Some b)
  | SignatureNotFound => choice (builds qs) None
  | Throws _ => False
  end.
Proof.
  intros H. destruct (Forall2_exists _ _ H) as [bs Hbs].
  apply omap_ok in Hbs. unfold resolve_builder_qualified_path. rewrite Hbs. cbn [obind].
  assert (E : forall x, In x (set_of bs) <-> builds qs x) by (intros x; rewrite set_of_In; now apply builders_In).
  pose proof (decide_cases (set_of_NoDup bs)) as D.
  destruct (match set_of bs with [] => _ | _ => _ end); auto; (eapply choice_ext; [|exact D]; exact E).
Qed.

Lemma only_fun {A} (P : A -> Prop) a b : only P a -> only P b -> a = b.
Proof. intros Ha Hb. apply Hb. now apply Ha. Qed.
Lemma choice_fun (P : qualified_path -> Prop) r r' : choice P r -> choice P r' -> r = r'.
Proof.
  intros H H'.
  inversion H as [b Ho|b Hn Ho|Ho Hb]; inversion H' as [b' Ho'|b' Hn' Ho'|Ho' Hb']; subst; auto.
  - f_equal. eapply only_fun; eauto.
  - f_equal. assert (object_new = b) by now apply Ho. subst b. destruct (proj2 (Ho' b') eq_refl) as [Hb Hne].
    apply Ho in Hb. congruence.
  - now destruct (Ho' b).
  - f_equal. assert (object_new = b') by now apply Ho'. subst b'. destruct (proj2 (Ho b) eq_refl) as [Hb Hne].
    apply Ho' in Hb. congruence.
  - f_equal. eapply only_fun; eauto.
  - now destruct (Hb' Hn b).
  - now destruct (Ho b').
  - now destruct (Hb Hn' b').
Qed.

Lemma resolve_builder_throws qs :
  (exists e, resolve_builder_qualified_path stubs limit qs = Throws e)
  <-> exists q e, In q qs /\ builder_of q = Throws e.
Proof.
  unfold resolve_builder_qualified_path.
  rewrite <- omap_throws.
  2:{ intros q _. unfold to_class_builder_qualified_path. destruct (to_mro stubs limit q). apply first_builder_not_found. }
  destruct (omap builder_of qs) as [bs| |e]; cbn [obind].
  - split; [|intros [e E]; discriminate]. intros [e E]. exfalso.
    pose proof (decide_cases (set_of_NoDup bs)) as D. now rewrite E in D.
  - split; intros [e E]; discriminate.
  - split; eauto.
Qed.

Lemma resolve_builder_order qs qs' :
  same_elements qs qs' ->
  resolve_builder_qualified_path stubs limit qs = resolve_builder_qualified_path stubs limit qs'
  \/ (exists e e', resolve_builder_qualified_path stubs limit qs = Throws e
        /\ resolve_builder_qualified_path stubs limit qs' = Throws e').
Proof.
  intros Hs.
  assert (Ht : (exists e, resolve_builder_qualified_path stubs limit qs = Throws e)
               <-> exists e, resolve_builder_qualified_path stubs limit qs' = Throws e).
  { rewrite !resolve_builder_throws. split; intros (q & e & Hq & E); exists q, e; (split; [now apply Hs | exact E]). }
  assert (Hall : (forall e, resolve_builder_qualified_path stubs limit qs <> Throws e) ->
                 forall q, In q qs -> exists b, builder_of q = Return b).
  { intros Hno q Hq. destruct (builder_of q) as [b| |e] eqn:E; [eauto| |].
    - unfold to_class_builder_qualified_path in E. destruct (to_mro stubs limit q). now apply first_builder_not_found in E.
    - destruct (proj2 (resolve_builder_throws qs)) as [e' He']; [eauto|]. now apply Hno in He'. }
  destruct (resolve_builder_qualified_path stubs limit qs) as [b| |e] eqn:E1.
  3:{ right. destruct (proj1 Ht (ex_intro _ e eq_refl)) as [e' He']. eauto. }
  all: left; specialize (Hall ltac:(discriminate));
    pose proof (resolve_builder_choice _ Hall) as C1; rewrite E1 in C1;
    assert (Hall' : forall q, In q qs' -> exists b, builder_of q = Return b) by (intros q Hq; apply Hall, Hs, Hq);
    pose proof (resolve_builder_choice _ Hall') as C2;
    assert (Eb : forall x, builds qs x <-> builds qs' x)
      by (intros x; split; intros (q & Hq & E); exists q; (split; [now apply Hs | exact E]));
    apply (@choice_ext _ _ _ Eb) in C1;
    destruct (resolve_builder_qualified_path stubs limit qs') as [b'| |e']; auto; try easy;
    apply (choice_fun C1) in C2; congruence.
Qed.
End Choice.
End Mro.
