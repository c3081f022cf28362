(** C84: the parser of stubs and the resolver agree on names. *)
From Verif Require Import Base Ast Scoping SpecScoping ScopingProofs Stubs SpecStubs SpecNames.
Set Implicit Arguments.

Lemma starred_trans st a b c : starred st a b -> starred st b c -> starred st a c.
Proof. induction 1 as [|a a' b H _ IH]; intros K; [exact K|]. eapply st_step; eauto. Qed.
Lemma no_way_back st m s : no_cycle st m -> In s (star_imports (db st) m) -> ~ starred st s m.
Proof.
  intros A. revert s. induction A as [m _ IH]. intros s Hs H. inversion H as [|? s' ? Hs' H']; subst.
  - exact (IH m Hs m Hs (st_self st m)).
  - apply (IH s Hs s' Hs'). apply starred_trans with (b := m); [exact H'|]. eapply st_step; [exact Hs|constructor].
Qed.
Section Agreement.
Variable st : state.
Notation d := (db st).
Hypothesis HB : known d builtins_path.
(** Modules visited are not met again. *)
Definition fresh (v : list path) (m : path) : Prop := forall x, In x v -> ~ starred st m x.
Lemma fresh_next v m s : no_cycle st m -> fresh v m -> In s (star_imports d m) -> fresh (v ++ [m]) s /\ ~ In s v.
Proof.
  intros A F Hs. split.
  - intros x Hx H. apply in_app_or in Hx. destruct Hx as [Hx|[<-|[]]].
    + apply (F x Hx). eapply st_step; eauto.
    + now apply (@no_way_back st m s A Hs).
  - intros Hx. apply (F s Hx). eapply st_step; [exact Hs|constructor].
Qed.
Lemma reads_next m s : all_read st m -> In s (star_imports d m) -> all_read st s.
Proof. intros R Hs x Hx. apply R. eapply st_step; eauto. Qed.
Lemma cycle_next m s : no_cycle st m -> In s (star_imports d m) -> no_cycle st s.
Proof. intros [A] Hs. now apply A. Qed.
Lemma direct_next m s o : imports_direct st m o -> In s (star_imports d m) -> imports_direct st s o.
Proof. intros D Hs x q rest Hx. apply D. eapply st_step; eauto. Qed.
Lemma known_defined m : known d m -> defined d m [].
Proof.
  intros H. destruct (dget m (definitions d)) as [s|] eqn:E; [exists s; split; [exact E|constructor]|].
  apply dget_None in E. contradiction.
Qed.
Lemma not_imported_firstn m n r : not_imported st m (n :: r) ->
  forall k, 0 < k <= length (n :: r) -> reference d m (firstn k (n :: r)) = None.
Proof.
  intros H k Hk. apply (H (firstn k (n :: r)) (skipn k (n :: r))); [destruct k; [lia|discriminate]|symmetry; apply firstn_skipn].
Qed.

Definition answer (o : path) (q q' : qualified_path) : Prop := leads_to d q q' \/ length o = 1 /\ refers_to d q q'.
Lemma answer_defined o m p q' : defined d m p -> answer o (m, p) q' -> q' = (m, p).
Proof.
  intros D [H|[_ H]]; specialize (H []).
  - pose proof (resolves_unique (resolves_defined [] D) H). congruence.
  - destruct H as [H|(H & _)]; pose proof (resolves_unique (resolves_defined [] D) H); [congruence|discriminate].
Qed.

Lemma agreement m parent o r : found (fun _ => False) st m parent o r ->
  forall v, all_read st m -> no_cycle st m -> defined d m parent -> imports_direct st m o -> fresh v m ->
  match r with
  | None => resolves d m parent o v ObjectNotFound
  | Some q => forall q', answer o q q' -> resolves d m parent o v (Resolved q')
  end.
Proof.
  assert (NE : forall m parent n, undefined_in st m parent n -> not_enclosed d m parent n) by (intros m0 p n [A _]; now right).
  induction 1 as [m parent n r Hm D|m parent n r Hm D1 D2|m parent n r before s aft q Hm HU HS HF IHB _ IH|m parent n r q rest Hm HU HF IHS HI
                 |m parent n r Hm HU HF IHS HN HD|m parent n r Hm HU HF IHS HN HD|m parent o HG]; [| | | | | |contradiction];
    intros v RD NC DP DI FR;
    (destruct (RD m (st_self st m)) as (_ & KM & RM)).
  - intros q' A. destruct parent as [|c parent].
    + destruct A as [A|[L A]]; [apply A|]. destruct r; [|discriminate L].
      rewrite (answer_defined (o := [n]) D (or_intror (conj eq_refl A))). now apply resolves_defined.
    + apply resolves_enclosed; [discriminate|exact D|]. destruct A as [A|[L A]]; [apply A|]. destruct r; [|discriminate L].
      rewrite (answer_defined (o := [n]) D (or_intror (conj eq_refl A))). now apply resolves_defined.
  - intros q' A. apply resolves_unenclosed; [exact DP|now right|]. destruct A as [A|[L A]]; [apply A|]. destruct r; [|discriminate L].
    rewrite (answer_defined (o := [n]) D2 (or_intror (conj eq_refl A))). now apply resolves_defined.
  - intros q' A. apply resolves_unenclosed; [exact DP|now apply NE|].
    assert (Hs : In s (star_imports d m)) by (rewrite HS; apply in_or_app; right; now left).
    assert (Hb : forall b, In b before -> In b (star_imports d m)) by (intros b Hb; rewrite HS; apply in_or_app; now left).
    assert (KN : forall x, In x (star_imports d m) -> defined d x []).
    { intros x Hx. apply known_defined. apply (RD x). eapply st_step; [exact Hx|constructor]. }
    destruct (@fresh_next v m s NC FR Hs) as [F1 F2].
    eapply resolves_star; [exact KM|apply HU|exact HS| |exact F2| |discriminate].
    + intros b Hb'. right. destruct (@fresh_next v m b NC FR (Hb b Hb')) as [G1 _].
      apply (IHB b Hb'); [eapply reads_next; eauto|eapply cycle_next; eauto|apply KN; auto|eapply direct_next; eauto|exact G1].
    + apply IH; [eapply reads_next; eauto|eapply cycle_next; eauto|apply KN; auto|eapply direct_next; eauto|exact F1|exact A].
  - intros q' A. apply resolves_unenclosed; [exact DP|now apply NE|].
    pose proof (DI m q rest (st_self st m) HI) as DQ.
    destruct HI as (p & Hp & Ho & HR & HL).
    assert (Ep : p = firstn (length p) (n :: r)) by (rewrite Ho, firstn_app, Nat.sub_diag, firstn_all, firstn_O; now rewrite app_nil_r).
    assert (Er : rest = skipn (length p) (n :: r)) by (rewrite Ho, skipn_app, skipn_all, Nat.sub_diag; reflexivity).
    assert (LP : 0 < length p <= length (n :: r)).
    { rewrite Ho, app_length. destruct p; [congruence|]. cbn. lia. }
    assert (SK : forall s, In s (star_imports d m) -> skipped d m (n :: r) v s).
    { intros s Hs. right. destruct (@fresh_next v m s NC FR Hs) as [G1 _].
      apply (IHS s Hs); [eapply reads_next; eauto|eapply cycle_next; eauto| |eapply direct_next; eauto|exact G1].
      apply known_defined. apply (RD s). eapply st_step; [exact Hs|constructor]. }
    assert (HR' : reference d m (firstn (length p) (n :: r)) = Some q) by (now rewrite <- Ep).
    assert (HL' : forall j, length p < j <= length (n :: r) -> reference d m (firstn j (n :: r)) = None).
    { intros j Hj. apply (HL _ (skipn j (n :: r))); [symmetry; apply firstn_skipn|]. rewrite firstn_length. lia. }
    assert (Fin : forall q1, resolves d (fst q1) [] (snd q1 ++ rest) (v ++ [m]) (Resolved q') -> referent d q (v ++ [m]) q1 ->
              resolves d m [] (n :: r) v (Resolved q')).
    { intros q1 H1 H2. eapply resolves_reference; [exact KM|apply HU|exact SK|exact LP|exact HR'|exact HL'|exact H2|]. now rewrite <- Er. }
    destruct rest as [|x rest].
    + rewrite app_nil_r in A. assert (A' : referent d q (v ++ [m]) q').
      { destruct A as [A|[_ A]]; [left; apply A|apply A]. }
      apply (Fin q'); [|exact A']. rewrite app_nil_r.
      assert (DQ' : defined d (fst q') (snd q')).
      { destruct A' as [(_ & k & A')|(_ & _ & A' & ->)]; [|now apply known_defined].
        specialize (A' k (le_n _)). destruct q'. now apply resolve_sound in A'. }
      destruct q'. now apply resolves_defined.
    + destruct DQ as [DQ|DQ]; [discriminate DQ|]. apply (Fin q).
      * destruct A as [A|[L _]]; [exact (A (v ++ [m]))|]. exfalso. rewrite Ho, app_length in L. destruct p; [congruence|]. cbn in L. lia.
      * left. destruct q. now apply resolves_defined.
  - intros q' A. apply resolves_unenclosed; [exact DP|now apply NE|]. rewrite (answer_defined (o := n :: r) HD A).
    eapply resolves_builtins; [exact KM|exact RM|apply HU| |apply not_imported_firstn, HN|exact HB|now left].
    intros s Hs. right. destruct (@fresh_next v m s NC FR Hs) as [G1 _].
    apply (IHS s Hs); [eapply reads_next; eauto|eapply cycle_next; eauto| |eapply direct_next; eauto|exact G1].
    apply known_defined. apply (RD s). eapply st_step; [exact Hs|constructor].
  - apply resolves_unenclosed; [exact DP|now apply NE|].
    eapply resolves_builtins; [exact KM|exact RM|apply HU| |apply not_imported_firstn, HN|exact HB|now right].
    intros s Hs. right. destruct (@fresh_next v m s NC FR Hs) as [G1 _].
    apply (IHS s Hs); [eapply reads_next; eauto|eapply cycle_next; eauto| |eapply direct_next; eauto|exact G1].
    apply known_defined. apply (RD s). eapply st_step; [exact Hs|constructor].
Qed.
End Agreement.
