(** Proofs about which lookups end (C38) *)
From Verif Require Import Base Scoping SpecScoping ScopingProofs SpecLookups.

Definition resolve_at (db : database) (f : nat) (x : lookup) : resolution :=
  let '(m, parent, o, v) := x in resolve_object_path db f m parent o v.
Definition ended (db : database) (x : lookup) : Prop :=
  let '(m, parent, o, v) := x in terminates db m parent o v.
Notation endless := (Raises RecursionError).

Lemma resolves_at db f m parent o v r : resolves db m parent o v r ->
  resolve_object_path db f m parent o v = r \/ resolve_object_path db f m parent o v = endless.
Proof.
  intros [Hr [n H]]. destruct (resolve_object_path db f m parent o v) as [q| |e] eqn:E.
  - left. rewrite <- (H (max n f)) by lia. symmetry. now apply resolve_more with (f := f); [lia| |].
  - left. rewrite <- (H (max n f)) by lia. symmetry. now apply resolve_more with (f := f); [lia| |].
  - destruct e; try (left; rewrite <- (H (max n f)) by lia; symmetry; now apply resolve_more with (f := f); [lia| |]).
    now right.
Qed.
Lemma try_each_stuck {A} (g : A -> resolution) before x after otherwise :
  (forall y, In y before -> g y = ObjectNotFound \/ g y = endless) -> g x = endless ->
  try_each g (before ++ x :: after) otherwise = endless.
Proof.
  intros H E. induction before as [|y before IH]; cbn; [now rewrite E|].
  destruct (H y (or_introl eq_refl)) as [-> | ->]; [|reflexivity]. apply IH. intros z Hz. apply H. now right.
Qed.
Lemma try_each_stuck_after {A} (g : A -> resolution) xs otherwise :
  (forall y, In y xs -> g y = ObjectNotFound \/ g y = endless) -> otherwise = endless ->
  try_each g xs otherwise = endless.
Proof.
  intros H E. induction xs as [|y xs IH]; cbn; [exact E|].
  destruct (H y (or_introl eq_refl)) as [-> | ->]; [|reflexivity]. apply IH. intros z Hz. apply H. now right.
Qed.
Lemma skipped_at db f m o v s : skipped db m o v s ->
  (if negb (mem s v) then resolve_object_path db f s [] o (v ++ [m]) else ObjectNotFound) = ObjectNotFound
  \/ (if negb (mem s v) then resolve_object_path db f s [] o (v ++ [m]) else ObjectNotFound) = endless.
Proof.
  intros [H|H].
  - apply mem_In in H. rewrite H. now left.
  - destruct (mem s v); [now left|]. exact (@resolves_at db f _ _ _ _ _ H).
Qed.
Lemma via_tables_at db rec m o v k q :
  0 < k <= length o -> reference db m (firstn k o) = Some q ->
  (forall j, k < j <= length o -> reference db m (firstn j o) = None) ->
  via_tables db rec m o v = via_reference db rec m q (skipn k o) v.
Proof.
  intros Hk Hq Hlong. destruct (@reference_Some _ _ _ _ Hq) as (refs & Em & Ek). unfold via_tables. rewrite Em.
  rewrite (@longest_reference_at refs o (length o) k q); [reflexivity|exact Hk|exact Ek|].
  intros j Hj. rewrite <- (@reference_None _ _ _ _ Em). now apply Hlong.
Qed.

(** What cannot be answered at a limit makes what needs it unanswerable. *)
Lemma stuck db f y x : leads db y x -> resolve_at db f y = endless -> resolve_at db (S f) x = endless.
Proof.
  intros L. unfold resolve_at at 2.
  destruct L as [m parent n rest v Hp Hd|m parent n mid a rest v before b after Hp He Hd Hn Hb HB|m parent n mid a rest v Hp He Hd Hn HB Ho
    |m parent n rest v before s after Hp He Hn Hs HB Hv|m parent n rest v k q Hp He Hn HS Hk Hq Hl|m parent n rest v k q q' Hp He Hn HS Hk Hq Hl Hr];
    cbn [resolve_at]; intros E; rewrite resolve_S.
  - pose proof (defined_prefix _ _ Hd) as (s & Hm & Hq). unfold body. rewrite Hm. apply contains_has_path in Hq. rewrite Hq.
    apply (@defined_contains _ _ _ _ Hm) in Hd. rewrite Hd. destruct parent; [contradiction|]. exact E.
  - rewrite body_unenclosed by assumption. change (n :: mid ++ a :: rest) with ((n :: mid) ++ a :: rest).
    rewrite body_bases; [|discriminate|assumption|assumption]. unfold via_bases.
    match goal with |- try_each _ ?l _ = _ => replace l with (before ++ b :: after) by (symmetry; exact Hb) end. apply try_each_stuck; [|exact E].
    intros y Hy. exact (@resolves_at db f _ _ _ _ _ (HB y Hy)).
  - rewrite body_unenclosed by assumption. change (n :: mid ++ a :: rest) with ((n :: mid) ++ a :: rest).
    rewrite body_bases; [|discriminate|assumption|assumption]. unfold via_bases. apply try_each_stuck_after.
    + intros y Hy. exact (@resolves_at db f _ _ _ _ _ (HB y Hy)).
    + cbn [hd]. apply eqb_neq in Ho. rewrite Ho. exact E.
  - rewrite body_unenclosed by assumption. rewrite body_stars; [|now apply defined_known in Hp|assumption]. unfold via_stars. rewrite Hs.
    apply try_each_stuck; [intros y Hy; now apply skipped_at, HB|]. apply mem_not_In in Hv. rewrite Hv. exact E.
  - rewrite body_unenclosed by assumption. rewrite body_stars; [|now apply defined_known in Hp|assumption]. unfold via_stars.
    apply try_each_stuck_after; [intros y Hy; now apply skipped_at, HS|].
    rewrite (@via_tables_at db (resolve_object_path db f) m (n :: rest) v k q Hk Hq Hl). unfold via_reference. now rewrite E.
  - rewrite body_unenclosed by assumption. rewrite body_stars; [|now apply defined_known in Hp|assumption]. unfold via_stars.
    apply try_each_stuck_after; [intros y Hy; now apply skipped_at, HS|].
    rewrite (@via_tables_at db (resolve_object_path db f) m (n :: rest) v k q Hk Hq Hl). unfold via_reference. destruct Hr as [Hr|(Hr & L1 & K & ->)].
    + destruct (@resolves_at db f _ _ _ _ _ Hr) as [-> | ->]; [exact E|reflexivity].
    + destruct (@resolves_at db f _ _ _ _ _ Hr) as [-> | ->]; [|reflexivity]. rewrite L1. change (negb (1 == 1)) with false. apply dmem_In in K.
      match goal with |- context [dmem ?a ?b] => replace (dmem a b) with true by (symmetry; exact K) end. exact E.
Qed.
Lemma unstuck_acc db f : forall x, resolve_at db f x <> endless -> Acc (leads db) x.
Proof.
  induction f as [|f IH]; intros x H; [exfalso; apply H; now destruct x as [[[m p] o] v]|].
  constructor. intros y L. apply IH. intros E. apply H. exact (@stuck db f y x L E).
Qed.
Lemma ended_acc db x : ended db x -> Acc (leads db) x.
Proof.
  destruct x as [[[m p] o] v]. cbn [ended]. intros H. apply terminates_iff in H. destruct H as [f H]. exact (@unstuck_acc db f (m, p, o, v) H).
Qed.

(** The other way round *)
Lemma each_in_turn {A} (R : A -> resolution -> Prop) xs :
  (forall before x after, xs = before ++ x :: after -> (forall y, In y before -> R y ObjectNotFound) -> exists r, R x r) ->
  (forall x, In x xs -> R x ObjectNotFound)
  \/ exists before x after r, xs = before ++ x :: after /\ (forall y, In y before -> R y ObjectNotFound) /\ R x r /\ r <> ObjectNotFound.
Proof.
  intros H.
  assert (G : forall l before, xs = before ++ l -> (forall y, In y before -> R y ObjectNotFound) ->
    (forall x, In x xs -> R x ObjectNotFound)
    \/ exists before x after r, xs = before ++ x :: after /\ (forall y, In y before -> R y ObjectNotFound) /\ R x r /\ r <> ObjectNotFound).
  { induction l as [|x l IHl]; intros before E HB.
    - left. intros y Hy. rewrite E, app_nil_r in Hy. now apply HB.
    - destruct (H before x l E HB) as [r Hr]. assert (D : r = ObjectNotFound \/ r <> ObjectNotFound) by (destruct r; auto; right; discriminate).
      destruct D as [->|D]; [|right; now exists before, x, l, r].
      apply (IHl (before ++ [x])); [now rewrite <- app_assoc|].
      intros y Hy. apply in_app_or in Hy. destruct Hy as [Hy|[<-|[]]]; auto. }
  apply (G xs []); [reflexivity|]. now intros y [].
Qed.
Lemma acc_ended db x : Acc (leads db) x -> ended db x.
Proof.
  induction 1 as [[[[m parent] o] v] _ IH]. cbn [ended].
  assert (IH' : forall m' p' o' v', leads db (m', p', o', v') (m, parent, o, v) -> exists r, resolves db m' p' o' v' r).
  { intros m' p' o' v' L. exact (IH (m', p', o', v') L). }
  clear IH. rename IH' into IH.
  destruct (dget m (definitions db)) as [defs|] eqn:Em.
  2: { exists ObjectNotFound. apply resolves_body; [discriminate|]. exists 0. intros f _. unfold body. now rewrite Em. }
  destruct o as [|n rest].
  { exists (Resolved (m, [])). apply resolves_body; [discriminate|]. exists 0. intros f _. unfold body. now rewrite Em. }
  destruct (scope_contains_path defs parent) eqn:Cp.
  2: { exists (Raises AssertionError). apply resolves_body; [discriminate|]. exists 0. intros f _. unfold body. now rewrite Em, Cp. }
  apply (@defined_contains _ _ _ _ Em) in Cp.
  assert (He : (parent <> [] /\ defined db m (parent ++ [n])) \/ not_enclosed db m parent n).
  { destruct parent as [|p parent]; [right; now left|].
    destruct (scope_contains_path defs ((p :: parent) ++ [n])) eqn:Ce; [left|right; right].
    - split; [discriminate|]. now apply (@defined_contains _ _ _ _ Em).
    - intros D. apply (@defined_contains _ _ _ _ Em) in D. congruence. }
  destruct He as [[Hp Hd]|He].
  { destruct (IH _ _ _ _ (@le_enclosing db m parent n rest v Hp Hd)) as [r Hr]. exists r. now apply resolves_enclosed. }
  enough (X : exists r, resolves db m [] (n :: rest) v r) by (destruct X as [r Hr]; exists r; now apply resolves_unenclosed).
  destruct (dget n (entries defs)) as [s|] eqn:En.
  - destruct (first_missing s [n] rest) as [[sub remaining]|] eqn:Ef.
    2: { exists (Resolved (m, n :: rest)). apply resolves_defined. apply (@defined_contains _ _ _ _ Em). cbn. rewrite En. now apply first_missing_None in Ef. }
    destruct (first_missing_Some _ _ _ Ef) as (mid & a & after & -> & -> & -> & H1 & H2).
    assert (D1 : defined db m (n :: mid)) by (apply (@defined_contains _ _ _ _ Em); cbn; now rewrite En).
    assert (D2 : ~ defined db m (n :: mid ++ [a])).
    { intros D. apply (@defined_contains _ _ _ _ Em) in D. cbn in D. rewrite En in D. congruence. }
    destruct (@each_in_turn _ (fun b : qualified_path => resolves db (fst b) [] (snd b ++ a :: after) (v ++ [m])) (bases db (m, n :: mid)))
      as [HA|(before & b & later & r & Hb & HB & Hr & Hn)].
    { intros before b later Hb HB. apply IH. eapply le_base; eassumption. }
    + destruct (eqb_reflect n object_name) as [Eo|Eo].
      * exists ObjectNotFound. apply (@resolves_object db m (n :: mid) a after v); [discriminate|exact D1|exact D2|exact HA|now left].
      * destruct (IH _ _ _ _ (@le_object db m parent n mid a after v Cp He D1 D2 HA Eo)) as [r Hr]. exists r.
        apply (@resolves_object db m (n :: mid) a after v); [discriminate|exact D1|exact D2|exact HA|now right].
    + exists r. apply (@resolves_base db m (n :: mid) a after v before b later r); [discriminate|exact D1|exact D2|exact Hb|exact HB|exact Hr|exact Hn].
  - assert (Hm : known db m) by (apply dget_Some_In in Em; apply in_map_iff; now exists (m, defs)).
    assert (D : ~ defined db m [n]).
    { intros D. apply (@defined_contains _ _ _ _ Em) in D. cbn in D. now rewrite En in D. }
    destruct (@each_in_turn _ (fun s r => In s v /\ r = ObjectNotFound \/ ~ In s v /\ resolves db s [] (n :: rest) (v ++ [m]) r) (star_imports db m))
      as [HA|(before & s & later & r & Hs & HB & Hr & Hn)].
    { intros before s later Hs HB. destruct (mem s v) eqn:Ev.
      - apply mem_In in Ev. exists ObjectNotFound. now left.
      - apply mem_not_In in Ev.
        assert (HB' : forall y, In y before -> skipped db m (n :: rest) v y).
        { intros y Hy. destruct (HB y Hy) as [[I _]|[_ R]]; [now left|now right]. }
        destruct (IH _ _ _ _ (@le_star db m parent n rest v before s later Cp He D Hs HB' Ev)) as [r Hr].
        exists r. now right. }
    2: { destruct Hr as [[_ ->]|[Hv Hr]]; [contradiction|]. exists r. eapply resolves_star; try eassumption.
         intros y Hy. destruct (HB y Hy) as [[I _]|[_ R]]; [now left|now right]. }
    assert (HS : forall s, In s (star_imports db m) -> skipped db m (n :: rest) v s).
    { intros s Hs. destruct (HA s Hs) as [[I _]|[_ R]]; [now left|now right]. }
    destruct (dget m (references db)) as [refs|] eqn:Er.
    2: { exists (Raises KeyError). apply resolves_tables; [exact Hm|exact D|exact HS|discriminate|]. exists 0. intros f _. unfold via_tables. now rewrite Er. }
    destruct (longest_reference refs (n :: rest) (length (n :: rest))) as [[q remaining]|] eqn:El.
    2: { eexists. apply resolves_tables; [exact Hm|exact D|exact HS| |].
         2: { exists 0. intros f _. unfold via_tables. rewrite Er, El. reflexivity. }
         unfold via_builtins. destruct (dget builtins_path (definitions db)) as [s|]; [|discriminate].
         now destruct (scope_contains_path s (n :: rest)). }
    destruct (longest_reference_Some _ _ _ El) as (k & Hk & Hq & -> & Hl).
    assert (Hq' : reference db m (firstn k (n :: rest)) = Some q) by now rewrite (@reference_None _ _ _ _ Er).
    assert (Hl' : forall j, k < j <= length (n :: rest) -> reference db m (firstn j (n :: rest)) = None).
    { intros j Hj. rewrite (@reference_None _ _ _ _ Er). now apply Hl. }
    destruct (IH _ _ _ _ (@le_referent db m parent n rest v k q Cp He D HS Hk Hq' Hl')) as [r Hr].
    assert (G : (exists q', referent db q (v ++ [m]) q') \/
      exists e, e <> endless /\ (exists j, forall f, j <= f -> via_tables db (resolve_object_path db f) m (n :: rest) v = e)).
    { assert (V : forall f, via_tables db (resolve_object_path db f) m (n :: rest) v
                   = via_reference db (resolve_object_path db f) m q (skipn k (n :: rest)) v) by (intros f; now apply via_tables_at).
      destruct Hr as [Hr [j Hj]]. destruct r as [q'| |e].
      - left. exists q'. left. split; [exact Hr|now exists j].
      - destruct (Nat.eq_dec (length (snd q)) 1) as [L1|L1].
        + destruct (dmem (fst q ++ snd q) (definitions db)) eqn:Ek.
          * left. exists (fst q ++ snd q, []). right. split; [split; [exact Hr|now exists j]|]. split; [exact L1|]. split; [now apply dmem_In|reflexivity].
          * right. exists (Raises AssertionError). split; [discriminate|]. exists j. intros f Hf. rewrite V. unfold via_reference. rewrite Hj by exact Hf. now rewrite L1, Ek.
        + right. exists (Raises AssertionError). split; [discriminate|]. exists j. intros f Hf. rewrite V. unfold via_reference. rewrite Hj by exact Hf.
          apply eqb_neq in L1. now rewrite L1.
      - right. exists (Raises e). split; [exact Hr|]. exists j. intros f Hf. rewrite V. unfold via_reference. now rewrite Hj. }
    destruct G as [[q' Q]|(e & He' & Hj)]; [|exists e; now apply resolves_tables].
    destruct (IH _ _ _ _ (@le_continue db m parent n rest v k q q' Cp He D HS Hk Hq' Hl' Q)) as [r' Hr'].
    exists r'. eapply resolves_reference; eassumption.
Qed.
Lemma for_ever_endless db (P : lookup -> Prop) : (forall x, P x -> exists y, P y /\ leads db y x) ->
  forall f x, P x -> resolve_at db f x = endless.
Proof.
  intros H. induction f as [|f IH]; intros x Hx; [now destruct x as [[[m p] o] v]|].
  destruct (H x Hx) as (y & Hy & L). exact (@stuck db f y x L (IH y Hy)).
Qed.
