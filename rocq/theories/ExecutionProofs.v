(** Proofs about _core/execution.py. *)
From Verif Require Import Base Execution SpecExecution.

Lemma put_same {A} (f : nat -> A) i a : put f i a i = a.
Proof. unfold put. now rewrite Nat.eqb_refl. Qed.
Lemma put_other {A} (f : nat -> A) i j a : j <> i -> put f i a j = f j.
Proof. unfold put. intros H. apply Nat.eqb_neq in H. now rewrite H. Qed.

Section Proofs.
Context {M V E : Type} (none : V) (calls : nat -> @call M V E) (lock_of : nat -> nat)
  (receive : @message V E -> @message V E + E).
Notation state := (@state M V E).
Notation advance := (@advance M V E calls lock_of receive).
Notation advance_child := (@advance_child M V E none calls).
Notation step := (@step M V E none calls lock_of receive).
Notation execution := (@execution M V E none calls lock_of receive).
Notation initial := (@initial M V E).
Notation execution_in := (@execution_in M V E none calls lock_of receive).
Notation one_at_a_time := (@one_at_a_time M V E).

(** What a thread alone in its call may rely on. *)
Definition local (original : option M) (i : nat) (s : state) : Prop :=
  match threads s i with
  | Saved old => old = original /\ main s = original /\ caller (calls i) <> None
  | Swapped old | Waiting old | Joining old _ | Restoring old _ =>
      old = original /\ main s = caller (calls i) /\ caller (calls i) <> None
  | _ => main s = original
  end.
Definition invariant (original : option M) (s : state) : Prop :=
  ((forall i, ~ inside (threads s i)) -> main s = original)
  /\ forall i, inside (threads s i) -> local original i s.

Ltac threads_at i j :=
  destruct (Nat.eq_dec j i) as [->|]; [rewrite put_same in *|rewrite put_other in * by assumption].

Lemma advance_child_threads i s s' : advance_child i s = Some s' ->
  threads s' = threads s /\ main s' = main s /\ held s' = held s.
Proof.
  unfold Execution.advance_child. destruct (children s i); try discriminate; [destruct (does (calls i))|];
    intros H; injection H as <-; auto.
Qed.
Lemma advance_threads i s s' : advance i s = Some s' -> exists t, threads s' = put (threads s) i t /\ ~ t = Ready.
Proof.
  unfold Execution.advance. destruct (threads s i) as [ | |old|old|old|old m|old o|o|o] eqn:T.
  - destruct (existsb _ _); [discriminate|]. intros H. injection H as <-. cbn. eexists. split; [reflexivity|discriminate].
  - destruct (caller (calls i)); intros H; injection H as <-; cbn; eexists; (split; [reflexivity|discriminate]).
  - intros H; injection H as <-; cbn; eexists; (split; [reflexivity|discriminate]).
  - destruct (start_error (calls i)); intros H; injection H as <-; cbn; eexists; (split; [reflexivity|discriminate]).
  - destruct (queues s i) as [m|]; [|discriminate]. destruct (receive m); intros H; injection H as <-; cbn; eexists; (split; [reflexivity|discriminate]).
  - destruct (children s i); try discriminate. intros H; injection H as <-; cbn; eexists; (split; [reflexivity|discriminate]).
  - destruct old; [|destruct (main s)]; intros H; injection H as <-; cbn; eexists; (split; [reflexivity|discriminate]).
  - intros H; injection H as <-; cbn; eexists; (split; [reflexivity|discriminate]).
  - discriminate.
Qed.

Lemma invariant_step original s s' :
  one_at_a_time s -> one_at_a_time s' -> invariant original s -> step s s' -> invariant original s'.
Proof.
  intros O O' [I1 I2] H. destruct H as [i s' H|i s' H].
  2:{ destruct (advance_child_threads _ _ _ H) as (A & B & _). unfold invariant, local. rewrite A, B. split; assumption. }
  destruct (advance_threads _ _ _ H) as (t & A & _).
  assert (X : forall j, j <> i -> ~ (inside (threads s j) /\ (inside (threads s i) \/ inside t))).
  { intros j Hj [Hi [Hi'|Hi']]; apply Hj; [now apply O|]. apply O'; rewrite A; [now rewrite put_other|now rewrite put_same]. }
  assert (Outside : ~ inside (threads s i) -> inside t -> main s = original).
  { intros N Ht. apply I1. intros j Hj. destruct (Nat.eq_dec j i) as [->|Hn]; [now apply N|]. apply (X j Hn). auto. }
  assert (L : inside (threads s i) -> local original i s) by apply I2.
  unfold local in L.
  assert (Goal_ : local original i s').
  { unfold local. rewrite A, put_same. unfold Execution.advance in H.
    destruct (threads s i) as [ | |old|old|old|old m|old o|o|o] eqn:T; cbn in L, Outside.
    - destruct (existsb _ _); [discriminate|]. injection H as <-. cbn in A |- *.
      assert (t = Locked) as -> by (apply (f_equal (fun f => f i)) in A; now rewrite !put_same in A). apply Outside; [easy|exact I].
    - destruct (caller (calls i)) eqn:C; injection H as <-; cbn in A |- *;
        apply (f_equal (fun f => f i)) in A; rewrite !put_same in A; subst t; cbn; specialize (L I); [|exact L].
      split; [|split]; auto; try (rewrite C); discriminate.
    - injection H as <-. cbn in A |- *. apply (f_equal (fun f => f i)) in A; rewrite !put_same in A; subst t. cbn.
      destruct (L I) as (? & ? & ?). auto.
    - destruct (start_error (calls i)); injection H as <-; cbn in A |- *;
        apply (f_equal (fun f => f i)) in A; rewrite !put_same in A; subst t; cbn; auto.
    - destruct (queues s i) as [m|]; [|discriminate]. destruct (receive m); injection H as <-; cbn in A |- *;
        apply (f_equal (fun f => f i)) in A; rewrite !put_same in A; subst t; cbn; auto.
    - destruct (children s i); try discriminate; injection H as <-; cbn in A |- *;
        apply (f_equal (fun f => f i)) in A; rewrite !put_same in A; subst t; cbn; auto.
    - destruct (L I) as (-> & Hm & Hc). destruct original as [m|].
      + injection H as <-; cbn in A |- *. apply (f_equal (fun f => f i)) in A; rewrite !put_same in A; now subst t.
      + destruct (main s) eqn:Em; [|now rewrite <- Hm in Hc].
        injection H as <-; cbn in A |- *. apply (f_equal (fun f => f i)) in A; rewrite !put_same in A; now subst t.
    - injection H as <-; cbn in A |- *. apply (f_equal (fun f => f i)) in A; rewrite !put_same in A; subst t. auto.
    - discriminate. }
  split.
  - intros N. unfold local in Goal_. specialize (N i). destruct (threads s' i); cbn in N; try tauto.
  - intros j Hj. destruct (Nat.eq_dec j i) as [->|Hn]; [exact Goal_|]. rewrite A, put_other in Hj by assumption.
    assert (Hnow : ~ inside (threads s i)) by (intros Hi; apply (X j Hn); auto).
    assert (Ht : ~ inside t) by (intros Hi; apply (X j Hn); auto).
    exfalso. unfold Execution.advance in H.
    destruct (threads s i); cbn in Hnow; try tauto; [|discriminate].
    destruct (existsb _ _); [discriminate|]. injection H as <-. cbn in A.
    apply (f_equal (fun f => f i)) in A. rewrite !put_same in A. subst t. exact (Ht I).
Qed.

Lemma execution_in_last P s s' : execution_in P s s' -> P s'.
Proof. now intros []. Qed.
Lemma invariant_initial original : invariant original (initial original).
Proof. split; [reflexivity|intros i []]. Qed.
Lemma invariant_holds original s : execution_in one_at_a_time (initial original) s -> invariant original s.
Proof.
  induction 1 as [|s1 s2 E1 IH S O]; [apply invariant_initial|].
  eapply invariant_step; [eapply execution_in_last; exact E1|exact O|exact IH|exact S].
Qed.

(** With one lock for all calls, one call runs at a time. *)
Definition exclusive (s : state) : Prop :=
  one_at_a_time s /\ ((exists i, inside (threads s i)) -> held s <> []).
Lemma exclusive_step l s s' : (forall i, lock_of i = l) ->
  exclusive s /\ (forall x, In x (held s) -> x = l) -> step s s' -> exclusive s' /\ (forall x, In x (held s') -> x = l).
Proof.
  intros L [[O H] A] [i s1 S|i s1 S].
  2:{ destruct (advance_child_threads _ _ _ S) as (B & _ & C). unfold exclusive, one_at_a_time. rewrite B, C. auto. }
  assert (K : forall t, threads s1 = put (threads s) i t -> inside (threads s i) -> held s1 = held s ->
              exclusive s1 /\ (forall x, In x (held s1) -> x = l)).
  { intros t Ht Hi Hh. rewrite Hh. split; [|exact A]. split; [|intros _; rewrite Hh; apply H; eauto].
    intros j k. rewrite Ht.
    destruct (Nat.eq_dec j i) as [->|Hj]; [rewrite put_same|rewrite put_other by assumption];
    (destruct (Nat.eq_dec k i) as [->|Hk]; [rewrite put_same|rewrite put_other by assumption]); auto. }
  unfold Execution.advance in S. destruct (threads s i) as [ | |old|old|old|old m|old o|o|o] eqn:T.
  - destruct (existsb (Nat.eqb (lock_of i)) (held s)) eqn:X; [discriminate|]. injection S as <-.
    assert (N : forall j, ~ inside (threads s j)).
    { intros j Hj. assert (Hh : held s <> []) by eauto. destruct (held s) as [|x r]; [easy|].
      assert (x = l) as -> by (apply A; now left). cbn in X. rewrite L, Nat.eqb_refl in X. discriminate. }
    split.
    + split; [|cbn; discriminate]. intros j k. cbn.
      destruct (Nat.eq_dec j i) as [->|Hj]; [rewrite put_same|rewrite put_other by assumption; intros Y; now destruct (N j)].
      destruct (Nat.eq_dec k i) as [->|Hk]; [rewrite put_same|rewrite put_other by assumption; intros _ Y; now destruct (N k)]. auto.
    + cbn. intros x [<-|Hx]; auto.
  - destruct (caller (calls i)); injection S as <-; eapply K; try reflexivity; exact I.
  - injection S as <-; eapply K; try reflexivity; exact I.
  - destruct (start_error (calls i)); injection S as <-; eapply K; try reflexivity; exact I.
  - destruct (queues s i) as [m|]; [|discriminate]. destruct (receive m); injection S as <-; eapply K; try reflexivity; exact I.
  - destruct (children s i); try discriminate; injection S as <-; eapply K; try reflexivity; exact I.
  - destruct old; [|destruct (main s)]; injection S as <-; eapply K; try reflexivity; exact I.
  - injection S as <-.
    assert (N : forall j, inside (put (threads s) i (Finished o) j) -> False).
    { intros j. destruct (Nat.eq_dec j i) as [->|Hj]; [now rewrite put_same|rewrite put_other by assumption]. intros Y.
      apply Hj. apply O; [exact Y|]. now rewrite T. }
    split; [split|].
    + intros j k Hj. exfalso. eapply N. exact Hj.
    + intros [j Hj]. exfalso. eapply N. exact Hj.
    + cbn. intros x Hx. apply filter_In in Hx. now apply A.
  - discriminate.
Qed.
Lemma shared_lock_exclusive l original s : (forall i, lock_of i = l) ->
  execution (initial original) s -> execution_in one_at_a_time (initial original) s.
Proof.
  intros L H.
  assert (K : execution_in one_at_a_time (initial original) s /\ exclusive s /\ (forall x, In x (held s) -> x = l)); [|now apply K].
  induction H as [|s1 s2 E1 (IH1 & IH2) S].
  - assert (O : one_at_a_time (initial original)) by (intros i j []). split; [now constructor|]. split; [split; [exact O|intros [i []]]|intros x []].
  - pose proof (exclusive_step l _ _ L IH2 S) as IH. split; [|exact IH]. econstructor; eauto. apply IH.
Qed.

(** ** Whatever the interleaving *)
(** Everything that may be the main module. *)
Definition olds (t : @thread M V E) : list (option M) :=
  match t with
  | Saved old | Swapped old | Waiting old | Joining old _ | Restoring old _ => [old]
  | _ => []
  end.
Definition possible (original : option M) (m : option M) : Prop :=
  m = original \/ exists i, caller (calls i) <> None /\ m = caller (calls i).
Definition bounded original (s : state) : Prop :=
  possible original (main s)
  /\ forall i, (match threads s i with
                | Saved old | Swapped old | Waiting old | Joining old _ | Restoring old _ =>
                    possible original old /\ caller (calls i) <> None
                | _ => True
                end).
Lemma bounded_step original s s' : original <> None -> bounded original s -> step s s' -> bounded original s'.
Proof.
  intros HO [B1 B2] [i s1 S|i s1 S].
  2:{ destruct (advance_child_threads _ _ _ S) as (A & B & _). unfold bounded. now rewrite A, B. }
  assert (K : forall t, threads s1 = put (threads s) i t -> possible original (main s1) ->
     match t with
     | Saved old | Swapped old | Waiting old | Joining old _ | Restoring old _ =>
         possible original old /\ caller (calls i) <> None
     | _ => True
     end -> bounded original s1).
  { intros t Ht Hm H. split; [exact Hm|]. intros j. rewrite Ht.
    destruct (Nat.eq_dec j i) as [->|Hj]; [now rewrite put_same|rewrite put_other by assumption; apply B2]. }
  pose proof (B2 i) as Bi. unfold Execution.advance in S.
  destruct (threads s i) as [ | |old|old|old|old m|old o|o|o] eqn:T.
  - destruct (existsb _ _); [discriminate|]. injection S as <-. eapply K; [reflexivity|auto|exact I].
  - destruct (caller (calls i)) eqn:C; injection S as <-; (eapply K; [reflexivity|auto|]); [|exact I]. split; [auto|]. discriminate.
  - destruct Bi as [Bi Bc]. injection S as <-. eapply K; [reflexivity| |split; assumption]. right. eauto.
  - destruct (start_error (calls i)); injection S as <-; (eapply K; [reflexivity|auto|exact Bi]).
  - destruct (queues s i) as [m|]; [|discriminate]. destruct (receive m); injection S as <-; (eapply K; [reflexivity|auto|exact Bi]).
  - destruct (children s i); try discriminate; injection S as <-; (eapply K; [reflexivity|auto|exact Bi]).
  - destruct Bi as [Bi Bc]. destruct old as [m|].
    + injection S as <-. eapply K; [reflexivity|exact Bi|exact I].
    + exfalso. destruct Bi as [Bi|(j & Bi & Bj)]; [now apply HO|now rewrite <- Bj in Bi].
  - injection S as <-. eapply K; [reflexivity|auto|exact I].
  - discriminate.
Qed.
Lemma bounded_holds original s : original <> None -> execution (initial original) s -> bounded original s.
Proof.
  intros HO H. induction H as [|s1 s2 E1 IH S].
  - split; [now left|intros i; exact I].
  - eapply bounded_step; eauto.
Qed.
Lemma possible_not_None original m : original <> None -> possible original m -> m <> None.
Proof. intros H [->|(i & A & ->)]; assumption. Qed.

(** ** Outcomes *)
(** What a message brings the caller. *)
Definition delivered (m : @message V E) : @outcome V E :=
  match receive m with inl m => outcome_of m | inr e => Raised (Given e) end.
(** The messages of the subprocess. *)
Definition sent (b : @behaviour V E) : option (@message V E) :=
  match b with Returns v => Some (v, None) | Raises e => Some (none, Some e) | Dies => None end.
Definition expected (i : nat) (o : @outcome V E) : Prop :=
  match caller (calls i), start_error (calls i), sent (does (calls i)) with
  | None, _, _ => o = Raised AssertionError
  | _, Some e, _ => o = Raised (Given e)
  | _, None, Some m => o = delivered m
  | _, None, None => False
  end.
Definition faithful (s : state) : Prop :=
  forall i,
    (forall m, queues s i = Some m -> sent (does (calls i)) = Some m) /\
    match threads s i with
    | Ready | Locked => children s i = NotStarted
    | Saved _ => children s i = NotStarted /\ caller (calls i) <> None
    | Swapped _ => children s i = NotStarted /\ caller (calls i) <> None
    | Waiting _ => caller (calls i) <> None /\ start_error (calls i) = None /\ children s i <> NotStarted
        /\ (does (calls i) <> Dies -> (children s i = Ending \/ children s i = Gone) -> queues s i <> None)
    | Joining _ m => caller (calls i) <> None /\ start_error (calls i) = None
        /\ (children s i = Ending \/ children s i = Gone)
        /\ exists m', sent (does (calls i)) = Some m' /\ receive m' = inl m
    | Restoring _ o => caller (calls i) <> None /\ expected i o
    | Leaving o | Finished o => expected i o
    end
    /\ (queues s i <> None -> children s i = Ending \/ children s i = Gone).
Lemma faithful_step original s s' : original <> None -> bounded original s -> faithful s -> step s s' -> faithful s'.
Proof.
  intros HO HB F [i s1 S|i s1 S]; intros j; destruct (Nat.eq_dec j i) as [->|Hj].
  - destruct (F i) as (F1 & F2 & F3). pose proof (proj2 HB i) as Hi. unfold Execution.advance in S.
    destruct (threads s i) as [ | |old|old|old|old m|old o|o|o] eqn:T.
    + destruct (existsb _ _); [discriminate|]. injection S as <-. cbn. rewrite put_same. auto.
    + destruct (caller (calls i)) eqn:C; injection S as <-; cbn; rewrite put_same; (split; [auto|split; auto]).
      * split; [exact F2|]. discriminate.
      * unfold expected. now rewrite C.
    + injection S as <-. cbn. rewrite put_same. auto.
    + destruct F2 as [F2 Fc]. destruct (start_error (calls i)) eqn:X; injection S as <-; cbn; rewrite !put_same; (split; [auto|split; auto]).
      * split; [exact Fc|]. unfold expected. rewrite X. now destruct (caller (calls i)).
      * repeat split; auto; [discriminate|]. intros _ [Y|Y]; discriminate Y.
      * intros Hq. destruct (F3 Hq) as [Y|Y]; rewrite F2 in Y; discriminate Y.
    + destruct F2 as (Fc & Fs & Fn & Fq). destruct (queues s i) as [m|] eqn:Q; [|discriminate].
      assert (G : children s i = Ending \/ children s i = Gone) by (apply F3; discriminate).
      destruct (receive m) as [m1|e] eqn:R; injection S as <-; cbn; rewrite !put_same; (split; [discriminate|split; [|easy]]).
      * repeat split; auto. exists m. split; auto.
      * split; [exact Fc|]. unfold expected, delivered. rewrite Fs, (F1 m eq_refl), R. now destruct (caller (calls i)).
    + destruct F2 as (Fc & Fs & _ & m' & Fm & Fr). destruct (children s i) eqn:C; try discriminate. injection S as <-. cbn. rewrite put_same.
      split; [auto|]. split; [|rewrite C; auto]. split; [exact Fc|]. unfold expected, delivered. rewrite Fs, Fm, Fr. now destruct (caller (calls i)).
    + destruct Hi as [Hp Hc]. destruct F2 as [Fc Fe]. destruct old as [m|].
      * injection S as <-. cbn. rewrite put_same. auto.
      * exfalso. exact (possible_not_None _ _ HO Hp eq_refl).
    + injection S as <-. cbn. rewrite put_same. auto.
    + discriminate.
  - assert (A : queues s1 j = queues s j /\ children s1 j = children s j /\ threads s1 j = threads s j).
    { unfold Execution.advance in S. destruct (threads s i) as [ | |old|old|old|old m|old o|o|o] eqn:T;
        repeat match type of S with context [match ?x with _ => _ end] => destruct x; try discriminate S end;
        try discriminate S; injection S as <-; cbn; rewrite ?put_other by assumption; auto. }
    destruct A as (A & B & C). rewrite A, B, C. apply F.
  - destruct (advance_child_threads _ _ _ S) as (A & _ & _). rewrite A. destruct (F i) as (F1 & F2 & F3).
    unfold Execution.advance_child in S. destruct (children s i) eqn:C; try discriminate.
    + destruct (does (calls i)) as [v|e|] eqn:D; injection S as <-; cbn; rewrite ?put_same.
      1,2: split; [intros m Hm; exact Hm|]; split; [|auto]; destruct (threads s i); try exact F2; try discriminate F2;
        try (destruct F2 as [F2 _]; discriminate F2);
        first [destruct F2 as (? & ? & ? & ?); repeat split; auto; discriminate
              |destruct F2 as (? & ? & [Y|Y] & ?); discriminate Y].
      split; [exact F1|]. split; [|intros Y; destruct (F3 Y) as [Z|Z]; discriminate Z].
      destruct (threads s i); try exact F2; try discriminate F2; try (destruct F2 as [F2 _]; discriminate F2).
      * destruct F2 as (? & ? & ? & ?). repeat split; auto; try discriminate.
      * destruct F2 as (? & ? & [Y|Y] & ?); discriminate Y.
    + injection S as <-; cbn; rewrite ?put_same. split; [exact F1|]. split; [|auto].
      destruct (threads s i); try exact F2; try discriminate F2; try (destruct F2 as [F2 _]; discriminate F2).
      * destruct F2 as (? & ? & ? & ?). repeat split; auto; discriminate.
      * destruct F2 as (? & ? & Y & ?). repeat split; auto.
  - assert (A : queues s1 j = queues s j /\ children s1 j = children s j /\ threads s1 j = threads s j).
    { unfold Execution.advance_child in S. destruct (children s i); try discriminate; [destruct (does (calls i))|];
        injection S as <-; cbn; rewrite ?put_other by assumption; auto. }
    destruct A as (A & B & C). rewrite A, B, C. apply F.
Qed.
Lemma faithful_holds original s : original <> None -> execution (initial original) s -> faithful s.
Proof.
  intros HO H. induction H as [|s1 s2 E1 IH S].
  - intros i. cbn. split; [discriminate|]. split; [reflexivity|easy].
  - eapply faithful_step; eauto. now apply bounded_holds.
Qed.

(** ** Progress *)
(** The number of steps a call and its subprocess may still take. *)
Definition remaining (t : @thread M V E) (c : child) : nat :=
  (match t with
   | Ready => 10 | Locked => 9 | Saved _ => 8 | Swapped _ => 7 | Waiting _ => 4 | Joining _ _ => 3
   | Restoring _ _ => 2 | Leaving _ => 1 | Finished _ => 0
   end) + match c with Working => 2 | Ending => 1 | _ => 0 end.
Lemma thread_uses_up i s s' : advance i s = Some s' ->
  remaining (threads s' i) (children s' i) < remaining (threads s i) (children s i)
  /\ forall j, j <> i -> threads s' j = threads s j /\ children s' j = children s j.
Proof.
  intros S. unfold Execution.advance in S.
  destruct (threads s i) as [ | |old|old|old|old m|old o|o|o] eqn:T;
    repeat match type of S with context [match ?x with _ => _ end] => destruct x eqn:?; try discriminate S end;
    try discriminate S; injection S as <-; cbn; rewrite ?put_same; (split; [cbn|intros j Hj; now rewrite ?put_other by assumption]);
    repeat match goal with H : children _ _ = _ |- _ => rewrite H end; cbn; try lia; destruct (children s i); lia.
Qed.
Lemma child_uses_up i s s' : advance_child i s = Some s' ->
  remaining (threads s' i) (children s' i) < remaining (threads s i) (children s i)
  /\ forall j, j <> i -> threads s' j = threads s j /\ children s' j = children s j.
Proof.
  intros S. unfold Execution.advance_child in S. destruct (children s i) eqn:C; try discriminate; [destruct (does (calls i))|];
    injection S as <-; cbn; rewrite ?put_same; (split; [unfold remaining; lia|intros j Hj; now rewrite ?put_other by assumption]).
Qed.

(** A lock of its own is free before the call. *)
Definition locks_inside (s : state) : Prop := forall i, In (lock_of i) (held s) -> inside (threads s i).
Lemma locks_step s s' : (forall i j, lock_of i = lock_of j -> i = j) -> locks_inside s -> step s s' -> locks_inside s'.
Proof.
  intros L H [i s1 S|i s1 S]; intros j.
  2:{ destruct (advance_child_threads _ _ _ S) as (A & _ & B). rewrite A, B. apply H. }
  destruct (Nat.eq_dec j i) as [->|Hj].
  - specialize (H i). unfold Execution.advance in S.
    destruct (threads s i) as [ | |old|old|old|old m|old o|o|o] eqn:T;
      repeat match type of S with context [match ?x with _ => _ end] => destruct x eqn:?; try discriminate S end;
      try discriminate S; injection S as <-; cbn; rewrite ?put_same; cbn; auto.
    intros X. apply filter_In in X. destruct X as [_ X]. now rewrite Nat.eqb_refl in X.
  - destruct (thread_uses_up _ _ _ S) as [_ A]. destruct (A j Hj) as [-> _].
    unfold Execution.advance in S.
    destruct (threads s i) as [ | |old|old|old|old m|old o|o|o] eqn:T;
      repeat match type of S with context [match ?x with _ => _ end] => destruct x eqn:?; try discriminate S end;
      try discriminate S; injection S as <-; cbn; auto.
    + intros [X|X]; auto. destruct Hj. auto.
    + intros X. apply filter_In in X. now apply H.
Qed.
Lemma locks_hold original s : (forall i j, lock_of i = lock_of j -> i = j) -> execution (initial original) s -> locks_inside s.
Proof. intros L H. induction H as [|s1 s2 E1 IH S]; [intros i []|]. eapply locks_step; eauto. Qed.

(** Whatever the locks: one that is held is held by a call that is under way. *)
Definition held_inside (s : state) : Prop := forall l, In l (held s) -> exists i, lock_of i = l /\ inside (threads s i).
Lemma held_step s s' : held_inside s -> step s s' -> held_inside s'.
Proof.
  intros H [i s1 S|i s1 S]; intros l.
  { unfold Execution.advance in S.
    assert (K : forall t, threads s1 = put (threads s) i t -> inside t -> (In l (held s1) -> In l (held s)) ->
                In l (held s1) -> exists j, lock_of j = l /\ inside (threads s1 j)).
    { intros t Ht It Hh Hl. destruct (H l (Hh Hl)) as (j & Lj & Ij). rewrite Ht.
      destruct (Nat.eq_dec j i) as [->|N]; [exists i; now rewrite put_same|exists j; now rewrite put_other]. }
    destruct (threads s i) as [ | |old|old|old|old m|old o|o|o] eqn:T.
    - destruct (existsb _ _); [discriminate|]. injection S as <-. cbn. intros [<-|Hl].
      + exists i. now rewrite put_same.
      + eapply K; [reflexivity|exact I|auto|right; exact Hl].
    - destruct (caller (calls i)); injection S as <-; eapply K; try reflexivity; try exact I; auto.
    - injection S as <-; eapply K; try reflexivity; try exact I; auto.
    - destruct (start_error (calls i)); injection S as <-; eapply K; try reflexivity; try exact I; auto.
    - destruct (queues s i) as [m|]; [|discriminate]. destruct (receive m); injection S as <-; eapply K; try reflexivity; try exact I; auto.
    - destruct (children s i); try discriminate; injection S as <-; eapply K; try reflexivity; try exact I; auto.
    - destruct old; [|destruct (main s)]; injection S as <-; eapply K; try reflexivity; try exact I; auto.
    - injection S as <-. cbn. intros Hl. apply filter_In in Hl. destruct Hl as [Hl Ne].
      destruct (H l Hl) as (j & Lj & Ij). exists j. split; [exact Lj|].
      destruct (Nat.eq_dec j i) as [->|N]; [subst l; now rewrite Nat.eqb_refl in Ne|now rewrite put_other].
    - discriminate. }
  destruct (advance_child_threads _ _ _ S) as (A & _ & B). rewrite A, B. apply H.
Qed.
Lemma held_holds original s : execution (initial original) s -> held_inside s.
Proof. intros H. induction H as [|s1 s2 E1 IH S]; [intros l []|]. eapply held_step; eauto. Qed.

Lemma never_stuck original s i : (forall i j, lock_of i = lock_of j -> i = j) -> original <> None ->
  execution (initial original) s -> does (calls i) <> Dies -> (forall o, threads s i <> Finished o) ->
  exists s', advance i s = Some s' \/ advance_child i s = Some s'.
Proof.
  intros L HO HE HD HF. pose proof (faithful_holds _ _ HO HE i) as (F1 & F2 & F3).
  pose proof (locks_hold _ _ L HE i) as HL.
  unfold Execution.advance, Execution.advance_child.
  destruct (threads s i) as [ | |old|old|old|old m|old o|o|o] eqn:T.
  - destruct (existsb (Nat.eqb (lock_of i)) (held s)) eqn:X; [|eauto]. apply existsb_exists in X. destruct X as (l & X & Y).
    apply Nat.eqb_eq in Y. subst l. now destruct HL.
  - destruct (caller (calls i)); eauto.
  - eauto.
  - destruct (start_error (calls i)); eauto.
  - destruct F2 as (_ & _ & Fn & Fq). destruct (queues s i) as [m|]; [destruct (receive m); eauto|].
    destruct (children s i); [easy|destruct (does (calls i)); eauto|eauto|]. exfalso. apply Fq; auto.
  - destruct F2 as (_ & _ & [->| ->] & _); eauto.
  - destruct old; [|destruct (main s)]; eauto.
  - eauto.
  - now destruct (HF o).
Qed.
Lemma execution_trans s1 s2 s3 : execution s1 s2 -> execution s2 s3 -> execution s1 s3.
Proof. intros H. induction 1; [exact H|]. econstructor; eauto. Qed.
Lemma finishes original s i : (forall i j, lock_of i = lock_of j -> i = j) -> original <> None ->
  execution (initial original) s -> does (calls i) <> Dies ->
  exists s' o, execution s s' /\ threads s' i = Finished o.
Proof.
  intros L HO HE HD. remember (remaining (threads s i) (children s i)) as n eqn:Hn.
  revert s HE Hn. induction n as [n IH] using (well_founded_induction Wf_nat.lt_wf). intros s HE Hn.
  destruct (threads s i) as [ | |old|old|old|old m|old o|o|o] eqn:T.
  9: { exists s, o. split; [constructor|exact T]. }
  all: (destruct (never_stuck _ s i L HO HE HD) as (s' & [S|S]); [intros o'; rewrite T; discriminate|
    destruct (thread_uses_up _ _ _ S) as [Lt _]|destruct (child_uses_up _ _ _ S) as [Lt _]]);
    (assert (ST : step s s') by (econstructor; exact S) || assert (ST : step s s') by (eapply child_step; exact S));
    (edestruct IH as (s'' & o' & A & B); [|econstructor; [exact HE|exact ST]|reflexivity|]; [rewrite Hn, <- T; exact Lt|]);
    exists s'', o'; (split; [|exact B]); (eapply execution_trans; [econstructor; [constructor|exact ST]|exact A]).
Qed.
Lemma counted original i n s :
  execution_counting none calls lock_of receive i (initial original) n s -> n + remaining (threads s i) (children s i) <= 10.
Proof.
  induction 1 as [|n s1 s2 E1 IH [S|S]|n j s1 s2 E1 IH Hj [S|S]]; [cbn; lia| | | |].
  - destruct (thread_uses_up _ _ _ S) as [Lt _]. lia.
  - destruct (child_uses_up _ _ _ S) as [Lt _]. lia.
  - destruct (thread_uses_up _ _ _ S) as [_ A]. destruct (A i) as [-> ->]; [auto|]. exact IH.
  - destruct (child_uses_up _ _ _ S) as [_ A]. destruct (A i) as [-> ->]; [auto|]. exact IH.
Qed.
End Proofs.
