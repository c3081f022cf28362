(** Properties C54-C56: calls in subprocesses. *)
From Verif Require Import Base Execution SpecExecution ExecutionProofs.

(** ** Sample calls *)
Module Samples.
Definition returns (m v : nat) : @call nat nat nat := mk_call (Some m) None (Returns v).
Definition raises (m e : nat) : @call nat nat nat := mk_call (Some m) None (Raises e).
Definition dies (m : nat) : @call nat nat nat := mk_call (Some m) None Dies.
Definition faithful_pipe : @message nat nat -> @message nat nat + nat := inl.
(** Runs a schedule: thread or subprocess, number. *)
Inductive mover := T (i : nat) | P (i : nat).
Definition move calls (m : mover) (s : @state nat nat nat) : option state :=
  match m with
  | T i => advance calls own_lock faithful_pipe i s
  | P i => advance_child 0 calls i s
  end.
Fixpoint play calls (l : list mover) (s : state) : option state :=
  match l with
  | [] => Some s
  | m :: r => match move calls m s with Some s => play calls r s | None => None end
  end.
Lemma play_execution calls l s0 s s' :
  execution 0 calls own_lock faithful_pipe s0 s -> play calls l s = Some s' -> execution 0 calls own_lock faithful_pipe s0 s'.
Proof.
  revert s. induction l as [|m r IH]; cbn; intros s E H; [now injection H as <-|].
  destruct (move calls m s) as [s1|] eqn:S; [|discriminate]. apply (IH s1); [|exact H].
  econstructor; [exact E|]. destruct m; cbn in S; [eapply thread_step|eapply child_step]; exact S.
Qed.
Lemma play_untouched calls l s s' j :
  (forall m, In m l -> match m with T i | P i => i <> j end) -> play calls l s = Some s' -> threads s' j = threads s j.
Proof.
  revert s. induction l as [|m r IH]; cbn; intros s H E; [now injection E as <-|].
  destruct (move calls m s) as [s1|] eqn:S; [|discriminate]. rewrite (IH s1); [|intros m0 H0; exact (H m0 (or_intror H0))|exact E].
  specialize (H m (or_introl eq_refl)). destruct m as [i|i]; cbn in S.
  - destruct (advance_threads _ _ _ _ _ _ S) as (t & -> & _). apply put_other. auto.
  - destruct (advance_child_threads _ _ _ _ _ S) as (-> & _). reflexivity.
Qed.
(** A whole call. *)
Definition whole i := [T i; T i; T i; T i; P i; P i; T i; T i; T i; T i].
End Samples.
Import Samples.

(** ** C54 *)
(** As long as calls do not overlap - in particular for any sequence of calls in
    one thread - the main module is the original one whenever none is under way:
    whatever the callers, outcomes, failures to start or to unpickle, and also when
    there was none. *)
Theorem C54_main_module_restored :
  forall M V E (none : V) (calls : nat -> @call M V E) lock_of receive original s,
    execution_in none calls lock_of receive one_at_a_time (initial original) s ->
    quiet s -> main s = original.
Proof. intros M V E none calls lo re original s H Q. now apply (invariant_holds none calls lo re original s H). Qed.
Print Assumptions C54_main_module_restored.

(** During the call it is the caller's module. *)
Theorem C54_main_module_during_call :
  forall M V E (none : V) (calls : nat -> @call M V E) lock_of receive original s i old,
    execution_in none calls lock_of receive one_at_a_time (initial original) s ->
    threads s i = Waiting old -> main s = caller (calls i) /\ old = original.
Proof.
  intros M V E none calls lo re original s i old H T.
  destruct (invariant_holds none calls lo re original s H) as [_ I]. specialize (I i). unfold local in I. rewrite T in I.
  destruct (I Logic.I) as (? & ? & _). auto.
Qed.
Print Assumptions C54_main_module_during_call.

Example C54_example :
  let calls i := if Nat.eqb i 0 then returns 7 1 else raises 8 2 in
  match play calls (whole 0) (initial (Some 5)) with
  | Some s =>
      main s = Some 5 /\ threads s 0 = Finished (Returned 1)
      /\ match play calls (whole 1) s with
         | Some s => main s = Some 5 /\ threads s 1 = Finished (Raised (Given 2))
         | None => False
         end
  | None => False
  end.
Proof. vm_compute. auto. Qed.
(** Also without main module. *)
Example C54_example_none :
  match play (fun _ => returns 7 1) (whole 0) (initial None) with
  | Some s => main s = None /\ threads s 0 = Finished (Returned 1)
  | None => False
  end.
Proof. vm_compute. auto. Qed.
Example C54_example_hypothesis :
  execution_in 0 (fun _ => returns 7 1) own_lock faithful_pipe one_at_a_time (initial (Some 5)) (initial (Some 5)).
Proof. constructor. intros i j []. Qed.

(** ** C55 *)
(** Two threads calling from modules 7 and 8: each takes a lock of its own, the
    second saves what the first has set, and in the end main is module 7. *)
Theorem C55_concurrent_calls_refuted :
  exists (calls : nat -> @call nat nat nat) s,
    execution 0 calls own_lock faithful_pipe (initial (Some 5)) s /\ quiet s
    /\ threads s 0 = Finished (Returned 1) /\ threads s 1 = Finished (Returned 2)
    /\ main s = Some 7.
Proof.
  set (calls := fun i => if Nat.eqb i 0 then returns 7 1 else returns 8 2). exists calls.
  set (l := [T 0; T 0; T 0; T 1; T 1; T 1; T 0; P 0; P 0; T 0; T 0; T 0; T 0; T 1; P 1; P 1; T 1; T 1; T 1; T 1]).
  assert (X : match play calls l (initial (Some 5)) with
              | Some s => threads s 0 = Finished (Returned 1) /\ threads s 1 = Finished (Returned 2) /\ main s = Some 7
              | None => False end) by (vm_compute; auto).
  destruct (play calls l (initial (Some 5))) as [s|] eqn:E; [|easy]. destruct X as (A & B & C).
  exists s. split; [eapply play_execution; [constructor|exact E]|]. split; [|auto].
  intros i. destruct (Nat.eq_dec i 0) as [->|N0]; [rewrite A; exact id|]. destruct (Nat.eq_dec i 1) as [->|N1]; [rewrite B; exact id|].
  rewrite (play_untouched calls l (initial (Some 5)) s i); [exact id| |exact E].
  intros m Hm. repeat (destruct Hm as [<-|Hm]; [auto|]). destruct Hm.
Qed.
Print Assumptions C55_concurrent_calls_refuted.

(** Without main module there even is a KeyError instead of the result. *)
Theorem C55_concurrent_results_refuted :
  exists (calls : nat -> @call nat nat nat) s,
    execution 0 calls own_lock faithful_pipe (initial None) s
    /\ does (calls 1) = Returns 2 /\ threads s 1 = Finished (Raised KeyError).
Proof.
  set (calls := fun i => if Nat.eqb i 0 then returns 7 1 else returns 8 2). exists calls.
  set (l := [T 0; T 0; T 1; T 1; T 0; T 1; T 0; P 0; P 0; T 0; T 0; T 0; T 0; T 1; P 1; P 1; T 1; T 1; T 1; T 1]).
  assert (X : match play calls l (initial None) with
              | Some s => threads s 1 = Finished (Raised KeyError)
              | None => False end) by (vm_compute; auto).
  destruct (play calls l (initial None)) as [s|] eqn:E; [|easy].
  exists s. split; [eapply play_execution; [constructor|exact E]|]. split; [reflexivity|exact X].
Qed.
Print Assumptions C55_concurrent_results_refuted.

(** Under any interleaving the main module is the original one or the module of a
    caller. *)
Theorem C55_concurrent_calls_partial :
  forall M V E (none : V) (calls : nat -> @call M V E) lock_of receive original s,
    original <> None ->
    execution none calls lock_of receive (initial original) s ->
    main s <> None /\ (main s = original \/ exists i, main s = caller (calls i)).
Proof.
  intros M V E none calls lo re original s HO H. destruct (bounded_holds none calls lo re original s HO H) as [B _].
  split; [eapply possible_not_None; eauto|]. destruct B as [B|(i & _ & B)]; eauto.
Qed.
Print Assumptions C55_concurrent_calls_partial.

(** So callers from the main module are safe. *)
Theorem C55_calls_from_main_partial :
  forall M V E (none : V) (calls : nat -> @call M V E) lock_of receive original s,
    original <> None -> (forall i, caller (calls i) = original \/ caller (calls i) = None) ->
    execution none calls lock_of receive (initial original) s -> main s = original.
Proof.
  intros M V E none calls lo re original s HO HC H. destruct (bounded_holds none calls lo re original s HO H) as [B _].
  destruct B as [B|(i & N & B)]; [exact B|]. destruct (HC i) as [A|A]; congruence.
Qed.
Print Assumptions C55_calls_from_main_partial.

(** The missing part is the lock: if all calls shared one, the property would hold
    for all interleavings. *)
Theorem C55_with_a_shared_lock_partial :
  forall M V E (none : V) (calls : nat -> @call M V E) lock receive original s,
    execution none calls (fun _ => lock) receive (initial original) s ->
    quiet s -> main s = original.
Proof.
  intros M V E none calls l re original s H Q. eapply C54_main_module_restored; [|exact Q].
  now apply (shared_lock_exclusive none calls (fun _ => l) re l).
Qed.
Print Assumptions C55_with_a_shared_lock_partial.

(** Interleaved calls from the main module 5 leave it alone. *)
Example C55_example :
  match play (fun i => returns 5 i) [T 0; T 0; T 0; T 1; T 1; T 1; T 0; P 0; P 0; T 0; T 0; T 0; T 0; T 1; P 1; P 1; T 1; T 1; T 1; T 1]
          (initial (Some 5)) with
  | Some s => main s = Some 5 /\ threads s 0 = Finished (Returned 0) /\ threads s 1 = Finished (Returned 1)
  | None => False
  end.
Proof. vm_compute. auto. Qed.

(** ** C56 *)
(** Under any interleaving: if the function returned a value or raised an exception
    that survives pickling, that is the outcome. *)
Theorem C56_outcome_is_the_functions :
  forall M V E (none : V) (calls : nat -> @call M V E) lock_of receive original s i o,
    original <> None -> caller (calls i) <> None -> start_error (calls i) = None ->
    execution none calls lock_of receive (initial original) s ->
    threads s i = Finished o ->
    match does (calls i) with
    | Returns v => receive (v, None) = inl (v, None) -> o = Returned v
    | Raises e => receive (none, Some e) = inl (none, Some e) -> o = Raised (Given e)
    | Dies => False
    end.
Proof.
  intros M V E none calls lo re original s i o HO HC HS H T.
  pose proof (faithful_holds none calls lo re original s HO H i) as (_ & F & _). rewrite T in F.
  unfold expected in F. rewrite HS in F. destruct (caller (calls i)); [|easy].
  destruct (does (calls i)); cbn [sent] in F; [| |exact F]; unfold delivered in F; intros R; rewrite R in F; exact F.
Qed.
Print Assumptions C56_outcome_is_the_functions.

(** If it could not be started, or what arrives cannot be unpickled, that exception
    is raised; a caller without module gets an AssertionError. *)
Theorem C56_other_outcomes :
  forall M V E (none : V) (calls : nat -> @call M V E) lock_of receive original s i o,
    original <> None ->
    execution none calls lock_of receive (initial original) s ->
    threads s i = Finished o ->
    (caller (calls i) = None -> o = Raised AssertionError) /\
    (forall e, caller (calls i) <> None -> start_error (calls i) = Some e -> o = Raised (Given e)) /\
    (forall v e, caller (calls i) <> None -> start_error (calls i) = None -> does (calls i) = Returns v ->
       receive (v, None) = inr e -> o = Raised (Given e)).
Proof.
  intros M V E none calls lo re original s i o HO H T.
  pose proof (faithful_holds none calls lo re original s HO H i) as (_ & F & _). rewrite T in F. unfold expected in F.
  split; [intros C; now rewrite C in F|]. split.
  - intros e C S. rewrite S in F. now destruct (caller (calls i)).
  - intros v e C S D R. rewrite S, D in F. destruct (caller (calls i)); [|easy]. cbn in F. unfold delivered in F. now rewrite R in F.
Qed.
Print Assumptions C56_other_outcomes.

(** Every call whose subprocess does not die can always go on, whatever the others
    do, and it ends. *)
Theorem C56_outcome_is_delivered :
  forall M V E (none : V) (calls : nat -> @call M V E) receive original s i,
    original <> None -> does (calls i) <> Dies ->
    execution none calls own_lock receive (initial original) s ->
    ((forall o, threads s i <> Finished o) ->
       exists s', advance calls own_lock receive i s = Some s' \/ advance_child none calls i s = Some s')
    /\ exists s' o, execution none calls own_lock receive s s' /\ threads s' i = Finished o.
Proof.
  intros M V E none calls re original s i HO HD H. split.
  - intros HF. eapply never_stuck; eauto.
  - eapply finishes; eauto.
Qed.
Print Assumptions C56_outcome_is_delivered.

(** No call takes more than ten steps, however they are interleaved. *)
Theorem C56_no_endless_call :
  forall M V E (none : V) (calls : nat -> @call M V E) lock_of receive original i n s,
    execution_counting none calls lock_of receive i (initial original) n s -> n <= 10.
Proof. intros M V E none calls lo re original i n s H. apply counted in H. lia. Qed.
Print Assumptions C56_no_endless_call.

(** Locks are given back: under any interleaving and any choice of locks, one that is
    held belongs to a call that is under way; when none is, all are free. *)
Theorem C56_locks_are_released :
  forall M V E (none : V) (calls : nat -> @call M V E) lock_of receive original s,
    execution none calls lock_of receive (initial original) s ->
    (forall l, In l (held s) -> exists i, lock_of i = l /\ inside (threads s i))
    /\ (quiet s -> held s = []).
Proof.
  intros M V E none calls lo re original s H. pose proof (held_holds none calls lo re original s H) as K.
  split; [exact K|]. intros Q. destruct (held s) as [|l r] eqn:X; [reflexivity|].
  destruct (K l) as (i & _ & I); [rewrite X; now left|]. now destruct (Q i).
Qed.
Print Assumptions C56_locks_are_released.
Example C56_lock_example :
  match play (fun _ => returns 7 1) [T 0] (initial (Some 5)), play (fun _ => returns 7 1) (whole 0) (initial (Some 5)) with
  | Some s, Some s' => held s = [0] /\ held s' = []
  | _, _ => False
  end.
Proof. vm_compute. auto. Qed.

(** A subprocess that dies - also by an unpicklable result, or sys.exit - leaves the
    caller waiting for ever. *)
Theorem C56_dead_subprocess_refuted :
  forall M V E (none : V) (calls : nat -> @call M V E) lock_of receive original s i,
    original <> None -> caller (calls i) <> None -> start_error (calls i) = None -> does (calls i) = Dies ->
    execution none calls lock_of receive (initial original) s ->
    forall o, threads s i <> Finished o.
Proof.
  intros M V E none calls lo re original s i HO HC HS HD H o T.
  pose proof (C56_outcome_is_the_functions M V E none calls lo re original s i o HO HC HS H T) as F. now rewrite HD in F.
Qed.
Print Assumptions C56_dead_subprocess_refuted.

Example C56_dead_example :
  match play (fun _ => dies 7) [T 0; T 0; T 0; T 0; P 0] (initial (Some 5)) with
  | Some s => threads s 0 = Waiting (Some 5) /\ children s 0 = Gone /\ move (fun _ => dies 7) (T 0) s = None
              /\ move (fun _ => dies 7) (P 0) s = None
  | None => False
  end.
Proof. vm_compute. auto. Qed.
