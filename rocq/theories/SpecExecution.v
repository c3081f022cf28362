(** Specification vocabulary for subprocess calls. *)
From Verif Require Import Base Execution.

(** Between the beginning and the end of the call. *)
Definition inside {M V E} (t : @thread M V E) : Prop :=
  match t with Ready | Finished _ => False | _ => True end.
(** No two calls overlap. *)
Definition one_at_a_time {M V E} (s : @state M V E) : Prop :=
  forall i j, inside (threads s i) -> inside (threads s j) -> i = j.
(** No call is under way. *)
Definition quiet {M V E} (s : @state M V E) : Prop := forall i, ~ inside (threads s i).

(** Executions all of whose states satisfy a condition. *)
Inductive execution_in {M V E} (none : V) (calls : nat -> @call M V E) (lock_of : nat -> nat)
    (receive : @message V E -> @message V E + E) (P : @state M V E -> Prop) (s : state) : state -> Prop :=
| in_nothing : P s -> execution_in none calls lock_of receive P s s
| in_more s1 s2 : execution_in none calls lock_of receive P s s1 -> step none calls lock_of receive s1 s2 -> P s2 ->
    execution_in none calls lock_of receive P s s2.

(** Executions with the number of steps taken by one call and its subprocess. *)
Inductive execution_counting {M V E} (none : V) (calls : nat -> @call M V E) (lock_of : nat -> nat)
    (receive : @message V E -> @message V E + E) (i : nat) (s : @state M V E) : nat -> state -> Prop :=
| count_nothing : execution_counting none calls lock_of receive i s 0 s
| count_own n s1 s2 : execution_counting none calls lock_of receive i s n s1 ->
    advance calls lock_of receive i s1 = Some s2 \/ advance_child none calls i s1 = Some s2 ->
    execution_counting none calls lock_of receive i s (S n) s2
| count_other n j s1 s2 : execution_counting none calls lock_of receive i s n s1 -> j <> i ->
    advance calls lock_of receive j s1 = Some s2 \/ advance_child none calls j s1 = Some s2 ->
    execution_counting none calls lock_of receive i s n s2.
