(** Model of _core/execution.py: calls of functions in subprocesses, by any number of
    threads.

    A state machine: each step of a thread is one access to what threads share
    (the main module registered in sys.modules, locks, the queue, the subprocess).
    Not modelled: what the called function does besides its outcome; processes
    other than the children; anything else writing sys.modules['__main__']. *)
From Verif Require Import Base.
From Coq Require Import List Arith.
Import ListNotations.

Section Machine.
(** Modules, values and exceptions; [none] is Python's None. *)
Context {M V E : Type} (none : V).

(** How the function ends in the subprocess. [Dies]: the process ends without
    putting a message: it is killed, calls os._exit, raises a BaseException that
    is no Exception, or its result cannot be pickled. *)
Inductive behaviour := Returns (v : V) | Raises (e : E) | Dies.
Inductive error := Given (e : E) | AssertionError | KeyError.
Inductive outcome := Returned (v : V) | Raised (e : error).
(** What is put in the queue: (result, error), execution.py:52, 55. *)
Definition message := (V * option E)%type.

Record call := mk_call {
  caller : option M;         (* inspect.getmodule(caller_frame), execution.py:18 *)
  start_error : option E;    (* exception of process.start(), execution.py:32 *)
  does : behaviour }.

(** Where a thread is in call_in_process, execution.py:13-42. *)
Inductive thread :=
| Ready                                  (* before the call *)
| Locked                                 (* lock taken, line 16 *)
| Saved (old : option M)                 (* main_module read, line 20 *)
| Swapped (old : option M)               (* sys.modules['__main__'] set, line 22 *)
| Waiting (old : option M)               (* process started, in queue.get(), line 33 *)
| Joining (old : option M) (m : message) (* in process.join(), line 34 *)
| Restoring (old : option M) (o : outcome) (* in finally, line 38 *)
| Leaving (o : outcome)                  (* end of with *)
| Finished (o : outcome).
Inductive child := NotStarted | Working | Ending | Gone.

Record state := mk_state {
  main : option M;                       (* sys.modules.get('__main__') *)
  held : list nat;                       (* the locks held *)
  threads : nat -> thread;
  children : nat -> child;
  queues : nat -> option message }.

Definition put {A} (f : nat -> A) (i : nat) (a : A) : nat -> A := fun j => if Nat.eqb j i then a else f j.
Definition goto (i : nat) (t : thread) (s : state) : state :=
  mk_state (main s) (held s) (put (threads s) i t) (children s) (queues s).
Definition set_main (m : option M) (s : state) : state := mk_state m (held s) (threads s) (children s) (queues s).
Definition set_held (l : list nat) (s : state) : state := mk_state (main s) l (threads s) (children s) (queues s).
Definition set_child (i : nat) (c : child) (s : state) : state :=
  mk_state (main s) (held s) (threads s) (put (children s) i c) (queues s).
Definition set_queue (i : nat) (m : option message) (s : state) : state :=
  mk_state (main s) (held s) (threads s) (children s) (put (queues s) i m).

Variable calls : nat -> call.
(** The lock taken by a call. *)
Variable lock_of : nat -> nat.
(** Pickling and unpickling: a message arrives as another or with an exception. *)
Variable receive : message -> message + E.

(** execution.py:35-37 *)
Definition outcome_of (m : message) : outcome :=
  match snd m with Some e => Raised (Given e) | None => Returned (fst m) end.

(** One step of a thread; [None]: it waits. *)
Definition advance (i : nat) (s : state) : option state :=
  match threads s i with
  | Ready =>                                                          (* :16 *)
      if existsb (Nat.eqb (lock_of i)) (held s) then None
      else Some (goto i Locked (set_held (lock_of i :: held s) s))
  | Locked =>                                                         (* :17-20 *)
      match caller (calls i) with
      | None => Some (goto i (Leaving (Raised AssertionError)) s)
      | Some _ => Some (goto i (Saved (main s)) s)
      end
  | Saved old =>                                                      (* :22 *)
      Some (goto i (Swapped old) (set_main (caller (calls i)) s))
  | Swapped old =>                                                    (* :23-32 *)
      match start_error (calls i) with
      | Some e => Some (goto i (Restoring old (Raised (Given e))) s)
      | None => Some (goto i (Waiting old) (set_child i Working s))
      end
  | Waiting old =>                                                    (* :33 *)
      match queues s i with
      | None => None
      | Some m =>
          match receive m with
          | inl m => Some (goto i (Joining old m) (set_queue i None s))
          | inr e => Some (goto i (Restoring old (Raised (Given e))) (set_queue i None s))
          end
      end
  | Joining old m =>                                                  (* :34-37 *)
      match children s i with
      | Gone => Some (goto i (Restoring old (outcome_of m)) s)
      | _ => None
      end
  | Restoring old o =>                                                (* :38-42 *)
      match old with
      | None => match main s with
                | None => Some (goto i (Leaving (Raised KeyError)) s)
                | Some _ => Some (goto i (Leaving o) (set_main None s))
                end
      | Some m => Some (goto i (Leaving o) (set_main (Some m) s))
      end
  | Leaving o =>                                                      (* :16, end of with *)
      Some (goto i (Finished o) (set_held (filter (fun l => negb (Nat.eqb (lock_of i) l)) (held s)) s))
  | Finished _ => None
  end.

(** One step of the subprocess, execution.py:45-55. *)
Definition advance_child (i : nat) (s : state) : option state :=
  match children s i with
  | Working =>
      match does (calls i) with
      | Returns v => Some (set_child i Ending (set_queue i (Some (v, None)) s))       (* :55 *)
      | Raises e => Some (set_child i Ending (set_queue i (Some (none, Some e)) s))   (* :52 *)
      | Dies => Some (set_child i Gone s)
      end
  | Ending => Some (set_child i Gone s)
  | NotStarted | Gone => None
  end.

Inductive step (s : state) : state -> Prop :=
| thread_step i s' : advance i s = Some s' -> step s s'
| child_step i s' : advance_child i s = Some s' -> step s s'.
Inductive execution (s : state) : state -> Prop :=
| nothing : execution s s
| more s1 s2 : execution s s1 -> step s1 s2 -> execution s s2.

(** Before any call. *)
Definition initial (m : option M) : state :=
  mk_state m [] (fun _ => Ready) (fun _ => NotStarted) (fun _ => None).
End Machine.

(** [with threading.Lock()], execution.py:16: every call makes a lock of its own. *)
Definition own_lock (i : nat) : nat := i.
