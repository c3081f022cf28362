(** Property C113: reading stubs and the recursion limit. *)
From Verif Require Import Base Ast Conversion Catalog Scoping Signatures Stubs StubsProofs ReadingDepthProofs.

(** ** C113 *)
(** Modules read within some depth are read alike within any greater one: with the same tables if
    reading succeeds, with the same exception if it fails with another one than [RecursionError]. *)
Theorem C113_modules :
  forall source is_package condition depth fuel modules, depth <= fuel ->
    parse_modules source is_package condition depth modules <> Fails RecursionError ->
    parse_modules source is_package condition fuel modules = parse_modules source is_package condition depth modules.
Proof.
  intros so ip co depth fuel ms L N. destruct (more_modules so ip co depth fuel ms L) as [E|E]; [contradiction|exact E].
Qed.
Print Assumptions C113_modules.

(** So are all tables, with base classes resolved and specialised. *)
Theorem C113_tables :
  forall source is_package condition printable limit limit' depth fuel modules, limit <= limit' -> depth <= fuel ->
    parse_stubs_state source is_package condition printable limit depth modules <> Err RecursionError ->
    parse_stubs_state source is_package condition printable limit' fuel modules
    = parse_stubs_state source is_package condition printable limit depth modules.
Proof.
  intros so ip co pr l l' depth fuel ms L F N. destruct (rmore_state so ip co pr l l' depth fuel ms L F) as [E|E]; [contradiction|exact E].
Qed.
Print Assumptions C113_tables.

(** Hence any two depths that are enough give the same. *)
Theorem C113_one_result :
  forall source is_package condition printable limit limit' depth depth' modules st st',
    parse_stubs_state source is_package condition printable limit depth modules = Ok st ->
    parse_stubs_state source is_package condition printable limit' depth' modules = Ok st' -> st = st'.
Proof.
  intros so ip co pr l l' d d' ms st st' H H'.
  pose proof (C113_tables so ip co pr l (Nat.max l l') d (Nat.max d d') ms (Nat.le_max_l _ _) (Nat.le_max_l _ _)) as A.
  pose proof (C113_tables so ip co pr l' (Nat.max l l') d' (Nat.max d d') ms (Nat.le_max_r _ _) (Nat.le_max_r _ _)) as B.
  rewrite H in A. rewrite H' in B. rewrite A in B by discriminate. assert (C : Ok st = Ok st') by (apply B; discriminate). now injection C.
Qed.
Print Assumptions C113_one_result.

(** [from typing import TypeVar, Generic; T = TypeVar('T'); class A(Generic[T]): x: T; class B(A[int]): ...] in a module [m];
    it takes reading [typing] and [builtins] on behalf of [m]. *)
Definition sources (m : path) : option (list stmt) :=
  dget m [([$"builtins"], [SClassDef $"int" [] []; SClassDef $"object" [] []]);
          ([$"typing"], [SClassDef $"TypeVar" [] []; SAnnAssign (Name $"Generic") (Name $"object") None]);
          ([$"m"], [SImportFrom (Some $"typing") [mk_alias $"TypeVar" None; mk_alias $"Generic" None] 0;
                    SAssign [Name $"T"] (Call (Name $"TypeVar") [Constant (CStr $"T")] []);
                    SClassDef $"A" [Subscript (Name $"Generic") (Name $"T")] [SAnnAssign (Name $"x") (Name $"T") None];
                    SClassDef $"B" [Subscript (Name $"A") (Name $"int")] []])].
Definition read limit depth := parse_stubs_state sources (fun _ => false) (fun _ _ => Ok true) (fun _ => true) limit depth [[$"m"]].
Example C113_example :
  read 4 1 = Err RecursionError /\ (exists st, read 4 3 = Ok st)
  /\ forall limit depth, 4 <= limit -> 3 <= depth -> read limit depth = read 4 3.
Proof.
  assert (E : exists st, read 4 3 = Ok st) by (eexists; vm_compute; reflexivity).
  split; [vm_compute; reflexivity|]. split; [exact E|].
  intros limit depth L D. apply C113_tables; auto. change (read 4 3 <> Err RecursionError). destruct E as (st & E). rewrite E. discriminate.
Qed.
