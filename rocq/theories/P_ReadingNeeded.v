(** Property C115: which modules are read. *)
From Verif Require Import Base Ast Conversion Catalog Arboreal Scoping Signatures Stubs StubsProofs SpecReadingDepth ReadingNeededProofs.

(** ** C115 *)
(** If reading succeeds, the modules asked for and [builtins] have been read, no module more than once,
    and no module but those that are needed: asked for, [builtins], or imported by the stub of a module
    that is needed and has been read itself.  Modules are added to [visited] when their stub is read (stubs.py:580-587). *)
Theorem C115_modules_read :
  forall source is_package condition fuel modules st,
    parse_modules source is_package condition fuel modules = Done st tt ->
    (forall m, In m (builtins_path :: modules) -> In m (visited st))
    /\ NoDup (visited st)
    /\ forall m, In m (visited st) -> needed source is_package modules (visited st) m.
Proof.
  intros so ip co fuel ms st E.
  destruct (good_modules so ip co (needed so ip ms)) with (fuel := fuel) (ms := ms) (st := st) as (A & B & C); auto.
  - intros v v' x L. induction 1; [apply needed_builtins|now apply needed_itself|]. eapply needed_import; eauto.
  - apply needed_builtins.
  - intros v m x body s s' N M S I W Z. eapply needed_import; eauto.
  - intros v m M. now apply needed_itself.
Qed.
Print Assumptions C115_modules_read.

(** [a] imports from [b] and star-imports [c] to find [y] there; [b] is imported for a name that is not
    looked into, so it is not read, and nor is [d], which nobody imports. *)
Definition stubs (m : path) : option (list stmt) :=
  dget m [([$"builtins"], [SClassDef $"int" [] []]);
          ([$"a"], [SImportFrom (Some $"b") [mk_alias $"z" None] 0; SImportFrom (Some $"c") [mk_alias $"*" None] 0;
                    SAssign [Name $"x"] (Name $"y")]);
          ([$"b"], [SAnnAssign (Name $"z") (Name $"int") None]);
          ([$"c"], [SImportFrom (Some $"a") [mk_alias $"x" None] 0; SAnnAssign (Name $"y") (Name $"int") None]);
          ([$"d"], [])].
Example C115_example :
  match parse_modules stubs (fun _ => false) (fun _ _ => Ok true) 9 [[$"a"]] with
  | Done st _ => visited st = [builtins_path; [$"a"]; [$"c"]]
  | _ => False
  end
  /\ needed stubs (fun _ => false) [[$"a"]] [builtins_path; [$"a"]; [$"c"]] [$"c"]
  /\ forall read, ~ needed stubs (fun _ => false) [[$"a"]] read [$"d"].
Proof.
  split; [vm_compute; reflexivity|]. split.
  - eapply needed_import with (m := [$"a"]); [apply needed_itself; now left|cbn; auto|reflexivity|right; now left|constructor|constructor; reflexivity].
  - intros read N. remember [$"d"] as d eqn:D. revert D.
    assert (H : In d [builtins_path; [$"a"]; [$"b"]; [$"c"]]).
    { induction N as [|m M|m x body s s' _ IH _ E I W N]; [now left|destruct M as [<-|[]]; cbn; auto|].
      apply dget_Some_In in E.
      repeat (destruct E as [E|E]; [injection E as <- <-; repeat (destruct I as [<-|I]; [inversion W; subst; try contradiction;
        inversion N as [| |mo ns l P]; subst; vm_compute in P; injection P as <-; cbn; auto|]); contradiction|]). contradiction. }
    intros ->. repeat (destruct H as [H|H]; [discriminate H|]). contradiction.
Qed.
