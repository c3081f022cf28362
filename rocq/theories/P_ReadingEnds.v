(** Property C114: reading stubs ends unless star imports form cycles. *)
From Verif Require Import Base Ast Conversion Catalog Arboreal Scoping Signatures Stubs StubsProofs SpecReadingDepth ReadingEndsProofs P_ReadingDepth.
From Coq Require Import Relations.

(** ** C114 *)
(** If no chain of star imports comes back to where it started, any modules are read within a recursion
    depth of twice the number of modules with stubs, plus two, and with the same result within any greater
    depth.  Imports of other kinds may form cycles. *)
Theorem C114_reading_ends :
  forall source is_package condition (universe : list path) modules,
    (forall m, source m <> None -> In m universe) ->
    (forall m, ~ clos_trans _ (star_import source is_package) m m) ->
    (forall bindings e, condition bindings e <> Err RecursionError) ->
    exists result, result <> Fails RecursionError
      /\ forall fuel, 2 * length universe + 2 <= fuel -> parse_modules source is_package condition fuel modules = result.
Proof.
  intros so ip co universe ms F A C.
  pose proof (ends_modules so ip co universe (height so ip universe) (length universe) F (height_bounded so ip universe F A)
                (height_lower so ip universe F A) C) as N.
  eexists. split; [exact (N (2 * length universe + 2) ms ltac:(lia))|].
  intros fuel L. apply C113_modules; [exact L|]. apply N. lia.
Qed.
Print Assumptions C114_reading_ends.

(** Modules [a] and [b] import names from each other, and [a] all names of [c]; [y] is found in [c]. *)
Definition circular (m : path) : option (list stmt) :=
  dget m [([$"builtins"], [SClassDef $"int" [] []]);
          ([$"a"], [SImportFrom (Some $"b") [mk_alias $"z" None] 0; SImportFrom (Some $"c") [mk_alias $"*" None] 0;
                    SAnnAssign (Name $"x") (Name $"int") (Some (Name $"y")); SAnnAssign (Name $"w") (Name $"int") None]);
          ([$"b"], [SImportFrom (Some $"a") [mk_alias $"w" None] 0; SAnnAssign (Name $"z") (Name $"int") (Some (Name $"w"))]);
          ([$"c"], [SAnnAssign (Name $"y") (Name $"int") None])].
Example C114_example :
  (forall m x, star_import circular (fun _ => false) m x -> m = [$"a"] /\ x = [$"c"])
  /\ (exists result, result <> Fails RecursionError
       /\ forall fuel, 10 <= fuel -> parse_modules circular (fun _ => false) (fun _ _ => Ok true) fuel [[$"a"]; [$"b"]] = result)
  /\ match parse_modules circular (fun _ => false) (fun _ _ => Ok true) 9 [[$"a"]; [$"b"]] with
     | Done st _ => dget [$"x"] (dget_or [$"a"] [] (references (db st))) = Some ([$"c"], [$"y"])
                    /\ dget [$"z"] (dget_or [$"b"] [] (references (db st))) = Some ([$"a"], [$"w"])
     | _ => False
     end.
Proof.
  assert (S : forall m x, star_import circular (fun _ => false) m x -> m = [$"a"] /\ x = [$"c"]).
  { intros m x (body & s & E & I & mo & ns & l & a & W & A & St & P). apply dget_Some_In in E.
    repeat (destruct E as [E|E]; [injection E as <- <-; repeat (destruct I as [<-|I]; [inversion W; subst; try contradiction;
      repeat (destruct A as [<-|A]; [try discriminate St|]); try contradiction|]); try contradiction|]); try contradiction.
    vm_compute in P. injection P as <-. now split. }
  split; [exact S|]. split; [|vm_compute; now split].
  apply (C114_reading_ends circular (fun _ => false) (fun _ _ => Ok true)) with (universe := [[$"builtins"]; [$"a"]; [$"b"]; [$"c"]]).
  - intros m N. destruct (circular m) as [body|] eqn:E; [|contradiction]. apply dget_Some_In in E.
    repeat (destruct E as [E|E]; [injection E as <- _; cbn; auto|]); contradiction.
  - intros m T. assert (P : forall x y, clos_trans _ (star_import circular (fun _ => false)) x y -> x = [$"a"] /\ y = [$"c"]).
    { intros x y. induction 1 as [x y H|x y z _ [-> ->] _ [E _]]; [now apply S|discriminate E]. }
    destruct (P m m T) as [-> E]. discriminate E.
  - discriminate.
Qed.

(** A module that star-imports itself and assigns a name that it does not define is read within no depth. *)
Definition itself (m : path) : option (list stmt) :=
  dget m [([$"builtins"], []); ([$"m"], [SImportFrom (Some $"m") [mk_alias $"*" None] 0; SAssign [Name $"x"] (Name $"y")])].
Lemma itself_resolved depth fuel st :
  mem [$"m"] (visited st) = true -> dget [$"m"] (definitions (db st)) = Some (Scope []) -> dget_or [$"m"] [] (submodules (db st)) = [[$"m"]] ->
  resolve_in (parse_stub_scope itself (fun _ => false) (fun _ _ => Ok true) depth) fuel [$"m"] [] [$"y"] st = Fails RecursionError.
Proof.
  intros V D S. induction fuel as [|fuel IH]; [reflexivity|]. cbn [resolve_in].
  assert (P : parse_stub_scope itself (fun _ => false) (fun _ _ => Ok true) depth [$"m"] st = Done st (Scope [])).
  { destruct depth; cbn [parse_stub_scope]; match goal with |- context [mem ?a ?b] => replace (mem a b) with true by (symmetry; exact V) end;
    unfold fetch; match goal with |- context [dget ?a ?b] => replace (dget a b) with (Some (Scope [])) by (symmetry; exact D) end; reflexivity. }
  rewrite P. cbn [sbind scope_contains_path dmem dget entries app]. 
  change (scope_contains_path (Scope []) [$"y"]) with false. cbv iota. change (dmem $"y" (entries (Scope []))) with false. cbv iota.
  match goal with |- context [dget_or ?a ?b (submodules ?c)] => replace (dget_or a b (submodules c)) with [[$"m"]] by (symmetry; exact S) end.
  cbn [try_submodules]. rewrite IH. reflexivity.
Qed.
Example C114_cycle_example :
  star_import itself (fun _ => false) [$"m"] [$"m"]
  /\ forall fuel, parse_modules itself (fun _ => false) (fun _ _ => Ok true) fuel [[$"m"]] = Fails RecursionError.
Proof.
  split.
  - eexists _, _. split; [reflexivity|]. split; [now left|]. do 4 eexists. split; [constructor|]. split; [now left|]. now split.
  - intros [|fuel]; [reflexivity|]. unfold parse_modules. cbn [each].
    assert (B : parse_stub_scope itself (fun _ => false) (fun _ _ => Ok true) (S fuel) builtins_path empty_state
                = parse_stub_scope itself (fun _ => false) (fun _ _ => Ok true) 1 builtins_path empty_state) by reflexivity.
    rewrite B. 
    set (r := parse_stub_scope itself (fun _ => false) (fun _ _ => Ok true) 1 builtins_path empty_state) in *. vm_compute in r. subst r.
    cbn [sbind]. match goal with |- context [parse_stub_scope _ _ _ _ [$"m"] ?st0] => set (st := st0) end.
    assert (E : parse_stub_scope itself (fun _ => false) (fun _ _ => Ok true) (S fuel) [$"m"] st = Fails RecursionError); [|now rewrite E].
    cbn [parse_stub_scope]. change (mem [$"m"] (visited st)) with false. cbv iota.
    change (itself [$"m"]) with (Some [SImportFrom (Some $"m") [mk_alias $"*" None] 0; SAssign [Name $"x"] (Name $"y")]). cbv iota zeta.
    cbn [each visit pure]. 
    change (to_parent_module_path 0 (Some $"m") [$"m"] false) with (Ok [$"m"]). cbn [pure sbind].
    change (to_maybe_path (Name $"y")) with (Some [$"y"]). cbv iota. unfold to_qualified_path.
    rewrite itself_resolved by (vm_compute; reflexivity). reflexivity.
Qed.
