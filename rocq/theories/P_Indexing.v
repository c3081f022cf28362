(** Properties C59 and C60: the index of objects. *)
From Verif Require Import Base Catalog Scoping Stubs Indexing SpecIndexing IndexingProofs.

(** ** Samples *)
Module Samples.
(** module [m]: class A with a method f, an attribute A being A itself and an inner
    class B with an attribute A; a function g; a number n *)
Definition objects (o : nat) : Catalog.value :=
  match o with
  | 1 => TypeValue (mk_type $"m" $"A")
  | 2 => TypeValue (mk_type $"m" $"A.B")
  | 3 => PythonFunction (Some $"m") $"A.f"
  | 4 => BuiltinFunction (OwnerModule (mk_module $"m" None)) $"g"
  | _ => OtherValue
  end.
Definition attributes (o : nat) : list (pystr * nat) :=
  match o with
  | 0 => [($"A", 1); ($"g", 4); ($"n", 5)]
  | 1 => [($"f", 3); ($"A", 1); ($"B", 2)]
  | 2 => [($"A", 1)]
  | _ => []
  end.
Definition h : heap nat := mk_heap _ objects attributes.
Definition import (m : path) : option nat := if m == [$"m"] then Some 0 else None.
End Samples.

(** ** C59 *)
(** With finitely many classes indexing ends, whatever the cycles between them. *)
Theorem C59_terminates :
  forall O (E : Eqb O) (h : heap O) (import_module : path -> option O) classes modules,
    (forall ns name v, In (name, v) (members h ns) -> is_class h v -> In v classes) ->
    exists result, forall fuel, length classes < fuel -> from_modules h import_module fuel modules = Ok result.
Proof.
  intros O E h imp classes modules F.
  assert (F' : forall ns name v, In (name, v) (members h ns) -> is_type h v = true -> In v classes)
    by (intros ns name v I T; eapply F; [exact I|now apply is_type_class]).
  destruct (index_modules_ok h imp classes (S (length classes)) modules [] F') as [result R]; [lia|].
  exists result. intros fuel L. unfold from_modules. rewrite <- R. apply (index_modules_same h imp classes); auto.
Qed.
Print Assumptions C59_terminates.

(** A location is recorded for a qualified path exactly when it leads from the module
    through distinct classes to a class or a named object with this path. *)
Theorem C59_sound_and_complete :
  forall O (E : Eqb O) (h : heap O) (import_module : path -> option O) fuel modules result,
    from_modules h import_module fuel modules = Ok result ->
    forall q m p,
      locations result q (m, p) <->
      In m modules /\ exists module v, import_module m = Some module /\ reaches h module p v /\ indexed h v q.
Proof.
  intros O E h imp fuel modules result R q m p.
  rewrite lookup_locations, (index_modules_lookup h imp fuel modules [] result R). cbn. split.
  - intros [[]|(m' & p' & es & I & Es & J & [= <- <-])]. split; [exact I|]. unfold module_events in Es.
    destruct (imp m) as [o|]; [|injection Es as <-; destruct J].
    apply (events_iff h _ _ _ _ _ Es) in J as (s & v & -> & L & Q). exists o, v. split; [reflexivity|].
    split; [now apply leads_reaches|exact Q].
  - intros (I & o & v & Io & L & Q). right.
    assert (X : exists es, module_events h imp fuel m = Ok es).
    { clear -R I. unfold from_modules in R. revert R. generalize (@nil (path * dict path (list qualified_path))). intros paths R.
      revert paths R. induction modules as [|m' r IH]; intros paths R; [easy|]. cbn [index_modules] in R.
      rewrite index_module_events in R. destruct (module_events h imp fuel m') as [es|x] eqn:Es; [|discriminate].
      destruct I as [->|I]; [eauto|]. cbn [bind_res] in R. now apply (IH I _ R). }
    destruct X as [es Es]. exists m, p, es. split; [exact I|]. split; [exact Es|]. split; [|reflexivity].
    unfold module_events in Es. rewrite Io in Es. apply (events_iff h _ _ _ _ _ Es). exists p, v.
    split; [reflexivity|]. split; [now apply leads_reaches|exact Q].
Qed.
Print Assumptions C59_sound_and_complete.

(** No location is recorded twice. *)
Theorem C59_once :
  forall O (E : Eqb O) (h : heap O) (import_module : path -> option O) fuel modules result q objects ls,
    (forall o, NoDup (map fst (members h o))) -> NoDup modules ->
    from_modules h import_module fuel modules = Ok result ->
    dget (fst q) result = Some objects -> dget (snd q) objects = Some ls -> NoDup ls.
Proof.
  intros O E h imp fuel modules result q os ls U N R A B.
  assert (X : NoDup (lookup q result)).
  { apply (index_modules_nodup h imp fuel modules [] result U N R q); [constructor|intros m p _ []]. }
  now rewrite (lookup_eq q result os ls A B) in X.
Qed.
Print Assumptions C59_once.

(** Modules that cannot be imported do not matter. *)
Theorem C59_failed_imports :
  forall O (E : Eqb O) (h : heap O) (import_module : path -> option O) fuel modules,
    from_modules h import_module fuel modules
    = from_modules h import_module fuel
        (filter (fun m => match import_module m with Some _ => true | None => false end) modules).
Proof.
  intros O E h imp fuel modules. unfold from_modules. generalize (@nil (path * dict path (list qualified_path))).
  induction modules as [|m r IH]; intros paths; [reflexivity|]. cbn [index_modules filter]. unfold index_module_path at 1.
  destruct (imp m) as [o|] eqn:Io; [|apply IH]. cbn [index_modules]. unfold index_module_path. rewrite Io.
  destruct (index_module_or_type h fuel m o [] [] paths); [cbn; apply IH|reflexivity].
Qed.
Print Assumptions C59_failed_imports.

Example C59_example :
  from_modules Samples.h Samples.import 4 [[$"x"]; [$"m"]]
  = Ok [([$"m"], [([$"A"], [([$"m"], [$"A"])]); ([$"A"; $"f"], [([$"m"], [$"A"; $"f"])]);
                  ([$"A"; $"B"], [([$"m"], [$"A"; $"B"])]); ([$"g"], [([$"m"], [$"g"])])])].
Proof. vm_compute. reflexivity. Qed.
Example C59_example_reaches : reaches Samples.h 0 [$"A"; $"f"] 3 /\ indexed Samples.h 3 ([$"m"], [$"A"; $"f"]).
Proof.
  split.
  - exists [1]. split; [repeat (econstructor; [cbn; auto|]); constructor|]. split; [constructor; [now exists (mk_type $"m" $"A")|constructor]|].
    split; [repeat constructor; intros []|]. intros [t F]. discriminate.
  - split; [vm_compute; reflexivity|]. right. discriminate.
Qed.

(** ** C60 *)
(** What is kept for a qualified path is what was there, in order, less what the
    stubs do not resolve. *)
Theorem C60_exactly_resolvable :
  forall (db : database) fuel (paths found : index),
    NoDup (dkeys paths) -> (forall m objects, In (m, objects) paths -> NoDup (dkeys objects)) ->
    to_supported_qualified_paths (contains_object_path db fuel) paths = Ok found ->
    (forall q l, locations found q l <->
                 locations paths q l /\ exists r, resolve_object_path db fuel (fst l) [] (snd l) [] = Resolved r)
    /\ (forall q objects ls, dget (fst q) found = Some objects -> dget (snd q) objects = Some ls ->
          exists objects' ls', dget (fst q) paths = Some objects' /\ dget (snd q) objects' = Some ls'
            /\ ls = filter (fun l => match resolve_object_path db fuel (fst l) [] (snd l) [] with
                                      | Resolved _ => true | _ => false end) ls').
Proof.
  intros db fuel paths found N U E. pose proof (supported_lookup _ paths found N U E) as L. split.
  - intros q l. rewrite !lookup_locations, L, filter_In. apply and_iff_compat_l. unfold is_supported, contains_object_path.
    destruct (resolve_object_path db fuel (fst l) [] (snd l) []); split; try discriminate; try (intros [? ?]; discriminate); eauto.
  - intros q objects ls A B. specialize (L q). rewrite (lookup_eq q found objects ls A B) in L.
    assert (Ne : ls <> []).
    { apply dget_Some_In in A, B. destruct (supported_not_empty _ paths found N U E _ _ A) as [_ K]. eapply K. exact B. }
    destruct (lookup q paths) as [|l r] eqn:Lq; [now rewrite L in Ne|].
    assert (I : locations paths q l) by (apply lookup_locations; rewrite Lq; now left).
    destruct I as (os & ls' & C & D & _). exists os, ls'.
    split; [exact C|]. split; [exact D|]. rewrite L, <- Lq, (lookup_eq q paths os ls' C D). apply filter_ext. intros x.
    unfold is_supported, contains_object_path. now destruct (resolve_object_path db fuel (fst x) [] (snd x) []).
Qed.
Print Assumptions C60_exactly_resolvable.

Theorem C60_no_empty_entries :
  forall (db : database) fuel (paths found : index),
    NoDup (dkeys paths) -> (forall m objects, In (m, objects) paths -> NoDup (dkeys objects)) ->
    to_supported_qualified_paths (contains_object_path db fuel) paths = Ok found ->
    forall m objects, In (m, objects) found -> objects <> [] /\ forall o ls, In (o, ls) objects -> ls <> [].
Proof. intros db fuel paths found N U E. exact (supported_not_empty _ paths found N U E). Qed.
Print Assumptions C60_no_empty_entries.

(** It fails exactly when resolving one of the locations fails with another error
    than not finding it. *)
Theorem C60_failures :
  forall (db : database) fuel (paths : index),
    is_ok (to_supported_qualified_paths (contains_object_path db fuel) paths) = false <->
    exists m objects o ls l e,
      In (m, objects) paths /\ In (o, ls) objects /\ In l ls
      /\ resolve_object_path db fuel (fst l) [] (snd l) [] = Raises e.
Proof.
  intros db fuel paths. unfold to_supported_qualified_paths. split.
  - intros F.
    destruct (existsb (fun x => existsb (fun y => existsb (fun l => negb (is_ok (contains_object_path db fuel (fst l) [] (snd l))))
                                                   (snd y)) (snd x)) paths) eqn:X.
    + apply existsb_exists in X as ([m objects] & I & X). apply existsb_exists in X as ([o ls] & J & X).
      apply existsb_exists in X as (l & K & X). unfold contains_object_path in X.
      destruct (resolve_object_path db fuel (fst l) [] (snd l) []) eqn:R; try discriminate. exists m, objects, o, ls, l, e. auto.
    + exfalso. assert (G : is_ok (supported_modules (contains_object_path db fuel) paths []) = true); [|congruence].
      apply supported_modules_ok. intros m objects o ls l I J K. apply negb_false_iff. apply not_true_is_false. intros Y.
      apply not_true_iff_false in X. apply X. apply existsb_exists. exists (m, objects). split; [exact I|]. apply existsb_exists.
      exists (o, ls). split; [exact J|]. apply existsb_exists. exists l. auto.
  - intros (m & objects & o & ls & l & e & I & J & K & R). apply not_true_is_false. intros Y.
    pose proof (proj1 (supported_modules_ok _ paths []) Y m objects o ls l I J K) as Z. unfold contains_object_path in Z.
    now rewrite R in Z.
Qed.
Print Assumptions C60_failures.

(** The index is as C60 asks for. *)
Theorem C60_index_well_formed :
  forall O (E : Eqb O) (h : heap O) (import_module : path -> option O) fuel modules result,
    from_modules h import_module fuel modules = Ok result ->
    NoDup (dkeys result) /\ forall m objects, In (m, objects) result -> NoDup (dkeys objects).
Proof.
  intros O E h imp fuel modules result R. eapply index_modules_well_formed; [|exact R]. split; [constructor|intros m os []].
Qed.
Print Assumptions C60_index_well_formed.

Definition C60_db : database :=
  mk_database [([$"builtins"], Scope []); ([$"m"], Scope [($"A", Scope [])])] [([$"m"], [])] [([$"m"], [])] [([$"m"], [])].
Example C60_example :
  to_supported_qualified_paths (contains_object_path C60_db 5)
    [([$"m"], [([$"A"], [([$"m"], [$"A"]); ([$"m"], [$"B"; $"A"])]); ([$"g"], [([$"m"], [$"g"])])]);
     ([$"_m"], [([$"x"], [([$"m"], [$"x"])])])]
  = Ok [([$"m"], [([$"A"], [([$"m"], [$"A"])])])].
Proof. vm_compute. reflexivity. Qed.
