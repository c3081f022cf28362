(** Properties C34-C40 of [resolve_object_path]. A recursion limit is the [fuel]
    of the model; [resolves] holds for all limits above some bound. *)
From Verif Require Import Base Scoping SpecScoping ScopingProofs SpecLookups LookupsProofs.

(** ** Sample databases *)
Module Db.
Definition leaf := Scope [].
Definition cls (attributes : list pystr) := Scope (map (fun a => (a, leaf)) attributes).
Definition mods := [([$"builtins"], Scope [($"object", cls [$"__init__"]); ($"open", leaf)])].

(** Module [m] star-imports [s] and [t], which star-import each other; [t]
    defines [x] and class [K] with attribute [a]. *)
Definition stars := mk_database
  (mods ++ [([$"m"], leaf); ([$"s"], leaf);
            ([$"t"], Scope [($"x", leaf); ($"open", leaf); ($"K", cls [$"a"])])])
  [([$"m"], []); ([$"s"], []); ([$"t"], []); ([$"builtins"], [])]
  [([$"m"], [[$"s"]; [$"t"]]); ([$"s"], [[$"t"]; [$"s"]; [$"m"]]); ([$"t"], [[$"s"]])]
  [].

(** Module [m] star-imports [s], which is empty, and then [t], which defines [open]. *)
Definition hidden := mk_database
  (mods ++ [([$"m"], leaf); ([$"s"], leaf); ([$"t"], Scope [($"open", leaf)])])
  [([$"m"], []); ([$"s"], []); ([$"t"], []); ([$"builtins"], [])]
  [([$"m"], [[$"s"]; [$"t"]])] [].

(** Module [m] imports [p] as [q] and [q.r] elsewhere. *)
Definition imports := mk_database
  (mods ++ [([$"m"], Scope [($"C", cls [$"a"])]); ([$"p"], Scope [($"r", cls [$"u"])]);
            ([$"p"; $"sub"], Scope [($"y", leaf)])])
  [([$"m"], [([$"q"], ([$"p"], [])); ([$"q"; $"r"], ([$"p"; $"sub"], [$"y"]));
             ([$"sub"], ([$"p"], [$"sub"]))]);
   ([$"p"], []); ([$"p"; $"sub"], []); ([$"builtins"], [])]
  [] [].

(** [a] and [b] import each other's name. *)
Definition cycle := mk_database
  (mods ++ [([$"m"], leaf)])
  [([$"m"], [([$"a"], ([$"m"], [$"b"])); ([$"b"], ([$"m"], [$"a"]))]); ([$"builtins"], [])]
  [] [].

(** [class A: f], [class B: g, __init__], [class C(A, B)] *)
Definition classes := mk_database
  (mods ++ [([$"m"], Scope [($"A", cls [$"f"]); ($"B", cls [$"g"; $"__init__"]); ($"C", leaf)])])
  [([$"m"], []); ([$"builtins"], [])]
  []
  [([$"m"], [([$"C"], [([$"m"], [$"A"]); ([$"m"], [$"B"])])])].
End Db.

Ltac listed := unfold known, has_references; cbn; repeat (first [left; reflexivity | right]).
Ltac run n := apply resolves_iff; split; [discriminate | exists n; reflexivity].
Ltac undefined :=
  let D := fresh in intros D; eapply defined_contains in D; [|reflexivity]; vm_compute in D; discriminate D.

(** ** C34 *)
Theorem C34_resolution_is_sound :
  forall db fuel m parent o visited m' o',
    resolve_object_path db fuel m parent o visited = Resolved (m', o') ->
    known db m' /\ defined db m' o'.
Proof.
  intros db f m p o v m' o' H. apply resolve_sound in H. split; [eapply defined_known; eauto | exact H].
Qed.
Print Assumptions C34_resolution_is_sound.

Example C34_case : resolves Db.imports [$"m"] [] [$"q"; $"r"; $"u"] [] ObjectNotFound
  /\ resolves Db.imports [$"m"] [] [$"q"; $"r"] [] (Resolved ([$"p"; $"sub"], [$"y"])).
Proof. split; run 5. Qed.

(** The outcome does not depend on the recursion limit, once reached. *)
Theorem C34_resolution_is_deterministic :
  forall db m parent o visited r r',
    resolves db m parent o visited r -> resolves db m parent o visited r' -> r = r'.
Proof. exact @resolves_unique. Qed.
Print Assumptions C34_resolution_is_deterministic.

(** ** C35 *)
Theorem C35_resolution_is_idempotent :
  forall db fuel fuel' m parent o visited visited' m' o',
    resolve_object_path db fuel m parent o visited = Resolved (m', o') -> 1 <= fuel' ->
    resolve_object_path db fuel' m' [] o' visited' = Resolved (m', o').
Proof.
  intros db f [|f'] m p o v v' m' o' H Hf; [lia|]. apply resolve_defined. eapply resolve_sound; eauto.
Qed.
Print Assumptions C35_resolution_is_idempotent.

Example C35_case : resolves Db.imports [$"m"] [$"C"] [$"sub"; $"y"] [] (Resolved ([$"p"; $"sub"], [$"y"]))
  /\ resolves Db.imports [$"p"; $"sub"] [] [$"y"] [] (Resolved ([$"p"; $"sub"], [$"y"])).
Proof. split; run 5. Qed.

(** ** C36 *)
Theorem C36_enclosing_scope_first :
  forall db m parent name rest visited,
    parent <> [] -> defined db m (parent ++ [name]) ->
    (defined db m (parent ++ name :: rest) ->
     resolves db m parent (name :: rest) visited (Resolved (m, parent ++ name :: rest)))
    /\ forall r, resolves db m parent (name :: rest) visited r
                 <-> resolves db m [] (parent ++ name :: rest) visited r.
Proof.
  intros db m p n rest v Hp Hd. split; [|intros r; now apply resolves_enclosed].
  intros H. apply resolves_enclosed; auto. now apply resolves_defined.
Qed.
Print Assumptions C36_enclosing_scope_first.

Theorem C36_then_the_module :
  forall db m parent name rest visited,
    defined db m parent -> not_enclosed db m parent name ->
    defined db m (name :: rest) ->
    resolves db m parent (name :: rest) visited (Resolved (m, name :: rest)).
Proof. intros. apply resolves_unenclosed; auto. now apply resolves_defined. Qed.
Print Assumptions C36_then_the_module.

Theorem C36_then_star_imports_in_order :
  forall db m parent name rest visited before s after r,
    defined db m parent -> not_enclosed db m parent name -> ~ defined db m [name] ->
    star_imports db m = before ++ s :: after ->
    (forall s', In s' before -> skipped db m (name :: rest) visited s') ->
    ~ In s visited -> resolves db s [] (name :: rest) (visited ++ [m]) r -> r <> ObjectNotFound ->
    resolves db m parent (name :: rest) visited r.
Proof.
  intros. apply resolves_unenclosed; auto. eapply resolves_star; eauto using defined_known.
Qed.
Print Assumptions C36_then_star_imports_in_order.

Theorem C36_then_the_longest_import :
  forall db m parent name rest visited k q q' r,
    defined db m parent -> not_enclosed db m parent name -> ~ defined db m [name] ->
    (forall s, In s (star_imports db m) -> skipped db m (name :: rest) visited s) ->
    0 < k <= length (name :: rest) -> reference db m (firstn k (name :: rest)) = Some q ->
    (forall j, k < j <= length (name :: rest) -> reference db m (firstn j (name :: rest)) = None) ->
    referent db q (visited ++ [m]) q' ->
    resolves db (fst q') [] (snd q' ++ skipn k (name :: rest)) (visited ++ [m]) r ->
    resolves db m parent (name :: rest) visited r.
Proof.
  intros. apply resolves_unenclosed; auto. eapply resolves_reference; eauto using defined_known.
Qed.
Print Assumptions C36_then_the_longest_import.

Theorem C36_then_builtins :
  forall db m parent name rest visited r,
    defined db m parent -> has_references db m -> not_enclosed db m parent name ->
    ~ defined db m [name] ->
    (forall s, In s (star_imports db m) -> skipped db m (name :: rest) visited s) ->
    (forall k, 0 < k <= length (name :: rest) -> reference db m (firstn k (name :: rest)) = None) ->
    known db [$"builtins"] ->
    (defined db [$"builtins"] (name :: rest) /\ r = Resolved ([$"builtins"], name :: rest)
     \/ ~ defined db [$"builtins"] (name :: rest) /\ r = ObjectNotFound) ->
    resolves db m parent (name :: rest) visited r.
Proof.
  intros. apply resolves_unenclosed; auto. eapply resolves_builtins; eauto using defined_known.
Qed.
Print Assumptions C36_then_builtins.

(** "Only then builtins" fails: the first star-imported module already falls
    back to builtins, hiding a later star import that defines the name. *)
Theorem C36_builtins_only_last_refuted :
  ~ (forall db m name s,
       known db m -> ~ defined db m [name] -> In s (star_imports db m) -> s <> [$"builtins"] ->
       defined db s [name] -> ~ resolves db m [] [name] [] (Resolved ([$"builtins"], [name]))).
Proof.
  intros H. apply (H Db.hidden [$"m"] $"open" [$"t"]).
  - listed.
  - undefined.
  - listed.
  - discriminate.
  - eexists. split; [reflexivity|]. econstructor; [reflexivity | constructor].
  - run 6.
Qed.
Print Assumptions C36_builtins_only_last_refuted.

Example C36_cases :
  resolves Db.imports [$"m"] [$"C"] [$"a"] [] (Resolved ([$"m"], [$"C"; $"a"]))
  /\ resolves Db.imports [$"m"] [$"C"] [$"C"; $"a"] [] (Resolved ([$"m"], [$"C"; $"a"]))
  /\ resolves Db.stars [$"m"] [] [$"K"; $"a"] [] (Resolved ([$"t"], [$"K"; $"a"]))
  /\ resolves Db.imports [$"m"] [] [$"q"; $"r"] [] (Resolved ([$"p"; $"sub"], [$"y"]))
  /\ resolves Db.imports [$"m"] [] [$"q"; $"r"; $"__init__"] []
       (Resolved ([$"builtins"], [$"object"; $"__init__"]))
  /\ resolves Db.imports [$"m"] [] [$"open"] [] (Resolved ([$"builtins"], [$"open"])).
Proof. repeat split; try discriminate; exists 6; intros [|[|[|[|[|[|f]]]]]] Hf; try lia; reflexivity. Qed.

(** ** C37 *)
Theorem C37_star_cycles_bounded :
  forall db fuel m parent o visited,
    no_links db -> 2 * length (definitions db) + 5 <= fuel ->
    resolve_object_path db fuel m parent o visited <> Raises RecursionError.
Proof. exact @star_terminates_bound. Qed.
Print Assumptions C37_star_cycles_bounded.

(** The name is found whatever the cycles. *)
Theorem C37_star_cycles_find_the_name :
  forall db name m s,
    no_links db -> complete_tables db -> star_reach db name m s -> defined db s [name] ->
    exists m', resolves db m [] [name] [] (Resolved (m', [name]))
               /\ defined db m' [name] /\ (star_reach db name m m' \/ m' = builtins_path).
Proof. exact @name_found. Qed.
Print Assumptions C37_star_cycles_find_the_name.

Lemma stars_no_links : no_links Db.stars.
Proof.
  split; [|reflexivity]. intros m p. unfold reference.
  destruct (dget m (references Db.stars)) as [t|] eqn:E; [|reflexivity].
  apply dget_Some_In in E. cbn in E. intuition; match goal with K : (_, _) = _ |- _ => now inv K end.
Qed.
Lemma stars_complete : complete_tables Db.stars.
Proof.
  split; [now left|]. unfold known, has_references. cbn. intros m H. tauto.
Qed.
Example C37_case : no_links Db.stars /\ complete_tables Db.stars
  /\ star_reach Db.stars $"x" [$"m"] [$"t"] /\ defined Db.stars [$"t"] [$"x"]
  /\ resolves Db.stars [$"m"] [] [$"x"] [] (Resolved ([$"t"], [$"x"])).
Proof.
  split; [exact stars_no_links|]. split; [exact stars_complete|]. split; [|split].
  - eapply sr_step with (m' := [$"s"]); [listed | undefined | listed |].
    eapply sr_step with (m' := [$"t"]); [listed | undefined | listed |]. constructor.
  - eexists. split; [reflexivity|]. econstructor; [reflexivity | constructor].
  - run 6.
Qed.

(** ** C38 *)
(** Two names imported from each other are never resolved. *)
Lemma cycle_loops fuel visited name :
  name = $"a" \/ name = $"b" ->
  resolve_object_path Db.cycle fuel [$"m"] [] [name] visited = Raises RecursionError.
Proof.
  revert visited name. induction fuel as [|f IH]; intros v name H; [reflexivity|].
  rewrite resolve_S. destruct H as [-> | ->].
  - change (via_reference Db.cycle (resolve_object_path Db.cycle f) [$"m"] ([$"m"], [$"b"]) [] v
            = Raises RecursionError).
    unfold via_reference. cbn [fst snd]. rewrite IH; [reflexivity | now right].
  - change (via_reference Db.cycle (resolve_object_path Db.cycle f) [$"m"] ([$"m"], [$"a"]) [] v
            = Raises RecursionError).
    unfold via_reference. cbn [fst snd]. rewrite IH; [reflexivity | now left].
Qed.

Theorem C38_always_terminates_refuted :
  ~ (forall db m parent o, terminates db m parent o []).
Proof.
  intros H. destruct (H Db.cycle [$"m"] [] [$"a"]) as [r [Hr [n Hn]]].
  rewrite <- (Hn n (le_n n)) in Hr. apply Hr. apply cycle_loops. now left.
Qed.
Print Assumptions C38_always_terminates_refuted.

(** It terminates unless base-class and reference links form an infinite chain,
    whatever the star imports in between. *)
Theorem C38_terminates_partial :
  forall db m parent o visited,
    Acc (hop db) (m, o) -> Acc (hop db) (m, parent ++ o) -> terminates db m parent o visited.
Proof. exact @acc_terminates_scoped. Qed.
Print Assumptions C38_terminates_partial.

(** Exactly: it terminates unless lookups lead to each other for ever. *)
Theorem C38_exactly :
  forall db m parent o visited,
    terminates db m parent o visited <-> Acc (leads db) (m, parent, o, visited).
Proof.
  intros db m parent o visited.
  split; [exact (@ended_acc db (m, parent, o, visited))|exact (@acc_ended db (m, parent, o, visited))].
Qed.
Print Assumptions C38_exactly.
(** Lookups that lead to each other for ever raise [RecursionError] at every limit. *)
Theorem C38_for_ever :
  forall db (P : lookup -> Prop),
    (forall x, P x -> exists y, P y /\ leads db y x) ->
    forall fuel m parent o visited, P (m, parent, o, visited) ->
    resolve_object_path db fuel m parent o visited = Raises RecursionError.
Proof. intros db P H fuel m parent o visited Hx. exact (@for_ever_endless db P H fuel (m, parent, o, visited) Hx). Qed.
Print Assumptions C38_for_ever.

(** [a] leads to [b], which leads to [a]; [open] leads nowhere. *)
Example C38_exactly_case :
  (forall visited,
     leads Db.cycle ([$"m"], [], [$"b"], visited ++ [[$"m"]]) ([$"m"], [], [$"a"], visited)
     /\ leads Db.cycle ([$"m"], [], [$"a"], visited ++ [[$"m"]]) ([$"m"], [], [$"b"], visited))
  /\ terminates Db.cycle [$"m"] [] [$"open"] []
  /\ (forall fuel, resolve_object_path Db.cycle fuel [$"m"] [] [$"a"] [] = Raises RecursionError).
Proof.
  assert (L : forall visited,
     leads Db.cycle ([$"m"], [], [$"b"], visited ++ [[$"m"]]) ([$"m"], [], [$"a"], visited)
     /\ leads Db.cycle ([$"m"], [], [$"a"], visited ++ [[$"m"]]) ([$"m"], [], [$"b"], visited)).
  { assert (D : defined Db.cycle [$"m"] []) by (eexists; split; [reflexivity|constructor]).
    intros v. split.
    - apply (@le_referent Db.cycle [$"m"] [] $"a" [] v 1 ([$"m"], [$"b"])); [exact D|now left|undefined|now intros s []|cbn; lia|reflexivity|cbn; intros j Hj; lia].
    - apply (@le_referent Db.cycle [$"m"] [] $"b" [] v 1 ([$"m"], [$"a"])); [exact D|now left|undefined|now intros s []|cbn; lia|reflexivity|cbn; intros j Hj; lia]. }
  split; [exact L|split; [exists (Resolved ([$"builtins"], [$"open"])); run 6|]].
  intros fuel. apply (@C38_for_ever Db.cycle (fun x => exists v, x = ([$"m"], [], [$"a"], v) \/ x = ([$"m"], [], [$"b"], v))).
  - intros x (v & [->| ->]); eexists; (split; [|now apply L]); exists (v ++ [[$"m"]]); auto.
  - exists []. now left.
Qed.

Lemma no_links_hop db x y : no_links db -> hop db y x -> exists o2,
  o2 <> [] /\ y = (builtins_path, object_name :: o2).
Proof.
  intros [Hr Hb] (z & _ & H). inv H; try (rewrite Hr in *; discriminate).
  - rewrite Hb in *. easy.
  - eauto.
Qed.

Example C38_case : forall m o, Acc (hop Db.stars) (m, o).
Proof.
  assert (Obj : forall o2, Acc (hop Db.stars) (builtins_path, object_name :: o2)).
  { intros o2. constructor. intros y (z & Hs & Hl). exfalso.
    assert (z = (builtins_path, object_name :: o2)).
    { inv Hs; [reflexivity|]. destruct H as (_ & _ & Hd). exfalso.
      apply (Hd object_name o2 eq_refl). eexists. split; [reflexivity|].
      econstructor; [reflexivity | constructor]. }
    subst z. inversion Hl; subst.
    - match goal with K : In _ (bases _ _) |- _ =>
        rewrite (proj2 stars_no_links) in K; destruct K end.
    - destruct o1 as [|x o1]; [contradiction|]. cbn in *. congruence.
    - match goal with K : reference _ _ _ = Some _ |- _ =>
        rewrite (proj1 stars_no_links) in K; discriminate K end.
    - match goal with K : reference _ _ _ = Some _ |- _ =>
        rewrite (proj1 stars_no_links) in K; discriminate K end. }
  intros m o. constructor. intros y Hy.
  destruct (no_links_hop _ _ _ stars_no_links Hy) as (o2 & _ & ->). apply Obj.
Qed.

(** ** C39 *)
Theorem C39_first_base_with_the_attribute :
  forall db m (c : path) attribute (rest : path) visited before b after r,
    c <> [] -> defined db m c -> ~ defined db m (c ++ [attribute]) ->
    bases db (m, c) = before ++ b :: after ->
    (forall b', In b' before ->
       resolves db (fst b') [] (snd b' ++ attribute :: rest) (visited ++ [m]) ObjectNotFound) ->
    resolves db (fst b) [] (snd b ++ attribute :: rest) (visited ++ [m]) r -> r <> ObjectNotFound ->
    resolves db m [] (c ++ attribute :: rest) visited r.
Proof. exact @resolves_base. Qed.
Print Assumptions C39_first_base_with_the_attribute.

Theorem C39_object_when_no_base_has_it :
  forall db m (c : path) attribute (rest : path) visited r,
    c <> [] -> defined db m c -> ~ defined db m (c ++ [attribute]) ->
    (forall b, In b (bases db (m, c)) ->
       resolves db (fst b) [] (snd b ++ attribute :: rest) (visited ++ [m]) ObjectNotFound) ->
    (@hd pystr [] c = $"object" /\ r = ObjectNotFound
     \/ @hd pystr [] c <> $"object"
        /\ resolves db [$"builtins"] [] ($"object" :: attribute :: rest) visited r) ->
    resolves db m [] (c ++ attribute :: rest) visited r.
Proof. exact @resolves_object. Qed.
Print Assumptions C39_object_when_no_base_has_it.

(** For attributes that [object] does not have, lookup is depth first with
    bases in order. *)
Theorem C39_depth_first_lookup_partial :
  forall db attribute c result,
    inherits db attribute c result -> object_lacks db attribute -> well_placed db c ->
    forall visited,
    resolves db (fst c) [] (snd c ++ [attribute]) visited
      match result with
      | Some d => Resolved (fst d, snd d ++ [attribute])
      | None => ObjectNotFound
      end.
Proof. exact @inherits_resolves. Qed.
Print Assumptions C39_depth_first_lookup_partial.

Lemma classes_placed : well_placed Db.classes ([$"m"], [$"C"]).
Proof.
  assert (D : forall n, In n [$"A"; $"B"; $"C"] -> defined Db.classes [$"m"] [n]).
  { intros n Hn. eexists. split; [reflexivity|]. cbn in Hn.
    destruct Hn as [<-|[<-|[<-|[]]]]; (econstructor; [reflexivity | constructor]). }
  intros d Hd. inv Hd; [split; [discriminate | apply D; listed]|].
  cbn in H. destruct H as [<-|[<-|[]]]; (inv H0;
    [split; [discriminate | apply D; listed] | easy]).
Qed.
Lemma classes_A_g : inherits Db.classes $"g" ([$"m"], [$"A"]) None.
Proof. apply in_none; [undefined | easy]. Qed.
Lemma classes_C_g : inherits Db.classes $"g" ([$"m"], [$"C"]) (Some ([$"m"], [$"B"])).
Proof.
  eapply in_base with (before := [([$"m"], [$"A"])]); [undefined | reflexivity | |].
  - intros b' [<-|[]]. exact classes_A_g.
  - apply in_here. eexists. split; [reflexivity|]. repeat (econstructor; [reflexivity|]). constructor.
Qed.
Lemma classes_C_init : inherits Db.classes $"__init__" ([$"m"], [$"C"]) (Some ([$"m"], [$"B"])).
Proof.
  eapply in_base with (before := [([$"m"], [$"A"])]); [undefined | reflexivity | |].
  - intros b' [<-|[]]. apply in_none; [undefined | easy].
  - apply in_here. eexists. split; [reflexivity|]. repeat (econstructor; [reflexivity|]). constructor.
Qed.
Example C39_case : object_lacks Db.classes $"g" /\ well_placed Db.classes ([$"m"], [$"C"])
  /\ inherits Db.classes $"g" ([$"m"], [$"C"]) (Some ([$"m"], [$"B"]))
  /\ resolves Db.classes [$"m"] [] [$"C"; $"g"] [] (Resolved ([$"m"], [$"B"; $"g"])).
Proof.
  split; [|split; [exact classes_placed | split; [exact classes_C_g | run 6]]].
  split; [|split; [undefined | reflexivity]].
  eexists. split; [reflexivity|]. econstructor; [reflexivity | constructor].
Qed.

(** An attribute of [object] hides the one of a later base: [C.__init__] is
    [object.__init__] although [B] defines it. *)
Theorem C39_bases_before_object_refuted :
  ~ (forall db attribute c d,
       inherits db attribute c (Some d) -> well_placed db c ->
       resolves db (fst c) [] (snd c ++ [attribute]) [] (Resolved (fst d, snd d ++ [attribute]))).
Proof.
  intros H. specialize (H Db.classes $"__init__" ([$"m"], [$"C"]) ([$"m"], [$"B"])).
  assert (E : resolves Db.classes [$"m"] [] [$"C"; $"__init__"] []
                (Resolved ([$"builtins"], [$"object"; $"__init__"]))) by run 6.
  assert (E' := resolves_unique E (H classes_C_init classes_placed)).
  discriminate E'.
Qed.
Print Assumptions C39_bases_before_object_refuted.

(** So it is for every attribute that [object] has: of several bases only the
    first is looked at. *)
Theorem C39_attributes_of_object :
  forall db attribute c d,
    along_first_bases db attribute c d -> defined db [$"builtins"] [$"object"; attribute] -> well_placed db c ->
    forall visited,
    resolves db (fst c) [] (snd c ++ [attribute]) visited (Resolved (fst d, snd d ++ [attribute])).
Proof. exact @along_first_bases_resolves. Qed.
Print Assumptions C39_attributes_of_object.

Example C39_attributes_of_object_case :
  along_first_bases Db.classes $"__init__" ([$"m"], [$"C"]) ([$"builtins"], [$"object"])
  /\ defined Db.classes [$"builtins"] [$"object"; $"__init__"] /\ well_placed Db.classes ([$"m"], [$"C"])
  /\ resolves Db.classes [$"m"] [] [$"C"; $"__init__"] [] (Resolved ([$"builtins"], [$"object"; $"__init__"])).
Proof.
  split; [|split; [|split; [exact classes_placed | run 6]]].
  - eapply first_base; [undefined | reflexivity|]. apply first_object; [undefined | reflexivity | discriminate].
  - eexists. split; [reflexivity|]. repeat (econstructor; [reflexivity|]). constructor.
Qed.

(** ** C40 *)
Theorem C40_membership_agrees :
  forall db fuel m parent o,
    (contains_object_path db fuel m parent o = Ok true <->
       exists q, resolve_object_path db fuel m parent o [] = Resolved q)
    /\ (contains_object_path db fuel m parent o = Ok false <->
       resolve_object_path db fuel m parent o [] = ObjectNotFound)
    /\ (forall e, contains_object_path db fuel m parent o = Err e <->
       resolve_object_path db fuel m parent o [] = Raises e).
Proof.
  intros db f m p o. unfold contains_object_path.
  destruct (resolve_object_path db f m p o []) as [q| |e].
  - split; [split; eauto | split; [easy | intros e; split; discriminate]].
  - split; [split; [discriminate | now intros [q H]] | split; [easy | intros e; split; discriminate]].
  - split; [split; [discriminate | now intros [q H]] | split; [easy | intros e'; split; intros H; now inv H]].
Qed.
Print Assumptions C40_membership_agrees.

Example C40_case : contains_object_path Db.stars 6 [$"m"] [] [$"x"] = Ok true
  /\ contains_object_path Db.stars 6 [$"m"] [] [$"z"] = Ok false
  /\ contains_object_path Db.cycle 6 [$"m"] [] [$"a"] = Err RecursionError.
Proof. repeat split. Qed.
