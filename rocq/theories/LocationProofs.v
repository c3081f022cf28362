(** Proofs about stub locations, fallback and partial objects
    (signatures.py:34-133, 395-408, 462-535). *)
From Verif Require Import Base PySort Models SpecCall ModelsProofs CallTheorems BindLaws ModelsMore OverloadLaws
  Ast Conversion Scoping SpecScoping ScopingProofs Signatures SpecSignatures SignaturesProofs HierarchyProofs.
Set Implicit Arguments.

Section Locations.
Variables (stubs : stubs_tables) (limit : nat).
Context {O : Type} `{Eqb O}.
Variables (sys_modules : dict pystr O) (getattr : O -> pystr -> option O).
Variable qualified_path_from : O -> qualified_path.
Notation db := (database_of stubs).
Notation paths table := (resolve_qualified_paths stubs limit sys_modules getattr qualified_path_from table).
Notation resolved c q := (resolve_object_path db limit (fst c) [] (snd c) [] = Resolved q).

Lemma attribute_chain_spec m p o : attribute_chain getattr m p = Some o <-> attribute getattr m p o.
Proof.
  split.
  - revert m. induction p as [|n p IH]; intros m E; cbn in E; [inv E; constructor|].
    destruct (getattr m n) eqn:En; [|discriminate]. econstructor; eauto.
  - induction 1 as [|x n y p r E _ IH]; cbn; [reflexivity|]. now rewrite E.
Qed.
Lemma value_has_plausible value q :
  value_has_qualified_path sys_modules getattr value q = true <-> plausible sys_modules getattr value q.
Proof.
  unfold value_has_qualified_path, plausible.
  destruct (dget (join $"." (fst q)) sys_modules) as [m|] eqn:E.
  - split.
    + intros Hc. right. exists m. split; [reflexivity|]. apply attribute_chain_spec.
      destruct (attribute_chain getattr m (snd q)) as [o|]; [|discriminate]. f_equal. now apply eqb_to_eq.
    + intros [Hn|(m' & Em & Ha)]; [discriminate|]. inv Em. apply attribute_chain_spec in Ha. rewrite Ha. apply eqb_refl.
  - split; auto.
Qed.

Lemma try_resolve_cases c :
  (exists q, resolved c q /\ try_resolve_object_path stubs limit c = Return q)
  \/ (resolve_object_path db limit (fst c) [] (snd c) [] = ObjectNotFound
      /\ try_resolve_object_path stubs limit c = Return ([], []))
  \/ (exists e, resolve_object_path db limit (fst c) [] (snd c) [] = Raises e
      /\ try_resolve_object_path stubs limit c = Throws e).
Proof.
  unfold try_resolve_object_path, resolve.
  destruct (resolve_object_path db limit (fst c) [] (snd c) []) as [q| |e]; eauto 6.
Qed.

Definition nonempty (q : qualified_path) : bool := negb (is_nil (fst q)) && negb (is_nil (snd q)).
Lemma nonempty_spec q : nonempty q = true <-> fst q <> [] /\ snd q <> [].
Proof. unfold nonempty. rewrite andb_true_iff, !is_nil_false. reflexivity. Qed.

Definition finish (cs : list qualified_path) : outcome (list qualified_path) :=
  do resolved <- omap (try_resolve_object_path stubs limit) cs;
  Return (sorted qualified_path_leb (set_of (filter nonempty resolved))).

Lemma finish_In cs l : finish cs = Return l ->
  forall q, In q l <-> exists c, In c cs /\ resolved c q /\ fst q <> [] /\ snd q <> [].
Proof.
  unfold finish. destruct (omap _ cs) as [rs| |e] eqn:E; cbn [obind]; try discriminate. intros El q. inv El.
  apply omap_ok in E.
  assert (P : forall x, In x (sorted qualified_path_leb (set_of (filter nonempty rs))) <-> In x (filter nonempty rs)).
  { intros x. rewrite <- (set_of_In (filter nonempty rs)). split; apply Permutation_in;
      [apply Permutation_sym|]; apply sorted_perm. }
  rewrite P, filter_In, nonempty_spec. split.
  - intros [Hq [H1 H2]]. destruct (Forall2_In_r _ E Hq) as (c & Hc & Er).
    destruct (try_resolve_cases c) as [(q' & Hr & Ht)|[[Hr Ht]|(e & Hr & Ht)]]; rewrite Ht in Er; inv Er.
    + eauto 6.
    + now destruct H1.
  - intros (c & Hc & Hr & H1 & H2). destruct (Forall2_In_l _ E Hc) as (q' & Hq & Er).
    destruct (try_resolve_cases c) as [(q'' & Hr' & Ht)|[[Hr' Ht]|(e & Hr' & Ht)]]; try congruence.
    assert (q' = q) by congruence. subst. auto.
Qed.
Lemma strictly xs : NoDup xs -> StronglySorted (fun a b => qualified_path_leb a b = true) xs -> strictly_sorted xs.
Proof.
  intros Hn Hs. induction Hs as [|x xs Hs IH Hx]; constructor; inv Hn; [now apply IH|].
  rewrite Forall_forall in *. intros y Hy. split; [auto|]. intros ->. contradiction.
Qed.
Lemma finish_sorted cs l : finish cs = Return l -> strictly_sorted l.
Proof.
  unfold finish. destruct (omap _ cs) as [rs| |e] eqn:E; cbn [obind]; try discriminate. intros El. inv El.
  apply strictly.
  - eapply Permutation_NoDup; [apply sorted_perm | apply set_of_NoDup].
  - apply sorted_sorted; [apply qualified_path_total | apply qualified_path_trans].
Qed.
Lemma strictly_unique l l' : strictly_sorted l -> strictly_sorted l' -> same_elements l l' -> l = l'.
Proof.
  assert (W : forall l, strictly_sorted l -> NoDup l /\ StronglySorted (fun a b => qualified_path_leb a b = true) l).
  { induction 1 as [|x xs Hs [IH1 IH2] Hx]; [split; constructor|]. rewrite Forall_forall in Hx. split; constructor; auto.
    - intros Hi. now destruct (Hx x Hi).
    - apply Forall_forall. intros y Hy. now apply Hx. }
  intros H1 H2 E. destruct (W _ H1), (W _ H2).
  eapply sorted_unique; eauto using qualified_path_antisym. apply NoDup_Permutation; auto.
Qed.
Lemma finish_throws cs : (exists e, finish cs = Throws e) <->
  exists c e, In c cs /\ resolve_object_path db limit (fst c) [] (snd c) [] = Raises e.
Proof.
  unfold finish.
  transitivity (exists e, omap (try_resolve_object_path stubs limit) cs = Throws e).
  - destruct (omap _ cs); cbn [obind]; split; intros [e' E]; try discriminate; eauto.
  - rewrite omap_throws.
    + split; intros (c & e & Hc & E); exists c; destruct (try_resolve_cases c) as [(q' & Hr & Ht)|[[Hr Ht]|(e' & Hr & Ht)]];
        try congruence; eauto.
    + intros c _ E. destruct (try_resolve_cases c) as [(q' & Hr & Ht)|[[Hr Ht]|(e' & Hr & Ht)]]; congruence.
Qed.
Lemma finish_found cs : finish cs <> SignatureNotFound.
Proof.
  unfold finish. destruct (omap _ cs) eqn:E; cbn [obind]; try discriminate. exfalso.
  revert E. induction cs as [|c cs IH]; cbn; [discriminate|].
  destruct (try_resolve_cases c) as [(q' & Hr & Ht)|[[Hr Ht]|(e' & Hr & Ht)]]; rewrite Ht; cbn [obind];
    try discriminate; destruct (omap _ cs); cbn [obind]; try discriminate; auto.
Qed.
Lemma finish_order cs cs' : same_elements cs cs' ->
  finish cs = finish cs' \/ exists e e', finish cs = Throws e /\ finish cs' = Throws e'.
Proof.
  intros E.
  assert (Ht : (exists e, finish cs = Throws e) <-> (exists e, finish cs' = Throws e)).
  { rewrite !finish_throws. split; intros (c & e & Hc & Hr); exists c, e; (split; [now apply E | exact Hr]). }
  destruct (finish cs) as [l| |e] eqn:E1, (finish cs') as [l'| |e'] eqn:E2;
    try (now apply finish_found in E1); try (now apply finish_found in E2).
  - left. f_equal. apply strictly_unique; [eapply finish_sorted; eauto | eapply finish_sorted; eauto|].
    intros q. rewrite (finish_In _ E1), (finish_In _ E2).
    split; intros (c & Hc & Hr); exists c; (split; [now apply E | exact Hr]).
  - destruct (proj2 Ht) as [e E']; [eauto | discriminate].
  - destruct (proj1 Ht) as [e0 E']; [eauto | discriminate].
  - right. eauto.
Qed.

Lemma paths_unfold table value :
  paths table value =
  match listed table (qualified_path_from value) with
  | Some cs => finish (filter (value_has_qualified_path sys_modules getattr value) cs)
  | None =>
      if negb (is_nil (fst (qualified_path_from value))) && is_nil (snd (qualified_path_from value))
      then Throws AssertionError
      else finish (if is_nil (fst (qualified_path_from value)) then [] else [qualified_path_from value])
  end.
Proof.
  unfold resolve_qualified_paths, listed. destruct (qualified_path_from value) as [m o]. cbn [fst snd].
  destruct (dget m table) as [t|]; [destruct (dget o t)|]; try reflexivity;
    destruct (negb (is_nil m) && is_nil o); reflexivity.
Qed.
Lemma paths_finish table value l : paths table value = Return l ->
  exists cs, finish cs = Return l
    /\ forall c, In c cs <-> candidate sys_modules getattr table value (qualified_path_from value) c.
Proof.
  rewrite paths_unfold. destruct (listed table (qualified_path_from value)) as [cs|] eqn:E.
  - intros El. eexists. split; [exact El|]. intros c. rewrite filter_In, value_has_plausible. split.
    + intros [? ?]. econstructor; eauto.
    + intros Hc. inv Hc; [|congruence]. assert (cs0 = cs) by congruence. now subst.
  - destruct (_ && _); [discriminate|]. intros El. eexists. split; [exact El|]. intros c.
    destruct (is_nil (fst (qualified_path_from value))) eqn:En.
    + apply is_nil_true in En. split; [easy|]. intros Hc. inv Hc; congruence.
    + split.
      * intros [<-|[]]. apply ca_itself; [exact E|]. intros Ef. rewrite Ef in En. discriminate.
      * intros Hc. inv Hc; [congruence | now left].
Qed.

Lemma paths_exact table value l : paths table value = Return l ->
  strictly_sorted l
  /\ (forall q, In q l <-> exists c, candidate sys_modules getattr table value (qualified_path_from value) c
        /\ resolved c q /\ fst q <> [] /\ snd q <> [])
  /\ forall q, In q l -> defined db (fst q) (snd q).
Proof.
  intros E. destruct (paths_finish _ _ E) as (cs & Hf & Hc). split; [eapply finish_sorted; eauto|].
  assert (M : forall q, In q l <-> exists c, candidate sys_modules getattr table value (qualified_path_from value) c
        /\ resolved c q /\ fst q <> [] /\ snd q <> []).
  { intros q. rewrite (finish_In _ Hf). split; intros (c & H1 & H2); exists c; (split; [now apply Hc | exact H2]). }
  split; [exact M|]. intros [m o] Hq. apply M in Hq as (c & _ & Hr & _). eapply resolve_sound; exact Hr.
Qed.
Lemma paths_order table table' value : same_tables table table' ->
  paths table value = paths table' value
  \/ exists e e', paths table value = Throws e /\ paths table' value = Throws e'.
Proof.
  intros E. rewrite !paths_unfold. specialize (E (qualified_path_from value)).
  destruct (listed table _) as [cs|], (listed table' _) as [cs'|]; try easy; [|now left].
  apply finish_order. intros c. rewrite !filter_In. specialize (E c). tauto.
Qed.
End Locations.

(** ** Fallback *)
Section Fallback.
Context {V : Type}.
Variables (stubs : stubs_tables) (build : statement -> path -> path -> outcome (signature V)).

Lemma load_nodes loc nodes : nodes_at stubs loc nodes -> load_ast_nodes stubs (fst loc) (snd loc) = Return nodes.
Proof.
  intros (t & Et & En & Hne). unfold load_ast_nodes. rewrite Et, En. destruct nodes; [now destruct Hne | reflexivity].
Qed.
Lemma first_location_cons loc r :
  first_location stubs build (loc :: r) =
  (do nodes <- load_ast_nodes stubs (fst loc) (snd loc);
   match omap (build_at build loc) nodes with
   | SignatureNotFound => first_location stubs build r
   | Throws e => Throws e
   | Return signatures => of_res (from_signatures signatures)
   end).
Proof. destruct loc as [m o]. reflexivity. Qed.

Lemma omap_not_found {A B} (f : A -> outcome B) before n after :
  (forall b, In b before -> exists s, f b = Return s) -> f n = SignatureNotFound ->
  omap f (before ++ n :: after) = SignatureNotFound.
Proof.
  induction before as [|b before IH]; cbn; intros Hb Hn; [now rewrite Hn|].
  destruct (Hb b) as [s Hs]; [now left|]. rewrite Hs. cbn [obind]. rewrite IH; auto.
Qed.
Lemma omap_raises {A B} (f : A -> outcome B) before n after e :
  (forall b, In b before -> exists s, f b = Return s) -> f n = Throws e ->
  omap f (before ++ n :: after) = Throws e.
Proof.
  induction before as [|b before IH]; cbn; intros Hb Hn; [now rewrite Hn|].
  destruct (Hb b) as [s Hs]; [now left|]. rewrite Hs. cbn [obind]. rewrite IH; auto.
Qed.

Lemma first_location_skip loc r : unbuildable stubs build loc ->
  first_location stubs build (loc :: r) = first_location stubs build r.
Proof.
  intros (before & n & after & Hn & Hb & Hnf). rewrite first_location_cons, (load_nodes Hn). cbn [obind].
  now rewrite (@omap_not_found _ _ _ _ _ _ Hb Hnf).
Qed.
Lemma first_location_found before loc after ss :
  Forall (unbuildable stubs build) before -> buildable stubs build loc ss ->
  first_location stubs build (before ++ loc :: after) = of_res (from_signatures ss).
Proof.
  intros Hb (nodes & Hn & Hss). induction Hb as [|b before H _ IH]; cbn [app].
  - rewrite first_location_cons, (load_nodes Hn). cbn [obind]. apply omap_ok in Hss. now rewrite Hss.
  - now rewrite first_location_skip.
Qed.
Lemma first_location_none locs : Forall (unbuildable stubs build) locs -> first_location stubs build locs = SignatureNotFound.
Proof. induction 1 as [|l locs H _ IH]; [reflexivity|]. now rewrite first_location_skip. Qed.
Lemma first_location_raises before loc after n1 n n2 e :
  Forall (unbuildable stubs build) before -> nodes_at stubs loc (n1 ++ n :: n2) ->
  (forall b, In b n1 -> exists s, build_at build loc b = Return s) -> build_at build loc n = Throws e ->
  first_location stubs build (before ++ loc :: after) = Throws e.
Proof.
  intros Hb Hn H1 He. induction Hb as [|b before H _ IH]; cbn [app].
  - rewrite first_location_cons, (load_nodes Hn). cbn [obind]. now rewrite (@omap_raises _ _ _ _ _ _ _ H1 He).
  - now rewrite first_location_skip.
Qed.

Lemma as_plains_Plain (ps : list (plain_signature V)) : as_plains (map Plain ps) = Some ps.
Proof. induction ps as [|p ps IH]; cbn; [reflexivity|]. now rewrite IH. Qed.
Lemma from_signatures_exact (ss : list (signature V)) :
  (flat_map (@flatten_signature V) ss <> [] ->
   exists s, from_signatures ss = Ok s /\ flatten_signature s = flat_map (@flatten_signature V) ss)
  /\ (flat_map (@flatten_signature V) ss = [] -> from_signatures ss = Err ValueError).
Proof.
  unfold from_signatures. set (ps := flat_map (@flatten_signature V) ss).
  destruct ps as [|p [|q ps]].
  - split; [easy | reflexivity].
  - split; [|easy]. intros _. now exists (Plain p).
  - split; [|easy]. intros _. exists (Overloaded (p :: q :: ps)). split; [|reflexivity].
    unfold new_overloaded. rewrite as_plains_Plain. reflexivity.
Qed.
End Fallback.
