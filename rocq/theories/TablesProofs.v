(** Proofs about StoredTables.v. *)
From Verif Require Import Base PyText PyExpr SpecData Pretty CachingProofs Scoping Signatures StoredTables SpecTables.
Set Implicit Arguments.

(** ** Lookups *)
Section Lookups.
Context {K A : Type} `{Eqb K}.
Lemma same_lookups_refl (same : A -> A -> Prop) (d : dict K A) : (forall a, same a a) -> same_lookups same d d.
Proof. intros R k. destruct (dget k d); auto. Qed.
Lemma dget_permutation (l l' : dict K A) : NoDup (dkeys l) -> Permutation l l' -> forall k, dget k l = dget k l'.
Proof.
  intros N P k. assert (N' : NoDup (dkeys l')) by (eapply Permutation_NoDup; [|exact N]; now apply Permutation_map).
  destruct (dget k l') as [a|] eqn:E.
  - apply dget_In; [exact N|]. apply dget_Some_In in E. eapply Permutation_in; [apply Permutation_sym, P|exact E].
  - destruct (dget k l) as [a|] eqn:E'; [|reflexivity]. apply dget_Some_In in E'.
    apply (Permutation_in _ P) in E'. apply dget_In in E'; [congruence|exact N'].
Qed.
Variable same : A -> A -> Prop.
Definition entry_same (x y : K * A) : Prop := fst x = fst y /\ same (snd x) (snd y).
Lemma dget_entries (l l' : dict K A) : Forall2 entry_same l l' -> same_lookups same l l'.
Proof.
  intros F k. induction F as [|[k1 a] [k2 b] l l' [E S] F IH]; [exact I|].
  cbn [fst snd] in *. subst k2. change (dget k ((k1, a) :: l)) with (if k == k1 then Some a else dget k l).
  change (dget k ((k1, b) :: l')) with (if k == k1 then Some b else dget k l'). now destruct (k == k1).
Qed.
Lemma same_of_permutation (l l0 l' : dict K A) : NoDup (dkeys l) -> Permutation l l0 -> Forall2 entry_same l0 l' -> same_lookups same l l'.
Proof. intros N P F k. rewrite (dget_permutation N P). now apply dget_entries. Qed.

Variable key : K -> data.
Variable value : A -> data.
Hypothesis HK : forall k d, data_equal (key k) d -> d = key k.
Lemma dict_choice l d :
  Forall (fun kv => forall d, data_equal (value (snd kv)) d -> exists a, d = value a /\ same (snd kv) a) l ->
  data_equal (DDict (map (fun kv => (key (fst kv), value (snd kv))) l)) d ->
  exists l0 l', d = DDict (map (fun kv => (key (fst kv), value (snd kv))) l') /\ Permutation l l0 /\ Forall2 entry_same l0 l'.
Proof.
  intros F E. inversion E as [| | | |l1 l2 l3 P F2|]; subst.
  apply Permutation_sym, Permutation_map_inv in P. destruct P as [l0 [-> P]]. exists l0.
  assert (F' : Forall (fun kv => forall d, data_equal (value (snd kv)) d -> exists a, d = value a /\ same (snd kv) a) l0).
  { rewrite Forall_forall in *. intros x Hx. apply F. now apply (Permutation_in _ (Permutation_sym P)). }
  enough (G : exists l', l3 = map (fun kv => (key (fst kv), value (snd kv))) l' /\ Forall2 entry_same l0 l')
    by (destruct G as (l' & -> & G); now exists l').
  clear P F E. revert l3 F2. induction F' as [|[k a] l0 Hx F' IH]; intros l3 F2; inversion F2 as [|x y r r' [E1 E2] F3]; subst.
  - now exists [].
  - destruct (IH _ F3) as (l' & -> & G). cbn [fst snd] in *. apply HK in E1. destruct (Hx _ E2) as (a' & Ea & Sa).
    destruct y as [y1 y2]. cbn [fst snd] in *. subst. exists ((k, a') :: l'). split; [reflexivity|]. constructor; [now split|exact G].
Qed.
Lemma dict_loaded l d : proper (dict_data key value l) ->
  (forall kv d, In kv l -> proper (value (snd kv)) -> data_equal (value (snd kv)) d -> exists a, d = value a /\ same (snd kv) a) ->
  data_equal (dict_data key value l) d -> exists l', d = dict_data key value l' /\ same_lookups same l l'.
Proof.
  intros (Pl & _ & N) F E. unfold dict_data in *.
  assert (F' : Forall (fun kv => forall d, data_equal (value (snd kv)) d -> exists a, d = value a /\ same (snd kv) a) l).
  { apply Forall_forall. intros kv Hkv d' E'. eapply (F kv); [exact Hkv| |exact E'].
    clear -Pl Hkv. induction l as [|x l IH]; [easy|]. cbn [map fold_right] in Pl. destruct Pl as [[_ Pv] Pl].
    destruct Hkv as [->|Hkv]; [exact Pv|now apply IH]. }
  destruct (dict_choice F' E) as (l0 & l' & -> & P & F2). exists l'. split; [reflexivity|].
  eapply same_of_permutation; [|exact P|exact F2].
  rewrite map_map in N. cbn [fst] in N. rewrite <- (map_map fst key) in N. now apply NoDup_map_inv in N.
Qed.
End Lookups.

(** ** Values with one form only *)
Lemma list_fixed {A} (value : A -> data) (P : forall a d, data_equal (value a) d -> d = value a) l d :
  Forall2 data_equal (map value l) d -> d = map value l.
Proof.
  revert d. induction l as [|a l IH]; intros d F; inversion F as [|x y r r' E F']; subst; [reflexivity|].
  cbn [map]. f_equal; [now apply P|now apply IH].
Qed.
Lemma str_fixed s d : data_equal (DStr s) d -> d = DStr s.
Proof. intros E. now inversion E. Qed.
Lemma int_fixed z d : data_equal (DInt z) d -> d = DInt z.
Proof. intros E. now inversion E. Qed.
Lemma path_fixed p d : data_equal (path_data p) d -> d = path_data p.
Proof. intros E. inversion E as [| |l l' F| | |]; subst. unfold path_data. f_equal. now apply (list_fixed _ str_fixed). Qed.
Lemma qualified_path_fixed q d : data_equal (qualified_path_data q) d -> d = qualified_path_data q.
Proof.
  intros E. inversion E as [| |l l' F| | |]; subst. inversion F as [|x y r r' E1 F1]; subst. inversion F1 as [|x' y' r1 r1' E2 F2]; subst.
  inversion F2; subst. apply path_fixed in E1, E2. now subst.
Qed.
Lemma list_data_fixed {A} (value : A -> data) (P : forall a d, data_equal (value a) d -> d = value a) l d :
  data_equal (list_data value l) d -> d = list_data value l.
Proof. intros E. inversion E as [| | |l' l'' F| |]; subst. unfold list_data. f_equal. now apply list_fixed. Qed.
Lemma fixed_loaded {K A} (value : A -> data) (P : forall a d, data_equal (value a) d -> d = value a) (l : dict K A) :
  forall kv d, In kv l -> proper (value (snd kv)) -> data_equal (value (snd kv)) d -> exists a, d = value a /\ snd kv = a.
Proof. intros kv d _ _ E. exists (snd kv). split; [now apply P|reflexivity]. Qed.
Lemma table_loaded {A} (value : A -> data) (P : forall a d, data_equal (value a) d -> d = value a) (l : dict path A) d :
  proper (dict_data path_data value l) -> data_equal (dict_data path_data value l) d ->
  exists l', d = dict_data path_data value l' /\ same_lookups eq l l'.
Proof. intros Pr E. eapply dict_loaded; [exact path_fixed|exact Pr|now apply fixed_loaded|exact E]. Qed.
Lemma tables_loaded {A} (value : A -> data) (P : forall a d, data_equal (value a) d -> d = value a) (l : dict path (dict path A)) d :
  proper (dict_data path_data (dict_data path_data value) l) -> data_equal (dict_data path_data (dict_data path_data value) l) d ->
  exists l', d = dict_data path_data (dict_data path_data value) l' /\ same_lookups (same_lookups eq) l l'.
Proof.
  intros Pr E. eapply dict_loaded; [exact path_fixed|exact Pr| |exact E].
  intros kv d' _ Pv Ev. now apply (table_loaded P).
Qed.

(** ** Scopes *)
Section ScopeInd.
Variable P : scope -> Prop.
Hypothesis H : forall es, Forall (fun e => P (snd e)) es -> P (Scope es).
Fixpoint scope_ind' (s : scope) : P s :=
  match s with
  | Scope es =>
      H ((fix go (es : list (pystr * scope)) : Forall (fun e => P (snd e)) es :=
            match es with [] => Forall_nil _ | e :: r => Forall_cons e (scope_ind' (snd e)) (go r) end) es)
  end.
End ScopeInd.
Lemma scope_loaded s : forall d, proper (scope_data s) -> data_equal (scope_data s) d -> exists s', d = scope_data s' /\ same_scope s s'.
Proof.
  induction s as [es IH] using scope_ind'. intros d Pr E. cbn [scope_data] in *.
  assert (L : exists l', d = dict_data DStr scope_data l' /\ same_lookups same_scope es l').
  { eapply dict_loaded; [exact str_fixed|exact Pr| |exact E].
    intros kv d' Hkv Pv Ev. rewrite Forall_forall in IH. now apply (IH kv). }
  destruct L as (l' & -> & S). exists (Scope l'). split; [reflexivity|]. constructor; cbn [entries].
  - intros n x En. specialize (S n). rewrite En in S. destruct (dget n l') as [x'|]; [now exists x'|easy].
  - intros n En. specialize (S n). rewrite En in S. now destruct (dget n l').
Qed.

(** ** Kinds *)
Lemma kind_round_trip k : kind_of_value (kind_value k) = Some k.
Proof. now destruct k. Qed.
Lemma kinds_objects_round_trip ks : kinds_from_raw_objects (map (fun o => (fst o, kind_value (snd o))) ks) = Some ks.
Proof. induction ks as [|[k a] ks IH]; [reflexivity|]. cbn [map fst snd kinds_from_raw_objects]. now rewrite kind_round_trip, IH. Qed.
Lemma kinds_round_trip ks : kinds_from_raw (raw_kinds ks) = Some ks.
Proof.
  induction ks as [|[k a] ks IH]; [reflexivity|]. unfold raw_kinds in *. cbn [map fst snd kinds_from_raw].
  now rewrite kinds_objects_round_trip, IH.
Qed.
Definition kind_data (k : node_kind) : data := DInt (kind_value k).
Lemma kind_fixed k d : data_equal (kind_data k) d -> d = kind_data k.
Proof. apply int_fixed. Qed.
Lemma raw_kinds_data ks : dict_data path_data (dict_data path_data DInt) (raw_kinds ks) = dict_data path_data (dict_data path_data kind_data) ks.
Proof.
  unfold dict_data, raw_kinds. f_equal. rewrite map_map. apply map_ext. intros [k a]. cbn [fst snd]. do 2 f_equal. now rewrite map_map.
Qed.

(** ** The tables *)
Lemma tables_used t ds : Forall proper (saved t) -> Forall2 data_equal (saved t) ds -> exists t', uses ds t' /\ same_tables t t'.
Proof.
  intros Pr F. unfold saved, saved_data in *. rewrite raw_kinds_data in *.
  repeat match goal with H : Forall proper (_ :: _) |- _ => inversion H; clear H; subst end.
  repeat match goal with H : Forall2 data_equal (_ :: _) _ |- _ => inversion H; clear H; subst end.
  match goal with H : Forall2 data_equal [] _ |- _ => inversion H; clear H; subst end.
  destruct t as [[defs refs subs sups] ks raws]. cbn [stored nodes_kinds raw_ast_nodes definitions references submodules superclasses] in *.
  match goal with P : proper ?x, E : data_equal ?x ?d |- context [?d :: _] =>
    match x with dict_data path_data scope_data _ =>
      assert (L1 : exists l', d = dict_data path_data scope_data l' /\ same_lookups same_scope defs l')
        by (eapply dict_loaded; [exact path_fixed|exact P| |exact E]; intros kv d' _ Pv Ev; now apply scope_loaded)
    end end.
  repeat match goal with
  | P : proper (dict_data path_data (dict_data path_data kind_data) _), E : data_equal (dict_data path_data (dict_data path_data kind_data) _) _ |- _ =>
      pose proof (tables_loaded kind_fixed P E) as L2; clear E
  | P : proper (dict_data path_data (dict_data path_data (list_data DStr)) _), E : data_equal (dict_data path_data (dict_data path_data (list_data DStr)) _) _ |- _ =>
      pose proof (tables_loaded (list_data_fixed str_fixed) P E) as L3; clear E
  | P : proper (dict_data path_data (dict_data path_data qualified_path_data) _), E : data_equal (dict_data path_data (dict_data path_data qualified_path_data) _) _ |- _ =>
      pose proof (tables_loaded qualified_path_fixed P E) as L4; clear E
  | P : proper (dict_data path_data (list_data path_data) _), E : data_equal (dict_data path_data (list_data path_data) _) _ |- _ =>
      pose proof (table_loaded (list_data_fixed path_fixed) P E) as L5; clear E
  | P : proper (dict_data path_data (dict_data path_data (list_data qualified_path_data)) _), E : data_equal (dict_data path_data (dict_data path_data (list_data qualified_path_data)) _) _ |- _ =>
      pose proof (tables_loaded (list_data_fixed qualified_path_fixed) P E) as L6; clear E
  end.
  destruct L1 as (defs' & -> & S1), L2 as (ks' & -> & S2), L3 as (raws' & -> & S3), L4 as (refs' & -> & S4), L5 as (subs' & -> & S5), L6 as (sups' & -> & S6).
  exists (mk_tables (mk_database defs' refs' subs' sups') ks' raws'). split; [|repeat split; assumption].
  exists (raw_kinds ks'). split; [|apply kinds_round_trip]. unfold saved_data. now rewrite raw_kinds_data.
Qed.

Lemma saved_uses t : uses (saved t) t.
Proof. exists (raw_kinds (nodes_kinds t)). split; [reflexivity|apply kinds_round_trip]. Qed.

(** ** Resolution looks things up only *)
Lemma same_scope_entry s s' n : same_scope s s' ->
  match dget n (entries s), dget n (entries s') with
  | Some x, Some x' => same_scope x x'
  | None, None => True
  | _, _ => False
  end.
Proof.
  intros [a b H1 H2]. destruct (dget n (entries a)) as [x|] eqn:E.
  - destruct (H1 _ _ E) as (x' & -> & S). exact S.
  - now rewrite (H2 _ E).
Qed.
Lemma contains_same p : forall s s', same_scope s s' -> scope_contains_path s p = scope_contains_path s' p.
Proof.
  induction p as [|n p IH]; intros s s' S; [reflexivity|]. cbn [scope_contains_path]. pose proof (same_scope_entry n S) as E.
  destruct (dget n (entries s)), (dget n (entries s')); try easy. now apply IH.
Qed.
Lemma first_missing_same p : forall s s' b, same_scope s s' -> first_missing s b p = first_missing s' b p.
Proof.
  induction p as [|n p IH]; intros s s' b S; [reflexivity|]. cbn [first_missing]. pose proof (same_scope_entry n S) as E.
  destruct (dget n (entries s)), (dget n (entries s')); try easy. now apply IH.
Qed.
Lemma try_each_same {A} (f g : A -> resolution) l o o' : (forall a, f a = g a) -> o = o' -> try_each f l o = try_each g l o'.
Proof. intros H ->. induction l as [|a l IH]; cbn [try_each]; [reflexivity|]. rewrite H. destruct (g a); auto. Qed.
Lemma longest_reference_same r r' o n : same_lookups eq r r' -> longest_reference r o n = longest_reference r' o n.
Proof.
  intros S. induction n as [|n IH]; [reflexivity|]. cbn [longest_reference]. specialize (S (firstn (Datatypes.S n) o)).
  match goal with |- match ?a with _ => _ end = match ?b with _ => _ end => change (match a, b with Some x, Some y => x = y | None, None => True | _, _ => False end) in S; destruct a, b; try easy end.
  now rewrite S.
Qed.
Lemma resolve_same d d' : same_database d d' -> forall fuel m p o v,
  resolve_object_path d fuel m p o v = resolve_object_path d' fuel m p o v.
Proof.
  intros (S1 & S2 & S3 & S4). induction fuel as [|fuel IH]; intros m p o v; [reflexivity|]. cbn [resolve_object_path].
  pose proof (S1 m) as D. destruct (dget m (definitions d)) as [s|], (dget m (definitions d')) as [s'|]; try easy.
  destruct o as [|n rest]; [reflexivity|]. rewrite <- !(contains_same _ D).
  destruct (negb _); [reflexivity|]. destruct (_ && _); [apply IH|].
  pose proof (same_scope_entry n D) as E. destruct (dget n (entries s)) as [x|], (dget n (entries s')) as [x'|]; try easy.
  - rewrite (first_missing_same _ _ E). destruct (first_missing x' [n] rest) as [[sub rem]|]; [|reflexivity].
    assert (B : dget_or sub [] (dget_or m ([] : dict path (list qualified_path)) (superclasses d))
              = dget_or sub [] (dget_or m ([] : dict path (list qualified_path)) (superclasses d'))).
    { pose proof (S4 m) as Q. unfold dget_or at 2 4. destruct (dget m (superclasses d)) as [q|], (dget m (superclasses d')) as [q'|]; try easy.
      specialize (Q sub). unfold dget_or. destruct (dget sub q), (dget sub q'); try easy. }
    rewrite B. apply try_each_same; [intros a; apply IH|]. destruct (negb _); [apply IH|reflexivity].
  - assert (B : dget_or m [] (submodules d) = dget_or m [] (submodules d')).
    { pose proof (S3 m) as Q. unfold dget_or. destruct (dget m (submodules d)), (dget m (submodules d')); try easy. }
    rewrite B. apply try_each_same; [intros a; destruct (negb _); [apply IH|reflexivity]|].
    pose proof (S2 m) as Q. destruct (dget m (references d)) as [r|], (dget m (references d')) as [r'|]; try easy.
    rewrite (longest_reference_same _ _ Q). destruct (longest_reference r' _ _) as [[referent remaining]|].
    + rewrite IH. destruct (resolve_object_path d' fuel (fst referent) [] (snd referent) _) as [q| |e]; [apply IH| |reflexivity].
      destruct (negb _); [reflexivity|].
      assert (M : forall k, dmem k (definitions d) = dmem k (definitions d'))
        by (intros k; unfold dmem; specialize (S1 k); destruct (dget k (definitions d)), (dget k (definitions d')); easy).
      match goal with |- match (if negb ?a then _ else _) with _ => _ end = match (if negb ?b then _ else _) with _ => _ end =>
        replace a with b by (symmetry; apply M); destruct b end; cbn [negb]; [apply IH|reflexivity].
    + specialize (S1 builtins_path). destruct (dget _ (definitions d)) as [b|], (dget _ (definitions d')) as [b'|]; try easy.
      now rewrite (contains_same _ S1).
Qed.
