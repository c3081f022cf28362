(** Proofs about the model of scoping.py. *)
From Verif Require Import Base Scoping SpecScoping.
Set Implicit Arguments.

(** ** Scopes *)
Lemma contains_has_path s p : scope_contains_path s p = true <-> has_path s p.
Proof.
  revert s. induction p as [|n p IH]; cbn; intros s.
  - split; [constructor | reflexivity].
  - destruct (dget n (entries s)) as [s'|] eqn:E.
    + rewrite IH. split; [now econstructor; eauto|]. intros H. inv H. congruence.
    + split; [discriminate|]. intros H. inv H. congruence.
Qed.

Lemma defined_contains db m s o :
  dget m (definitions db) = Some s -> defined db m o <-> scope_contains_path s o = true.
Proof.
  intros H. rewrite contains_has_path. split.
  - intros (s' & H' & Hp). rewrite H in H'. inv H'. exact Hp.
  - intros Hp. now exists s.
Qed.

Lemma defined_known db m o : defined db m o -> known db m.
Proof. intros (s & H & _). apply dget_Some_In in H. apply in_map_iff. now exists (m, s). Qed.

Lemma has_path_app s p q : has_path s (p ++ q) -> has_path s p.
Proof.
  revert s. induction p as [|n p IH]; cbn; intros s H; [constructor|].
  inv H. econstructor; eauto.
Qed.
Lemma defined_prefix db m p q : defined db m (p ++ q) -> defined db m p.
Proof. intros (s & H & Hp). exists s. eauto using has_path_app. Qed.

Lemma first_missing_None s before rest :
  first_missing s before rest = None <-> scope_contains_path s rest = true.
Proof.
  revert s before. induction rest as [|n r IH]; cbn; intros s before; [easy|].
  destruct (dget n (entries s)) as [s'|]; [apply IH | easy].
Qed.

Lemma first_missing_Some s before rest sub remaining :
  first_missing s before rest = Some (sub, remaining) ->
  exists middle n after, sub = before ++ middle /\ rest = middle ++ remaining
    /\ remaining = n :: after
    /\ scope_contains_path s middle = true /\ scope_contains_path s (middle ++ [n]) = false.
Proof.
  revert s before. induction rest as [|n r IH]; cbn; intros s before; [discriminate|].
  destruct (dget n (entries s)) as [s'|] eqn:E.
  - intros H. destruct (IH _ _ H) as (mid & x & after & -> & -> & -> & H1 & H2).
    exists (n :: mid), x, after. cbn. rewrite E, <- app_assoc. auto.
  - intros H. inv H. exists [], n, r. cbn. now rewrite app_nil_r, E.
Qed.

(** Conversely: the walk stops at the first prefix that is not defined. *)
Lemma first_missing_at s before middle n after :
  scope_contains_path s middle = true -> scope_contains_path s (middle ++ [n]) = false ->
  first_missing s before (middle ++ n :: after) = Some (before ++ middle, n :: after).
Proof.
  revert s before. induction middle as [|x mid IH]; cbn; intros s before.
  - intros _ H. rewrite app_nil_r. now destruct (dget n (entries s)).
  - destruct (dget x (entries s)) as [s'|]; [|discriminate]. intros H1 H2.
    rewrite IH; auto. now rewrite <- app_assoc.
Qed.

(** ** References *)
Lemma longest_reference_Some refs o n q remaining :
  longest_reference refs o n = Some (q, remaining) ->
  exists k, 0 < k <= n /\ dget (firstn k o) refs = Some q /\ remaining = skipn k o
    /\ forall j, k < j <= n -> dget (firstn j o) refs = None.
Proof.
  induction n as [|n IH]; cbn [longest_reference]; [discriminate|].
  destruct (dget (firstn (S n) o) refs) as [q'|] eqn:E.
  - intros H. inv H. exists (S n). split; [lia|]. split; [exact E|]. split; [reflexivity|]. intros j Hj. lia.
  - intros H. destruct (IH H) as (k & Hk & H1 & H2 & H3). exists k. split; [lia|]. split; [exact H1|]. split; [exact H2|].
    intros j Hj. destruct (Nat.eq_dec j (S n)) as [->|]; [exact E | apply H3; lia].
Qed.

Lemma longest_reference_None refs o n :
  longest_reference refs o n = None <-> forall k, 0 < k <= n -> dget (firstn k o) refs = None.
Proof.
  induction n as [|n IH]; cbn [longest_reference].
  - split; [intros _ k Hk; lia | reflexivity].
  - destruct (dget (firstn (S n) o) refs) as [q'|] eqn:E.
    + split; [discriminate|]. intros H. rewrite H in E; [discriminate | lia].
    + rewrite IH. split.
      * intros H k Hk. destruct (Nat.eq_dec k (S n)) as [->|]; [exact E | apply H; lia].
      * intros H k Hk. apply H. lia.
Qed.

Lemma longest_reference_at refs o n k q :
  0 < k <= n -> dget (firstn k o) refs = Some q ->
  (forall j, k < j <= n -> dget (firstn j o) refs = None) ->
  longest_reference refs o n = Some (q, skipn k o).
Proof.
  induction n as [|n IH]; cbn [longest_reference]; intros Hk H1 H2; [lia|].
  destruct (Nat.eq_dec k (S n)) as [->|Hn]; [now rewrite H1|].
  rewrite H2; [|lia]. apply IH; auto; [lia|]. intros j Hj. apply H2. lia.
Qed.

(** ** [try_each] *)
Lemma try_each_cases {A} (f : A -> resolution) xs otherwise :
  (exists before x after, xs = before ++ x :: after
     /\ (forall y, In y before -> f y = ObjectNotFound)
     /\ f x <> ObjectNotFound /\ try_each f xs otherwise = f x)
  \/ ((forall x, In x xs -> f x = ObjectNotFound) /\ try_each f xs otherwise = otherwise).
Proof.
  induction xs as [|x xs IH]; cbn; [right; easy|].
  destruct (f x) as [q| |e] eqn:E.
  - left. exists [], x, xs. rewrite E. repeat split; easy.
  - destruct IH as [(before & y & after & -> & H1 & H2 & H3)|[H1 H2]].
    + left. exists (x :: before), y, after. repeat split; auto. intros z [->|Hz]; auto.
    + right. split; auto. intros y [->|Hy]; auto.
  - left. exists [], x, xs. rewrite E. repeat split; easy.
Qed.

Lemma try_each_first {A} (f : A -> resolution) before x after otherwise :
  (forall y, In y before -> f y = ObjectNotFound) -> f x <> ObjectNotFound ->
  try_each f (before ++ x :: after) otherwise = f x.
Proof.
  intros H1 H2. induction before as [|y before IH]; cbn.
  - destruct (f x); congruence.
  - rewrite H1; [|now left]. apply IH. intros z Hz. apply H1. now right.
Qed.
Lemma try_each_none {A} (f : A -> resolution) xs otherwise :
  (forall y, In y xs -> f y = ObjectNotFound) -> try_each f xs otherwise = otherwise.
Proof.
  intros H. induction xs as [|x xs IH]; cbn; [easy|].
  rewrite H; [|now left]. apply IH. intros z Hz. apply H. now right.
Qed.

(** ** The body of [resolve_object_path], recursive calls abstracted *)
Section Body.
Variables (db : database) (rec : path -> path -> path -> list path -> resolution).

Definition via_bases (m sub remaining : path) (name : pystr) (v : list path) : resolution :=
  try_each (fun b : qualified_path => rec (fst b) [] (snd b ++ remaining) (v ++ [m]))
    (bases db (m, sub))
    (if negb (name == object_name) then rec builtins_path [] (object_name :: remaining) v
     else ObjectNotFound).

Definition via_reference (m : path) (q : qualified_path) (remaining : path) (v : list path) : resolution :=
  match
    match rec (fst q) [] (snd q) (v ++ [m]) with
    | ObjectNotFound =>
        if negb (length (snd q) == 1) then Raises AssertionError
        else if negb (dmem (fst q ++ snd q) (definitions db)) then Raises AssertionError
        else Resolved (fst q ++ snd q, [])
    | outcome => outcome
    end
  with
  | Resolved q' => rec (fst q') [] (snd q' ++ remaining) (v ++ [m])
  | outcome => outcome
  end.

Definition via_builtins (o : path) : resolution :=
  match dget builtins_path (definitions db) with
  | None => Raises KeyError
  | Some s => if scope_contains_path s o then Resolved (builtins_path, o) else ObjectNotFound
  end.

Definition via_tables (m o : path) (v : list path) : resolution :=
  match dget m (references db) with
  | None => Raises KeyError
  | Some refs =>
      match longest_reference refs o (length o) with
      | Some (q, remaining) => via_reference m q remaining v
      | None => via_builtins o
      end
  end.

Definition via_stars (m o : path) (v : list path) : resolution :=
  try_each (fun s => if negb (mem s v) then rec s [] o (v ++ [m]) else ObjectNotFound)
    (star_imports db m) (via_tables m o v).

Definition body (m parent o : path) (v : list path) : resolution :=
  match dget m (definitions db) with
  | None => ObjectNotFound
  | Some defs =>
      match o with
      | [] => Resolved (m, o)
      | name :: rest =>
          if negb (scope_contains_path defs parent) then Raises AssertionError
          else if negb (is_nil parent) && scope_contains_path defs (parent ++ [name])
          then rec m [] (parent ++ o) v
          else
            match dget name (entries defs) with
            | Some s =>
                match first_missing s [name] rest with
                | None => Resolved (m, o)
                | Some (sub, remaining) => via_bases m sub remaining name v
                end
            | None => via_stars m o v
            end
      end
  end.
End Body.

Lemma bases_eq db m sub : dget_or sub [] (dget_or m ([] : dict path (list qualified_path)) (superclasses db)) = bases db (m, sub).
Proof.
  unfold bases, dget_or. cbn [fst snd]. destruct (dget m (superclasses db)); reflexivity.
Qed.

Lemma resolve_S db f m parent o v :
  resolve_object_path db (S f) m parent o v = body db (resolve_object_path db f) m parent o v.
Proof.
  cbn [resolve_object_path]. unfold body.
  destruct (dget m (definitions db)) as [defs|]; [|reflexivity].
  destruct o as [|name rest]; [reflexivity|].
  destruct (negb (scope_contains_path defs parent)); [reflexivity|].
  destruct (negb (is_nil parent) && scope_contains_path defs (parent ++ [name])); [reflexivity|].
  destruct (dget name (entries defs)) as [s|]; [|reflexivity].
  destruct (first_missing s [name] rest) as [[sub remaining]|]; [|reflexivity].
  unfold via_bases. now rewrite bases_eq.
Qed.

(** ** More recursion depth does not change an outcome *)
Definition refines (r r' : resolution) : Prop := r = r' \/ r = Raises RecursionError.

Lemma refines_refl r : refines r r.
Proof. now left. Qed.
Lemma try_each_refines {A} (f g : A -> resolution) xs a b :
  (forall x, refines (f x) (g x)) -> refines a b -> refines (try_each f xs a) (try_each g xs b).
Proof.
  intros H Hab. induction xs as [|x xs IH]; cbn; [exact Hab|].
  destruct (H x) as [E|E]; rewrite E; [|now right]. destruct (g x); [now left | exact IH | now left].
Qed.
Lemma if_refines (b : bool) r1 r2 s1 s2 :
  refines r1 s1 -> refines r2 s2 -> refines (if b then r1 else r2) (if b then s1 else s2).
Proof. now destruct b. Qed.

Lemma body_refines db rec rec' m parent o v :
  (forall m p o v, refines (rec m p o v) (rec' m p o v)) ->
  refines (body db rec m parent o v) (body db rec' m parent o v).
Proof.
  intros H. unfold body. destruct (dget m (definitions db)) as [defs|]; [|apply refines_refl].
  destruct o as [|name rest]; [apply refines_refl|].
  apply if_refines; [apply refines_refl|]. apply if_refines; [apply H|].
  destruct (dget name (entries defs)) as [s|].
  - destruct (first_missing s [name] rest) as [[sub remaining]|]; [|apply refines_refl].
    apply try_each_refines; [intros x; apply H|]. apply if_refines; [apply H | apply refines_refl].
  - apply try_each_refines.
    + intros x. apply if_refines; [apply H | apply refines_refl].
    + unfold via_tables. destruct (dget m (references db)) as [refs|]; [|apply refines_refl].
      destruct (longest_reference _ _ _) as [[q remaining]|]; [|apply refines_refl].
      unfold via_reference. destruct (H (fst q) [] (snd q) (v ++ [m])) as [E|E]; rewrite E; [|now right].
      destruct (rec' (fst q) [] (snd q) (v ++ [m])) as [q'| |e]; [apply H | | apply refines_refl].
      destruct (negb (length (snd q) == 1)); [apply refines_refl|].
      destruct (negb (dmem (fst q ++ snd q) (definitions db))); [apply refines_refl | apply H].
Qed.

Lemma resolve_refines db f k m parent o v :
  refines (resolve_object_path db f m parent o v) (resolve_object_path db (f + k) m parent o v).
Proof.
  revert m parent o v. induction f as [|f IH]; intros m parent o v; [now right|].
  change (S f + k) with (S (f + k)). rewrite !resolve_S. apply body_refines. exact IH.
Qed.

Lemma resolve_more db f f' m parent o v r :
  f <= f' -> resolve_object_path db f m parent o v = r -> r <> Raises RecursionError ->
  resolve_object_path db f' m parent o v = r.
Proof.
  intros Hle H Hr. replace f' with (f + (f' - f)) by lia.
  destruct (resolve_refines db f (f' - f) m parent o v) as [E|E]; congruence.
Qed.

Lemma resolves_iff db m parent o v r :
  resolves db m parent o v r <->
  r <> Raises RecursionError /\ exists f, resolve_object_path db f m parent o v = r.
Proof.
  split; intros [Hr [n H]]; split; auto.
  - exists n. now apply H.
  - exists n. intros f Hf. eauto using resolve_more.
Qed.

Lemma resolves_unique db m parent o v r r' :
  resolves db m parent o v r -> resolves db m parent o v r' -> r = r'.
Proof.
  intros [_ [n H]] [_ [n' H']]. rewrite <- (H (max n n')), <- (H' (max n n')); [reflexivity | lia | lia].
Qed.

Lemma terminates_iff db m parent o v :
  terminates db m parent o v <->
  exists f, resolve_object_path db f m parent o v <> Raises RecursionError.
Proof.
  split.
  - intros [r [Hr [n H]]]. exists n. now rewrite H.
  - intros [f H]. exists (resolve_object_path db f m parent o v). apply resolves_iff. eauto.
Qed.

(** ** C34: soundness *)
Lemma body_sound db rec m parent o v m' o' :
  (forall m p o v m' o', rec m p o v = Resolved (m', o') -> defined db m' o') ->
  body db rec m parent o v = Resolved (m', o') -> defined db m' o'.
Proof.
  intros H. unfold body. destruct (dget m (definitions db)) as [defs|] eqn:Em; [|discriminate].
  destruct o as [|name rest].
  { intros E. inv E. exists defs. split; [exact Em | constructor]. }
  destruct (negb (scope_contains_path defs parent)); [discriminate|].
  destruct (negb (is_nil parent) && scope_contains_path defs (parent ++ [name])); [apply H|].
  destruct (dget name (entries defs)) as [s|] eqn:En.
  - destruct (first_missing s [name] rest) as [[sub remaining]|] eqn:Ef.
    + unfold via_bases. destruct (try_each_cases
        (fun b : qualified_path => rec (fst b) [] (snd b ++ remaining) (v ++ [m])) (bases db (m, sub))
        (if negb (name == object_name) then rec builtins_path [] (object_name :: remaining) v
         else ObjectNotFound)) as [(before & b & after & _ & _ & _ & ->)|[_ ->]]; [apply H|].
      destruct (negb (name == object_name)); [apply H | discriminate].
    + intros E. inv E. apply (@defined_contains _ _ _ _ Em). cbn. rewrite En.
      now apply first_missing_None in Ef.
  - unfold via_stars. destruct (try_each_cases
      (fun s => if negb (mem s v) then rec s [] (name :: rest) (v ++ [m]) else ObjectNotFound)
      (star_imports db m) (via_tables db rec m (name :: rest) v))
      as [(before & b & after & _ & _ & _ & ->)|[_ ->]].
    + destruct (negb (mem b v)); [apply H | discriminate].
    + unfold via_tables. destruct (dget m (references db)) as [refs|]; [|discriminate].
      destruct (longest_reference _ _ _) as [[q remaining]|].
      * unfold via_reference. destruct (rec (fst q) [] (snd q) (v ++ [m])) as [q'| |e]; [apply H | | discriminate].
        destruct (negb (length (snd q) == 1)); [discriminate|].
        destruct (negb (dmem (fst q ++ snd q) (definitions db))); [discriminate | apply H].
      * unfold via_builtins. destruct (dget builtins_path (definitions db)) as [s|] eqn:Eb; [|discriminate].
        destruct (scope_contains_path s (name :: rest)) eqn:Es; [|discriminate].
        intros E. inv E. now apply (@defined_contains _ _ _ _ Eb).
Qed.

Lemma resolve_sound db f m parent o v m' o' :
  resolve_object_path db f m parent o v = Resolved (m', o') -> defined db m' o'.
Proof.
  revert m parent o v m' o'. induction f as [|f IH]; intros m parent o v m' o'; [discriminate|].
  rewrite resolve_S. apply body_sound. exact IH.
Qed.

(** ** C35: a defined name resolves to itself *)
Lemma resolve_defined db f m o v :
  defined db m o -> resolve_object_path db (S f) m [] o v = Resolved (m, o).
Proof.
  intros (s & Hm & Hp). rewrite resolve_S. unfold body. rewrite Hm. destruct o as [|n r]; [reflexivity|].
  cbn [scope_contains_path negb is_nil andb]. apply contains_has_path in Hp. cbn in Hp.
  destruct (dget n (entries s)) as [s'|]; [|discriminate].
  now rewrite (proj2 (first_missing_None s' [n] r) Hp).
Qed.

(** ** C36: precedence *)
Lemma resolves_body db m parent o v r :
  r <> Raises RecursionError ->
  (exists n, forall f, n <= f -> body db (resolve_object_path db f) m parent o v = r) ->
  resolves db m parent o v r.
Proof.
  intros Hr [n H]. split; [exact Hr|]. exists (S n). intros [|f] Hf; [lia|].
  rewrite resolve_S. apply H. lia.
Qed.

Lemma resolves_body_inv db m parent o v r :
  resolves db m parent o v r ->
  exists n, forall f, n <= f -> body db (resolve_object_path db f) m parent o v = r.
Proof. intros [_ [n H]]. exists n. intros f Hf. rewrite <- resolve_S. apply H. lia. Qed.

Lemma uniform {A} (P : A -> nat -> Prop) xs :
  (forall x, In x xs -> exists n, forall f, n <= f -> P x f) ->
  exists n, forall f, n <= f -> forall x, In x xs -> P x f.
Proof.
  induction xs as [|x xs IH]; intros H; [now exists 0|].
  destruct IH as [n Hn]; [intros y Hy; apply H; now right|].
  destruct (H x) as [k Hk]; [now left|].
  exists (max n k). intros f Hf y [->|Hy]; [apply Hk; lia | apply Hn; [lia | exact Hy]].
Qed.

Lemma not_defined_head db m s name :
  dget m (definitions db) = Some s -> ~ defined db m [name] -> dget name (entries s) = None.
Proof.
  intros Hm H. destruct (dget name (entries s)) as [s'|] eqn:E; [|reflexivity].
  exfalso. apply H. exists s. split; [exact Hm|]. econstructor; [exact E | constructor].
Qed.

Lemma enclosed_test db m s parent name :
  dget m (definitions db) = Some s -> not_enclosed db m parent name ->
  negb (is_nil parent) && scope_contains_path s (parent ++ [name]) = false.
Proof.
  intros Hm [->|H]; [reflexivity|]. apply andb_false_iff. right.
  apply not_true_iff_false. intros E. now apply (@defined_contains _ _ _ _ Hm) in E.
Qed.

Lemma body_unenclosed db rec m parent name rest v :
  defined db m parent -> not_enclosed db m parent name ->
  body db rec m parent (name :: rest) v = body db rec m [] (name :: rest) v.
Proof.
  intros (s & Hm & Hp) H. unfold body. rewrite Hm. apply contains_has_path in Hp. rewrite Hp.
  rewrite (enclosed_test Hm H). reflexivity.
Qed.

Lemma resolves_unenclosed db m parent name rest v r :
  defined db m parent -> not_enclosed db m parent name ->
  resolves db m parent (name :: rest) v r <-> resolves db m [] (name :: rest) v r.
Proof.
  intros H1 H2. split; intros H; (apply resolves_body; [apply H|]);
    destruct (resolves_body_inv H) as [n Hn]; exists n; intros f Hf; rewrite <- (Hn f Hf);
    [symmetry|]; now apply body_unenclosed.
Qed.

Lemma resolves_enclosed db m parent name rest v r :
  parent <> [] -> defined db m (parent ++ [name]) ->
  resolves db m parent (name :: rest) v r <-> resolves db m [] (parent ++ name :: rest) v r.
Proof.
  intros H1 H2. pose proof (defined_prefix _ _ H2) as (s & Hm & Hp).
  assert (E : forall f, body db (resolve_object_path db f) m parent (name :: rest) v
                        = resolve_object_path db f m [] (parent ++ name :: rest) v).
  { intros f. unfold body. rewrite Hm. apply contains_has_path in Hp. rewrite Hp.
    apply (@defined_contains _ _ _ _ Hm) in H2. rewrite H2. now destruct parent. }
  split; intros H.
  - destruct (resolves_body_inv H) as [n Hn]. split; [apply H|]. exists n. intros f Hf.
    now rewrite <- E, Hn.
  - destruct H as [Hr [n Hn]]. apply resolves_body; [exact Hr|]. exists n. intros f Hf.
    now rewrite E, Hn.
Qed.

Lemma resolves_defined db m o v : defined db m o -> resolves db m [] o v (Resolved (m, o)).
Proof.
  intros H. split; [discriminate|]. exists 1. intros [|f] Hf; [lia|]. now apply resolve_defined.
Qed.

Lemma body_stars db rec m name rest v :
  known db m -> ~ defined db m [name] ->
  body db rec m [] (name :: rest) v = via_stars db rec m (name :: rest) v.
Proof.
  intros Hm Hn. unfold body. destruct (dget m (definitions db)) as [s|] eqn:E.
  - now rewrite (not_defined_head E Hn).
  - apply dget_None in E. contradiction.
Qed.

Lemma skipped_uniform db m o v ms :
  (forall s, In s ms -> skipped db m o v s) ->
  exists n, forall f, n <= f -> forall s, In s ms ->
    (if negb (mem s v) then resolve_object_path db f s [] o (v ++ [m]) else ObjectNotFound)
    = ObjectNotFound.
Proof.
  intros H. apply (@uniform _ (fun s f =>
    (if negb (mem s v) then resolve_object_path db f s [] o (v ++ [m]) else ObjectNotFound)
    = ObjectNotFound)). intros s Hs. destruct (H s Hs) as [Hv|[_ [n Hn]]].
  - exists 0. intros f _. apply mem_In in Hv. now rewrite Hv.
  - exists n. intros f Hf. rewrite (Hn f Hf). now destruct (negb (mem s v)).
Qed.

Lemma resolves_star db m name rest v before s after r :
  known db m -> ~ defined db m [name] -> star_imports db m = before ++ s :: after ->
  (forall s', In s' before -> skipped db m (name :: rest) v s') ->
  ~ In s v -> resolves db s [] (name :: rest) (v ++ [m]) r -> r <> ObjectNotFound ->
  resolves db m [] (name :: rest) v r.
Proof.
  intros Hm Hn Hs Hb Hv [Hr [n H]] Hnf. apply resolves_body; [exact Hr|].
  destruct (skipped_uniform _ Hb) as [k Hk]. exists (max n k). intros f Hf.
  rewrite body_stars; auto. unfold via_stars. rewrite Hs, try_each_first.
  - apply mem_not_In in Hv. rewrite Hv. apply H. lia.
  - intros y Hy. apply Hk; [lia | exact Hy].
  - apply mem_not_In in Hv. rewrite Hv. cbn [negb]. rewrite H; [exact Hnf | lia].
Qed.

Lemma resolves_tables db m name rest v r :
  known db m -> ~ defined db m [name] ->
  (forall s, In s (star_imports db m) -> skipped db m (name :: rest) v s) ->
  r <> Raises RecursionError ->
  (exists n, forall f, n <= f -> via_tables db (resolve_object_path db f) m (name :: rest) v = r) ->
  resolves db m [] (name :: rest) v r.
Proof.
  intros Hm Hn Hs Hr [n H]. apply resolves_body; [exact Hr|].
  destruct (skipped_uniform _ Hs) as [k Hk]. exists (max n k). intros f Hf.
  rewrite body_stars; auto. unfold via_stars. rewrite try_each_none; [apply H; lia|].
  apply Hk. lia.
Qed.

Lemma reference_Some db m p q :
  reference db m p = Some q -> exists refs, dget m (references db) = Some refs /\ dget p refs = Some q.
Proof. unfold reference. destruct (dget m (references db)) as [refs|]; [eauto | discriminate]. Qed.
Lemma reference_None db m refs p :
  dget m (references db) = Some refs -> reference db m p = dget p refs.
Proof. unfold reference. now intros ->. Qed.

Lemma via_tables_reference db m o v k q q' r :
  0 < k <= length o -> reference db m (firstn k o) = Some q ->
  (forall j, k < j <= length o -> reference db m (firstn j o) = None) ->
  referent db q (v ++ [m]) q' ->
  resolves db (fst q') [] (snd q' ++ skipn k o) (v ++ [m]) r ->
  exists n, forall f, n <= f -> via_tables db (resolve_object_path db f) m o v = r.
Proof.
  intros Hk Hq Hlong Href [Hr [n2 H2]].
  destruct (@reference_Some _ _ _ _ Hq) as (refs & Em & Ek).
  assert (E : longest_reference refs o (length o) = Some (q, skipn k o)).
  { apply longest_reference_at; auto. intros j Hj.
    now rewrite <- (Hlong j Hj), (@reference_None _ _ _ _ Em). }
  destruct Href as [[_ [n1 H1]]|([_ [n1 H1]] & Hlen & Hknown & ->)];
    exists (max n1 n2); intros f Hf; unfold via_tables, via_reference; rewrite Em, E, H1 by lia.
  - apply H2. lia.
  - rewrite Hlen. change (negb (1 == 1)) with false. cbv iota.
    destruct (dmem _ _) eqn:Ed; [|apply dmem_not_In in Ed; contradiction].
    cbn [negb fst snd]. apply H2. lia.
Qed.

Lemma resolves_reference db m name rest v k q q' r :
  known db m -> ~ defined db m [name] ->
  (forall s, In s (star_imports db m) -> skipped db m (name :: rest) v s) ->
  0 < k <= length (name :: rest) -> reference db m (firstn k (name :: rest)) = Some q ->
  (forall j, k < j <= length (name :: rest) -> reference db m (firstn j (name :: rest)) = None) ->
  referent db q (v ++ [m]) q' ->
  resolves db (fst q') [] (snd q' ++ skipn k (name :: rest)) (v ++ [m]) r ->
  resolves db m [] (name :: rest) v r.
Proof.
  intros Hm Hn Hs Hk Hq Hlong Href Hr. apply resolves_tables; auto; [apply Hr|].
  eapply via_tables_reference; eauto.
Qed.

Lemma resolves_builtins db m name rest v r :
  known db m -> has_references db m -> ~ defined db m [name] ->
  (forall s, In s (star_imports db m) -> skipped db m (name :: rest) v s) ->
  (forall k, 0 < k <= length (name :: rest) -> reference db m (firstn k (name :: rest)) = None) ->
  known db builtins_path ->
  (defined db builtins_path (name :: rest) /\ r = Resolved (builtins_path, name :: rest)
   \/ ~ defined db builtins_path (name :: rest) /\ r = ObjectNotFound) ->
  resolves db m [] (name :: rest) v r.
Proof.
  intros Hm Hrefs Hn Hs Hno Hb Hr. apply resolves_tables; auto.
  - destruct Hr as [[_ ->]|[_ ->]]; discriminate.
  - exists 0. intros f _. unfold via_tables.
    destruct (dget m (references db)) as [refs|] eqn:Em; [|apply dget_None in Em; contradiction].
    replace (longest_reference refs (name :: rest) (length (name :: rest)))
      with (@None (qualified_path * path)).
    + unfold via_builtins. destruct (dget builtins_path (definitions db)) as [s|] eqn:E;
        [|apply dget_None in E; contradiction].
      pose proof (@defined_contains _ _ _ (name :: rest) E) as D.
      destruct Hr as [[H ->]|[H ->]].
      * now rewrite (proj1 D H).
      * destruct (scope_contains_path s (name :: rest)); [exfalso; tauto | reflexivity].
    + symmetry. apply longest_reference_None. intros k Hk.
      rewrite <- (@reference_None _ _ _ _ Em). now apply Hno.
Qed.

(** ** C37, C38: termination *)
Definition unvisited (db : database) (v : list path) : nat :=
  length (filter (fun m => negb (mem m v)) (dkeys (definitions db))).
Definition b2n (b : bool) : nat := if b then 1 else 0.

Lemma mem_app {A} `{Eqb A} (x : A) xs ys : mem x (xs ++ ys) = mem x xs || mem x ys.
Proof. apply existsb_app. Qed.

Lemma filter_le {A} (f g : A -> bool) xs :
  (forall x, f x = true -> g x = true) -> length (filter f xs) <= length (filter g xs).
Proof.
  intros H. induction xs as [|x xs IH]; cbn; [lia|].
  destruct (f x) eqn:E; [rewrite (H _ E); cbn; lia | destruct (g x); cbn; lia].
Qed.

Lemma unvisited_more db v m : unvisited db (v ++ [m]) <= unvisited db v.
Proof.
  apply filter_le. intros x. rewrite mem_app. destruct (mem x v); [discriminate | reflexivity].
Qed.
Lemma filter_lt {A} (f g : A -> bool) xs x :
  (forall x, f x = true -> g x = true) -> In x xs -> f x = false -> g x = true ->
  length (filter f xs) < length (filter g xs).
Proof.
  intros H Hx Hf Hg. induction xs as [|y xs IH]; [easy|]. destruct Hx as [->|Hx]; cbn.
  - rewrite Hf, Hg. cbn. pose proof (filter_le f g xs H). lia.
  - specialize (IH Hx). destruct (f y) eqn:E; [rewrite (H _ E); cbn; lia | destruct (g y); cbn; lia].
Qed.
Lemma unvisited_less db v m : known db m -> ~ In m v -> unvisited db (v ++ [m]) < unvisited db v.
Proof.
  intros Hm Hv. unfold unvisited. apply filter_lt with (x := m); auto.
  - intros x. rewrite mem_app. destruct (mem x v); [discriminate | reflexivity].
  - rewrite mem_app. cbn. rewrite eqb_refl. now destruct (mem m v).
  - apply mem_not_In in Hv. now rewrite Hv.
Qed.

Definition star_measure (db : database) (m : path) (v : list path) : nat :=
  2 * unvisited db v + b2n (mem m v).

Lemma star_measure_step db m s v :
  known db m -> ~ In s v -> star_measure db s (v ++ [m]) < star_measure db m v.
Proof.
  intros Hm Hs. unfold star_measure. rewrite mem_app. apply mem_not_In in Hs. rewrite Hs.
  destruct (mem m v) eqn:E.
  - pose proof (unvisited_more db v m). cbn. rewrite orb_false_r.
    destruct (eqb_reflect s m) as [->|]; [congruence|]. cbn. lia.
  - apply mem_not_In in E. pose proof (@unvisited_less _ _ _ Hm E).
    destruct (false || mem s [m]); cbn; lia.
Qed.

Definition star_fuel (db : database) (m o : path) (v : list path) : nat :=
  1 + star_measure db m v + (if @eqb pystr _ (@hd pystr [] o) object_name then 0 else 2).

Lemma unvisited_le db v : unvisited db v <= length (definitions db).
Proof.
  unfold unvisited, dkeys. rewrite <- (map_length fst (definitions db)).
  induction (map fst (definitions db)) as [|x xs IH]; cbn; [lia|].
  destruct (negb (mem x v)); cbn; lia.
Qed.

Lemma try_each_rec {A} (f : A -> resolution) xs otherwise e :
  (forall x, In x xs -> f x <> Raises e) -> otherwise <> Raises e ->
  try_each f xs otherwise <> Raises e.
Proof.
  intros H Ho. induction xs as [|x xs IH]; cbn; [exact Ho|].
  assert (Hx : f x <> Raises e) by (apply H; now left).
  assert (IH' : try_each f xs otherwise <> Raises e) by (apply IH; intros y Hy; apply H; now right).
  now destruct (f x).
Qed.

Lemma star_terminates db f m o v :
  no_links db -> star_fuel db m o v <= f ->
  resolve_object_path db f m [] o v <> Raises RecursionError.
Proof.
  intros [Hrefs Hbases]. revert m o v. induction f as [|f IH]; intros m o v Hf;
    [unfold star_fuel in Hf; lia|].
  rewrite resolve_S. unfold body.
  destruct (dget m (definitions db)) as [defs|] eqn:Em; [|discriminate].
  destruct o as [|name rest]; [discriminate|]. cbn [scope_contains_path negb is_nil andb].
  destruct (dget name (entries defs)) as [s|].
  - destruct (first_missing s [name] rest) as [[sub remaining]|]; [|discriminate].
    unfold via_bases. rewrite Hbases. cbn [try_each].
    destruct (name == object_name) eqn:E; cbn [negb]; [discriminate|].
    apply IH. unfold star_fuel, star_measure in *. cbn [hd] in *. rewrite E in Hf. rewrite eqb_refl.
    destruct (mem builtins_path v), (mem m v); cbn in *; lia.
  - assert (Hm : known db m) by (apply dget_Some_In in Em; apply in_map_iff; now exists (m, defs)).
    unfold via_stars. apply try_each_rec.
    + intros x _. destruct (mem x v) eqn:E; [discriminate|]. cbn [negb]. apply IH.
      apply mem_not_In in E. pose proof (@star_measure_step db m x v Hm E).
      unfold star_fuel in *. cbn [hd] in *. lia.
    + unfold via_tables. destruct (dget m (references db)) as [refs|] eqn:Er; [|discriminate].
      replace (longest_reference refs (name :: rest) (length (name :: rest)))
        with (@None (qualified_path * path)).
      * unfold via_builtins. destruct (dget builtins_path (definitions db)) as [s|]; [|discriminate].
        now destruct (scope_contains_path s (name :: rest)).
      * symmetry. apply longest_reference_None. intros k Hk.
        now rewrite <- (@reference_None _ _ _ _ Er).
Qed.

Lemma star_terminates_bound db f m parent o v :
  no_links db -> 2 * length (definitions db) + 5 <= f ->
  resolve_object_path db f m parent o v <> Raises RecursionError.
Proof.
  intros H Hf. destruct f as [|f]; [lia|]. rewrite resolve_S.
  assert (Hb : forall m o v, star_fuel db m o v <= 2 * length (definitions db) + 4).
  { intros m0 o0 v0. unfold star_fuel, star_measure. pose proof (unvisited_le db v0).
    destruct (mem m0 v0), (@eqb pystr _ (@hd pystr [] o0) object_name); cbn [b2n]; lia. }
  unfold body. destruct (dget m (definitions db)) as [defs|] eqn:Em; [|discriminate].
  destruct o as [|name rest]; [discriminate|].
  destruct (negb (scope_contains_path defs parent)); [discriminate|].
  destruct (negb (is_nil parent) && scope_contains_path defs (parent ++ [name])).
  - apply star_terminates; [exact H|]. etransitivity; [apply Hb | lia].
  - pose proof (@star_terminates db (S f) m (name :: rest) v H) as T. rewrite resolve_S in T.
    unfold body in T. rewrite Em in T. cbn [scope_contains_path negb is_nil andb] in T.
    apply T. etransitivity; [apply Hb | lia].
Qed.

Lemma terminates_fuel db m parent o v :
  terminates db m parent o v ->
  exists n r, r <> Raises RecursionError /\
    forall f, n <= f -> resolve_object_path db f m parent o v = r.
Proof. intros [r [Hr [n H]]]. now exists n, r. Qed.

Lemma terminates_body db m parent o v :
  (exists n, forall f, n <= f -> body db (resolve_object_path db f) m parent o v <> Raises RecursionError) ->
  terminates db m parent o v.
Proof. intros [n H]. apply terminates_iff. exists (S n). rewrite resolve_S. apply H. lia. Qed.

Lemma star_links_trans db x y z : star_links db x y -> star_links db y z -> star_links db x z.
Proof. induction 1; eauto using star_links. Qed.

Lemma firstn_nonempty {A} k (o : list A) : 0 < k <= length o -> firstn k o <> [].
Proof. destruct k, o; cbn; intros; try lia; discriminate. Qed.

Lemma hd_firstn {A} (d : A) k o : 0 < k -> hd d (firstn k o) = hd d o.
Proof. destruct k, o; cbn; intros; try lia; reflexivity. Qed.

Lemma acc_terminates db x :
  Acc (hop db) x -> forall v, terminates db (fst x) [] (snd x) v.
Proof.
  induction 1 as [x _ IH]. intros v.
  assert (Inner : forall k z v, star_links db x z -> star_measure db (fst z) v < k ->
                                terminates db (fst z) [] (snd z) v).
  2:{ eapply Inner; [constructor | apply Nat.lt_succ_diag_r]. }
  clear v. induction k as [|k IHk]; intros [m o] v Hz Hk; [lia|]. cbn [fst snd] in *.
  assert (Hop : forall y, link db (m, o) y -> forall v, terminates db (fst y) [] (snd y) v).
  { intros y Hy. apply IH. exists (m, o). split; assumption. }
  apply terminates_body. unfold body.
  destruct (dget m (definitions db)) as [defs|] eqn:Em; [|now exists 0].
  destruct o as [|name rest]; [now exists 0|]. cbn [scope_contains_path negb is_nil andb].
  destruct (dget name (entries defs)) as [s|] eqn:En.
  - destruct (first_missing s [name] rest) as [[sub remaining]|] eqn:Ef; [|now exists 0].
    destruct (first_missing_Some _ _ _ Ef) as (mid & n & after & -> & -> & -> & H1 & H2).
    assert (D1 : defined db m (name :: mid)).
    { apply (@defined_contains _ _ _ _ Em). cbn. now rewrite En. }
    assert (D2 : ~ defined db m ((name :: mid) ++ [hd [] (n :: after)])).
    { intros D. apply (@defined_contains _ _ _ _ Em) in D. cbn in D. rewrite En in D. exact (eq_true_false_abs _ D H2). }
    destruct (@uniform _ (fun (b : qualified_path) f =>
        resolve_object_path db f (fst b) [] (snd b ++ n :: after) (v ++ [m]) <> Raises RecursionError)
        (bases db (m, name :: mid))) as [n1 Hn1].
    { intros b Hb. destruct (Hop (fst b, snd b ++ n :: after)) with (v := v ++ [m]) as [r [Hr [n1 H]]].
      - change (name :: mid ++ n :: after) with ((name :: mid) ++ n :: after). now apply l_base.
      - exists n1. intros f Hf. cbn in H. now rewrite H. }
    destruct (eqb_reflect name object_name) as [Eo|Eo].
    + exists n1. intros f Hf. unfold via_bases. apply try_each_rec; [now apply Hn1|].
      destruct (eqb_reflect name object_name); [discriminate | contradiction].
    + destruct (Hop (builtins_path, object_name :: n :: after)) with (v := v) as [r [Hr [n2 H]]].
      { change (name :: mid ++ n :: after) with ((name :: mid) ++ n :: after). now apply l_object. }
      cbn in H. exists (max n1 n2). intros f Hf. unfold via_bases. apply try_each_rec.
      * intros b Hb. apply Hn1; [lia | exact Hb].
      * destruct (negb (name == object_name)); [|discriminate]. rewrite H; [exact Hr | lia].
  - assert (Hm : known db m) by (apply dget_Some_In in Em; apply in_map_iff; now exists (m, defs)).
    assert (D : ~ defined db m [name]).
    { intros D. apply (@defined_contains _ _ _ _ Em) in D. cbn in D. now rewrite En in D. }
    destruct (@uniform _ (fun x f =>
        (if negb (mem x v) then resolve_object_path db f x [] (name :: rest) (v ++ [m])
         else ObjectNotFound) <> Raises RecursionError) (star_imports db m)) as [n1 Hn1].
    { intros y Hy. destruct (mem y v) eqn:Ev; [now exists 0|]. cbn [negb].
      destruct (IHk (y, name :: rest) (v ++ [m])) as [r [Hr [n1 H]]].
      - eapply star_links_trans; [exact Hz|]. eapply ss_step; [|constructor].
        repeat split; auto. cbn. intros n0 rest0 E. inv E. exact D.
      - cbn [fst]. apply mem_not_In in Ev. pose proof (@star_measure_step db m y v Hm Ev). lia.
      - exists n1. intros f Hf. cbn in H. now rewrite H. }
    enough (T : exists n2, forall f, n2 <= f ->
              via_tables db (resolve_object_path db f) m (name :: rest) v <> Raises RecursionError).
    { destruct T as [n2 Hn2]. exists (max n1 n2). intros f Hf. unfold via_stars.
      apply try_each_rec; [intros y Hy; apply Hn1; [lia | exact Hy] | apply Hn2; lia]. }
    unfold via_tables. destruct (dget m (references db)) as [refs|] eqn:Er; [|now exists 0].
    destruct (longest_reference refs (name :: rest) (length (name :: rest))) as [[q remaining]|] eqn:El.
    2:{ exists 0. intros f _. unfold via_builtins.
        destruct (dget builtins_path (definitions db)) as [s|]; [|discriminate].
        now destruct (scope_contains_path s (name :: rest)). }
    destruct (longest_reference_Some _ _ _ El) as (j & Hj & Hq & -> & _).
    set (o1 := firstn j (name :: rest)) in *. set (o2 := skipn j (name :: rest)) in *.
    assert (Eo : name :: rest = o1 ++ o2) by (symmetry; apply firstn_skipn).
    assert (Ho1 : o1 <> []) by now apply firstn_nonempty.
    assert (Hd : ~ defined db m [hd [] o1]) by (unfold o1; rewrite hd_firstn by lia; exact D).
    assert (Hq' : reference db m o1 = Some q) by now rewrite (@reference_None _ _ _ _ Er).
    destruct (Hop q) with (v := v ++ [m]) as [r [Hr [n1' H1]]].
    { rewrite Eo. now apply l_referent. }
    destruct r as [q'| |e].
    + destruct (Hop (fst q', snd q' ++ o2)) with (v := v ++ [m]) as [r' [Hr' [n2 H2]]].
      { rewrite Eo. apply l_continue with (q := q) (visited := v ++ [m]); auto.
        left. split; [exact Hr|]. now exists n1'. }
      cbn in H2. exists (max n1' n2). intros f Hf. unfold via_reference. rewrite H1 by lia.
      rewrite H2 by lia. exact Hr'.
    + destruct (dmem (fst q ++ snd q) (definitions db)) eqn:Ek.
      * destruct (Hop (fst q ++ snd q, [] ++ o2)) with (v := v ++ [m]) as [r' [Hr' [n2 H2]]].
        { rewrite Eo. apply l_continue with (q := q) (q' := (fst q ++ snd q, [])) (visited := v ++ [m]); auto.
          right. split; [now apply dmem_In | reflexivity]. }
        cbn in H2. exists (max n1' n2). intros f Hf. unfold via_reference. rewrite H1 by lia.
        rewrite Ek. destruct (negb (length (snd q) == 1)); [discriminate|]. cbn.
        rewrite H2 by lia. exact Hr'.
      * exists n1'. intros f Hf. unfold via_reference. rewrite H1 by lia. rewrite Ek.
        now destruct (negb (length (snd q) == 1)).
    + exists n1'. intros f Hf. unfold via_reference. rewrite H1 by lia. congruence.
Qed.

Lemma acc_terminates_scoped db m parent o v :
  Acc (hop db) (m, o) -> Acc (hop db) (m, parent ++ o) -> terminates db m parent o v.
Proof.
  intros H1 H2. apply terminates_body. unfold body.
  destruct (dget m (definitions db)) as [defs|] eqn:Em; [|now exists 0].
  destruct o as [|name rest]; [now exists 0|].
  destruct (negb (scope_contains_path defs parent)); [now exists 0|].
  destruct (negb (is_nil parent) && scope_contains_path defs (parent ++ [name])).
  - destruct (@acc_terminates db _ H2 v) as [r [Hr [n H]]]. exists n. intros f Hf.
    cbn in H. now rewrite H.
  - destruct (@acc_terminates db _ H1 v) as [r [Hr [n H]]]. exists n. intros f Hf.
    assert (E := H (S f)). cbn [fst snd] in E. rewrite resolve_S in E. unfold body in E.
    rewrite Em in E. cbn [scope_contains_path negb is_nil andb] in E. rewrite E by lia. exact Hr.
Qed.

(** ** C39: base classes *)
Lemma body_bases db rec m (sub : path) n (after : path) v :
  sub <> [] -> defined db m sub -> ~ defined db m (sub ++ [n]) ->
  body db rec m [] (sub ++ n :: after) v = via_bases db rec m sub (n :: after) (@hd pystr [] sub) v.
Proof.
  intros Hs (s & Hm & Hp) Hn. destruct sub as [|name mid]; [easy|]. unfold body. rewrite Hm.
  cbn [app scope_contains_path negb is_nil andb hd]. inv Hp. rewrite H2.
  rewrite (@first_missing_at s' [name] mid n after).
  - reflexivity.
  - now apply contains_has_path.
  - apply not_true_iff_false. intros E. apply Hn. exists s. split; [exact Hm|].
    cbn. econstructor; [exact H2|]. now apply contains_has_path.
Qed.

Lemma resolves_base db m (sub : path) n (after : path) v before b later r :
  sub <> [] -> defined db m sub -> ~ defined db m (sub ++ [n]) ->
  bases db (m, sub) = before ++ b :: later ->
  (forall b', In b' before ->
     resolves db (fst b') [] (snd b' ++ n :: after) (v ++ [m]) ObjectNotFound) ->
  resolves db (fst b) [] (snd b ++ n :: after) (v ++ [m]) r -> r <> ObjectNotFound ->
  resolves db m [] (sub ++ n :: after) v r.
Proof.
  intros Hs Hd Hn Hb Hbefore [Hr [k Hk]] Hnf. apply resolves_body; [exact Hr|].
  destruct (@uniform _ (fun (b' : qualified_path) f =>
    resolve_object_path db f (fst b') [] (snd b' ++ n :: after) (v ++ [m]) = ObjectNotFound) before)
    as [k' Hk'].
  { intros b' Hb'. destruct (Hbefore b' Hb') as [_ [j Hj]]. eauto. }
  exists (max k k'). intros f Hf. rewrite body_bases; auto. unfold via_bases.
  rewrite Hb, try_each_first.
  - apply Hk. lia.
  - intros y Hy. apply Hk'; [lia | exact Hy].
  - rewrite Hk by lia. exact Hnf.
Qed.

Lemma resolves_object db m (sub : path) n (after : path) v r :
  sub <> [] -> defined db m sub -> ~ defined db m (sub ++ [n]) ->
  (forall b, In b (bases db (m, sub)) ->
     resolves db (fst b) [] (snd b ++ n :: after) (v ++ [m]) ObjectNotFound) ->
  (@hd pystr [] sub = object_name /\ r = ObjectNotFound
   \/ @hd pystr [] sub <> object_name /\ resolves db builtins_path [] (object_name :: n :: after) v r) ->
  resolves db m [] (sub ++ n :: after) v r.
Proof.
  intros Hs Hd Hn Hb Hr.
  destruct (@uniform _ (fun (b' : qualified_path) f =>
    resolve_object_path db f (fst b') [] (snd b' ++ n :: after) (v ++ [m]) = ObjectNotFound)
    (bases db (m, sub))) as [k' Hk'].
  { intros b' Hb'. destruct (Hb b' Hb') as [_ [j Hj]]. eauto. }
  destruct Hr as [[Ho ->]|[Ho [Hr [k Hk]]]].
  - apply resolves_body; [discriminate|]. exists k'. intros f Hf. rewrite body_bases; auto.
    unfold via_bases. rewrite try_each_none; [|now apply Hk']. now rewrite Ho, eqb_refl.
  - apply resolves_body; [exact Hr|]. exists (max k k'). intros f Hf. rewrite body_bases; auto.
    unfold via_bases. rewrite try_each_none; [|apply Hk'; lia].
    apply eqb_neq in Ho. rewrite Ho. cbn [negb]. apply Hk. lia.
Qed.

Lemma object_lacks_not_found db a v :
  object_lacks db a -> resolves db builtins_path [] [object_name; a] v ObjectNotFound.
Proof.
  intros (H1 & H2 & H3). apply (@resolves_object db builtins_path [object_name] a [] v); auto.
  - discriminate.
  - intros b Hb. exfalso. assert (E : In b []) by (rewrite <- H3; exact Hb). exact E.
Qed.

Lemma inherits_resolves db a c result :
  inherits db a c result -> object_lacks db a -> well_placed db c -> forall v,
  resolves db (fst c) [] (snd c ++ [a]) v
    match result with
    | Some d => Resolved (fst d, snd d ++ [a])
    | None => ObjectNotFound
    end.
Proof.
  intros H Ho. induction H as [m c Hd|m c before b after r Hn Hb Hbefore IHbefore Hr IHr|m c Hn Hb IHb];
    intros Hw v; cbn [fst snd] in *.
  - now apply resolves_defined.
  - assert (Hwb : forall b', In b' (bases db (m, c)) -> well_placed db b').
    { intros b' Hb' d Hd. apply Hw. eapply re_base; eauto. }
    destruct (Hw (m, c) (re_self _ _)) as [Hc Hd]. cbn in Hc, Hd.
    eapply resolves_base; eauto.
    + intros b' Hb'. apply IHbefore; auto. apply Hwb. rewrite Hb. apply in_or_app. now left.
    + apply IHr. apply Hwb. rewrite Hb. apply in_or_app. right. now left.
    + discriminate.
  - assert (Hwb : forall b', In b' (bases db (m, c)) -> well_placed db b').
    { intros b' Hb' d Hd. apply Hw. eapply re_base; eauto. }
    destruct (Hw (m, c) (re_self _ _)) as [Hc Hd]. cbn in Hc, Hd.
    apply resolves_object; auto.
    destruct (eqb_reflect (@hd pystr [] c) object_name) as [E|E]; [now left|]. right.
    split; [exact E | now apply object_lacks_not_found].
Qed.

Lemma along_first_bases_resolves db a c d :
  along_first_bases db a c d -> defined db builtins_path [object_name; a] -> well_placed db c -> forall v,
  resolves db (fst c) [] (snd c ++ [a]) v (Resolved (fst d, snd d ++ [a])).
Proof.
  intros H Ho. induction H as [m c Hd|m c b after r Hn Hb _ IH|m c Hn Hb Hh]; intros Hw v; cbn [fst snd] in *.
  - now apply resolves_defined.
  - destruct (Hw (m, c) (re_self _ _)) as [Hc Hd]. cbn in Hc, Hd.
    apply resolves_base with (before := []) (b := b) (later := after); auto; [intros ? []| |discriminate].
    apply IH. intros d' Hd'. apply Hw. eapply re_base; [|exact Hd']. rewrite Hb. now left.
  - destruct (Hw (m, c) (re_self _ _)) as [Hc Hd]. cbn in Hc, Hd.
    apply resolves_object; auto.
    + intros b Hi. exfalso. assert (E : In b []) by (rewrite <- Hb; exact Hi). exact E.
    + right. split; [exact Hh|]. now apply (@resolves_defined db builtins_path [object_name; a]).
Qed.

(** ** C37: cyclic star imports do not hide names *)
Inductive walk (db : database) (name : pystr) : path -> list path -> path -> Prop :=
| w_here m : walk db name m [] m
| w_step m m' p s : known db m -> ~ defined db m [name] -> In m' (star_imports db m) ->
    walk db name m' p s -> walk db name m (m' :: p) s.

Lemma walk_from db name m p1 x p2 s : walk db name m (p1 ++ x :: p2) s -> walk db name x p2 s.
Proof.
  revert m. induction p1 as [|y p1 IH]; cbn; intros m H; inv H; [assumption | eauto].
Qed.

Lemma simple_walk db name m s :
  star_reach db name m s -> exists p, walk db name m p s /\ NoDup (m :: p).
Proof.
  induction 1 as [m|m m' s Hm Hn Hin _ (p & Hp & Hnd)].
  - exists []. split; [constructor | repeat constructor; easy].
  - destruct (mem m (m' :: p)) eqn:E.
    + apply mem_In, in_split in E. destruct E as (p1 & p2 & E).
      exists p2. split.
      * assert (W : walk db name m (m' :: p) s) by now apply w_step.
        rewrite E in W. eapply walk_from; eauto.
      * rewrite E in Hnd. clear -Hnd. induction p1; [exact Hnd | inv Hnd; auto].
    + exists (m' :: p). split; [now apply w_step|]. constructor; [now apply mem_not_In | exact Hnd].
Qed.

Lemma try_each_resolved {A} (f : A -> resolution) xs otherwise x q :
  In x xs -> f x = Resolved q -> (forall y e, In y xs -> f y <> Raises e) ->
  exists y q', In y xs /\ f y = Resolved q' /\ try_each f xs otherwise = Resolved q'.
Proof.
  intros Hx Hq Hno. induction xs as [|y xs IH]; [easy|]. cbn.
  destruct (f y) as [q'| |e] eqn:E.
  - exists y, q'. split; [now left | easy].
  - destruct Hx as [->|Hx]; [congruence|].
    destruct IH as (z & q' & Hz & Hq' & ->); auto; [intros; apply Hno; now right|].
    exists z, q'. split; [now right | easy].
  - exfalso. apply (Hno y e); [now left | exact E].
Qed.

(** Without links nothing but [ObjectNotFound] can go wrong for a plain name. *)
Lemma name_outcome db f m name v :
  no_links db -> complete_tables db ->
  match resolve_object_path db f m [] [name] v with
  | Resolved (m', o) => o = [name] /\ defined db m' [name]
                        /\ (star_reach db name m m' \/ m' = builtins_path)
  | ObjectNotFound => True
  | Raises e => e = RecursionError
  end.
Proof.
  intros [Hrefs Hbases] [Hb Ht]. revert m v. induction f as [|f IH]; intros m v; [reflexivity|].
  rewrite resolve_S. unfold body.
  destruct (dget m (definitions db)) as [defs|] eqn:Em; [|exact I].
  cbn [scope_contains_path negb is_nil andb].
  destruct (dget name (entries defs)) as [s|] eqn:En.
  - cbn. repeat split; [|left; constructor]. apply (@defined_contains _ _ _ _ Em). cbn. now rewrite En.
  - assert (Hm : known db m) by (apply dget_Some_In in Em; apply in_map_iff; now exists (m, defs)).
    assert (D : ~ defined db m [name]).
    { intros D. apply (@defined_contains _ _ _ _ Em) in D. cbn in D. now rewrite En in D. }
    unfold via_stars. destruct (try_each_cases
      (fun s => if negb (mem s v) then resolve_object_path db f s [] [name] (v ++ [m]) else ObjectNotFound)
      (star_imports db m) (via_tables db (resolve_object_path db f) m [name] v))
      as [(before & b & after & Es & _ & Hnf & ->)|[_ ->]].
    + destruct (negb (mem b v)); [|easy]. specialize (IH b (v ++ [m])).
      destruct (resolve_object_path db f b [] [name] (v ++ [m])) as [[m' o]| |e]; auto.
      destruct IH as (H1 & H2 & [H3|H3]); repeat split; auto. left.
      eapply sr_step; eauto. rewrite Es. apply in_or_app. right. now left.
    + unfold via_tables. destruct (dget m (references db)) as [refs|] eqn:Er;
        [|apply dget_None in Er; exfalso; apply Er, Ht, Hm].
      replace (longest_reference refs [name] (length [name])) with (@None (qualified_path * path)).
      * unfold via_builtins. destruct (dget builtins_path (definitions db)) as [s|] eqn:Eb;
          [|apply dget_None in Eb; contradiction].
        destruct (scope_contains_path s [name]) eqn:Es; [|exact I]. repeat split; [|now right].
        now apply (@defined_contains _ _ _ _ Eb).
      * symmetry. apply longest_reference_None. intros k Hk.
        now rewrite <- (@reference_None _ _ _ _ Er).
Qed.

Lemma name_found_from db f name m p s v :
  no_links db -> complete_tables db -> walk db name m p s -> NoDup (m :: p) -> defined db s [name] ->
  (forall x, In x p -> ~ In x v) -> star_fuel db m [name] v <= f ->
  exists m', resolve_object_path db f m [] [name] v = Resolved (m', [name]).
Proof.
  intros HL HT HW. revert f v. induction HW as [m|m m' p s Hm Hn Hin HW IH]; intros f v Hnd Hd Hv Hf.
  - destruct f as [|f]; [unfold star_fuel in Hf; lia|]. exists m. now apply resolve_defined.
  - destruct f as [|f]; [unfold star_fuel in Hf; lia|]. rewrite resolve_S, body_stars by auto.
    unfold via_stars.
    assert (Step : forall x, ~ In x v -> star_fuel db x [name] (v ++ [m]) <= f).
    { intros x Hx. pose proof (@star_measure_step db m x v Hm Hx). unfold star_fuel in *. lia. }
    inv Hnd. assert (Hm'v : ~ In m' v) by (apply Hv; now left).
    destruct (IH f (v ++ [m])) as [m'' E]; auto.
    { intros x Hx Hx'. apply in_app_or in Hx'. destruct Hx' as [Hx'|[<-|[]]].
      - apply (Hv x); [now right | exact Hx'].
      - apply H1. now right. }
    destruct (@try_each_resolved _
      (fun s => if negb (mem s v) then resolve_object_path db f s [] [name] (v ++ [m]) else ObjectNotFound)
      (star_imports db m) (via_tables db (resolve_object_path db f) m [name] v) m' (m'', [name]))
      as (y & [m3 o] & Hy & Ey & ->); auto.
    + apply mem_not_In in Hm'v. now rewrite Hm'v.
    + intros y e Hy Ee. destruct (mem y v) eqn:Ev; [discriminate|]. cbn [negb] in Ee.
      pose proof (@name_outcome db f y name (v ++ [m]) HL HT) as O. rewrite Ee in O. subst e.
      apply mem_not_In in Ev. now apply (@star_terminates db f y [name] (v ++ [m]) HL (Step y Ev)).
    + destruct (negb (mem y v)); [|discriminate].
      pose proof (@name_outcome db f y name (v ++ [m]) HL HT) as O. rewrite Ey in O.
      destruct O as [-> _]. now exists m3.
Qed.

Lemma name_found db name m s :
  no_links db -> complete_tables db -> star_reach db name m s -> defined db s [name] ->
  exists m', resolves db m [] [name] [] (Resolved (m', [name]))
             /\ defined db m' [name] /\ (star_reach db name m m' \/ m' = builtins_path).
Proof.
  intros HL HT HR HD. destruct (simple_walk HR) as (p & HW & Hnd).
  destruct (@name_found_from db (star_fuel db m [name] []) name m p s [] HL HT HW Hnd HD) as [m' E];
    [easy | lia|].
  exists m'. pose proof (@name_outcome db (star_fuel db m [name] []) m name [] HL HT) as O. rewrite E in O.
  split; [apply resolves_iff; split; [discriminate | eauto] | tauto].
Qed.
