(** Reading of stubs ends unless star imports form cycles. *)
From Verif Require Import Base Ast Conversion Catalog Arboreal Generics GenericsProofs Scoping ScopingProofs Signatures Stubs StubsProofs SpecReadingDepth.
From Coq Require Import Relations.

Section Ends.
Variable source : path -> option (list stmt).
Variable is_package : path -> bool.
Variable condition : list (pystr * qualified_path) -> expr -> res bool.
Variable universe : list path.
Variable rank : path -> nat.
Variable highest : nat.
Hypothesis finite : forall m, source m <> None -> In m universe.
Hypothesis bounded : forall m, rank m <= highest.
Hypothesis ranked : forall m x, star_import source is_package m x -> rank x < rank m.
Hypothesis conditions : forall bindings e, condition bindings e <> Err RecursionError.

Definition inv (st : state) : Prop := forall m s, In s (dget_or m [] (submodules (db st))) -> rank s < rank m.
Definition kept (st st' : state) : Prop := inv st' /\ incl (visited st) (visited st').
Definition ends {A} (st : state) (x : step A) : Prop :=
  match x with Done st' _ | Missing st' => kept st st' | Fails e => e <> RecursionError end.
Definition left_ (st : state) : nat := length (filter (fun m => negb (mem m (visited st))) universe).
Lemma fewer (p q : path -> bool) l : (forall x, p x = true -> q x = true) -> length (filter p l) <= length (filter q l).
Proof.
  intros H. induction l as [|x r IH]; [apply le_n|]. cbn [filter]. destruct (p x) eqn:E.
  - rewrite (H x E). cbn [length]. lia.
  - destruct (q x); cbn [length]; lia.
Qed.
Lemma strictly_fewer (p q : path -> bool) l y : (forall x, p x = true -> q x = true) -> In y l -> p y = false -> q y = true ->
  length (filter p l) < length (filter q l).
Proof.
  intros H I P Q. induction l as [|x r IH]; [destruct I|]. cbn [filter]. destruct I as [->|I].
  - rewrite P, Q. cbn [length]. pose proof (fewer p q r H). lia.
  - specialize (IH I). destruct (p x) eqn:E; [rewrite (H x E); cbn [length]; lia|]. destruct (q x); cbn [length]; lia.
Qed.
Lemma unvisited_before st st' x : incl (visited st) (visited st') -> negb (mem x (visited st')) = true -> negb (mem x (visited st)) = true.
Proof.
  intros I H. apply Bool.negb_true_iff in H. apply Bool.negb_true_iff. destruct (mem x (visited st)) eqn:E; [|reflexivity].
  apply mem_In in E. apply I in E. apply mem_In in E. congruence.
Qed.
Lemma left_less st st' : incl (visited st) (visited st') -> left_ st' <= left_ st.
Proof. intros I. apply fewer. intros x. now apply unvisited_before. Qed.
Lemma kept_refl st : inv st -> kept st st.
Proof. intros H. split; [exact H|apply incl_refl]. Qed.
Lemma kept_trans a b c : kept a b -> kept b c -> kept a c.
Proof. intros [_ I] [J K]. split; [exact J|]. eapply incl_tran; eauto. Qed.
(** What leaves star imports and modules read alone *)
Lemma kept_same st st' : inv st -> submodules (db st') = submodules (db st) -> visited st' = visited st -> kept st st'.
Proof. intros I S E. split; [unfold inv; now rewrite S|rewrite E; apply incl_refl]. Qed.
Lemma ends_done {A} st st' (a : A) : inv st -> submodules (db st') = submodules (db st) -> visited st' = visited st -> ends st (Done st' a).
Proof. intros. now apply kept_same. Qed.
Lemma ends_from {A} st st' (x : step A) : kept st st' -> ends st' x -> ends st x.
Proof. intros K. destruct x; cbn; auto; now apply kept_trans. Qed.
Lemma ends_bind {A B} st (x : step A) (F : state -> A -> step B) :
  ends st x -> (forall st' a, kept st st' -> ends st' (F st' a)) -> ends st (sbind x F).
Proof.
  intros H K. destruct x as [st' a|st'|e]; cbn in *; auto. specialize (K st' a H).
  destruct (F st' a); cbn in *; auto; eapply kept_trans; eauto.
Qed.
Lemma ends_pure {A} st (x : res A) : inv st -> x <> Err RecursionError -> ends st (pure st x).
Proof. intros I N. destruct x; cbn; [now apply kept_refl|]. intros ->. now apply N. Qed.
Lemma fetch_ends {K A} `{Eqb K} (k : K) (d : dict K A) : fetch k d <> Err RecursionError.
Proof. unfold fetch. destruct (dget k d); discriminate. Qed.
Lemma to_path_ends e : to_path e <> Err RecursionError.
Proof.
  induction e as [id|v a IH| | | | | | | | | ] using expr_ind'; cbn [to_path]; try discriminate.
  destruct (to_path v) as [p|x]; cbn; [discriminate|]. intros E. apply IH. now injection E as ->.
Qed.
Lemma map_m_ends {A B} (f : A -> res B) l : (forall x, f x <> Err RecursionError) -> map_m f l <> Err RecursionError.
Proof.
  intros H. induction l as [|x r IH]; cbn [map_m]; [discriminate|]. specialize (H x). destruct (f x) as [y|e]; cbn [bind_res]; [|intros E; apply H; now injection E as ->].
  destruct (map_m f r) as [ys|e]; cbn [bind_res]; [discriminate|]. intros E. apply IH. now injection E as ->.
Qed.
Lemma named_tuple_ends name body : named_tuple_to_constructor name body <> Err RecursionError.
Proof.
  unfold named_tuple_to_constructor. cbv zeta.
  pose proof (map_m_ends ann_assign_to_arg (annotations_of body)) as H. destruct (map_m ann_assign_to_arg (annotations_of body)) as [l|e]; [discriminate|].
  cbn [bind_res]. intros E. apply H; [|now injection E as ->]. intros [[t a] v]. unfold ann_assign_to_arg. cbn. destruct t; discriminate.
Qed.
Lemma parent_ends level module m b : to_parent_module_path level module m b <> Err RecursionError.
Proof. unfold to_parent_module_path. destruct level; [destruct module|]; discriminate. Qed.
Lemma ends_each {A} (f : A -> state -> step unit) (n : nat) xs :
  (forall x st, In x xs -> inv st -> left_ st <= n -> ends st (f x st)) ->
  forall st, inv st -> left_ st <= n -> ends st (each f xs st).
Proof.
  induction xs as [|x r IH]; intros H st I L; cbn [each]; [now apply kept_refl|].
  apply ends_bind; [apply H; auto; now left|]. intros st' _ [I' K]. apply IH; [intros; apply H; auto; now right|exact I'|].
  pose proof (left_less _ _ K). lia.
Qed.
Section Reading.
Variable n : nat.
Variable parse : path -> state -> step scope.
Hypothesis Hp : forall m st, inv st -> left_ st <= n -> ends st (parse m st).
Ltac next K := let I := fresh "I" in let V := fresh "V" in let X := fresh "X" in
  destruct K as [I V]; pose proof (left_less _ _ V) as X.
Lemma ends_submodules (f : path -> state -> step qualified_path) (ok : path -> Prop) subs :
  (forall s st, ok s -> inv st -> left_ st <= n -> ends st (f s st)) -> (forall s, In s subs -> ok s) ->
  forall st, inv st -> left_ st <= n -> ends st (try_submodules f subs st).
Proof.
  intros H. induction subs as [|s r IH]; intros O st I L; cbn [try_submodules]; [now apply kept_refl|].
  pose proof (H s st (O s (or_introl eq_refl)) I L) as E. destruct (f s st) as [st' q|st'|e]; [exact E| |exact E]. cbn in E.
  assert (E' := E). next E. pose proof (IH (fun x X => O x (or_intror X)) st' I0 ltac:(lia)) as R.
  destruct (try_submodules f r st'); cbn in *; auto; eapply kept_trans; eauto.
Qed.
Lemma ends_resolve fuel : forall m parent o st, rank m < fuel -> inv st -> left_ st <= n -> ends st (resolve_in parse fuel m parent o st).
Proof.
  induction fuel as [|fuel IH]; intros m parent o st R I L; [lia|]. cbn [resolve_in].
  destruct o as [|first rest]; [discriminate|]. apply ends_bind; [now apply Hp|]. intros st1 scope K1. next K1.
  destruct (scope_contains_path scope (parent ++ [first])); [now apply kept_refl|].
  destruct (dmem first (entries scope)); [now apply kept_refl|].
  apply ends_bind.
  - apply ends_submodules with (ok := fun s => rank s < fuel); [intros s st2 Rs I2 L2; now apply IH| |exact I0|lia].
    intros s S. apply I0 in S. lia.
  - intros st2 found K2. next K2. destruct found as [q|]; [now apply kept_refl|].
    apply ends_bind; [apply ends_pure; [exact I1|apply fetch_ends]|]. intros st3 refs K3. next K3.
    destruct (longest_reference refs (first :: rest) (length (first :: rest))) as [[referent rest']|]; [now apply kept_refl|].
    apply ends_bind; [apply ends_pure; [exact I2|apply fetch_ends]|]. intros st4 b K4. next K4.
    destruct (scope_contains_path b (first :: rest)); now apply kept_refl.
Qed.
Section Visiting.
Variable resolve : path -> path -> path -> state -> step qualified_path.
Hypothesis Hr : forall m parent o st, inv st -> left_ st <= n -> ends st (resolve m parent o st).
Lemma ends_qualified m parent o st : inv st -> left_ st <= n -> ends st (to_qualified_path resolve m parent o st).
Proof.
  intros I L. unfold to_qualified_path. pose proof (Hr m parent o st I L) as E. destruct (resolve m parent o st) as [st' q|st'|e]; [exact E| |exact E].
  cbn in E |- *. eapply kept_trans; [exact E|]. next E. now apply kept_same.
Qed.
Lemma ends_is_type_var m parent o st : inv st -> left_ st <= n -> ends st (is_type_var_object_path parse resolve m parent o st).
Proof.
  intros I L. unfold is_type_var_object_path. apply ends_bind; [now apply ends_qualified|]. intros st1 q K1. next K1.
  apply ends_bind; [apply Hp; [exact I0|lia]|]. intros st2 sc K2. next K2.
  apply ends_bind; [apply ends_pure; [exact I1|apply fetch_ends]|]. intros st3 ns K3. next K3.
  assert (F : ends st3 (Done st3 false)) by now apply kept_refl.
  assert (Y : forall func, ends st3 (match to_maybe_path func with None => Done st3 false | Some p => sbind (resolve (fst q) [] p st3) (fun st c => Done st (c == TypeVar_path)) end)).
  { intros func. destruct (to_maybe_path func); [|exact F]. apply ends_bind; [apply Hr; [exact I2|lia]|]. intros st4 c K4. next K4. now apply kept_refl. }
  destruct (dget_or (snd q) [] ns) as [|s [|s' r]]; [exact F| |].
  - destruct s as [t a [v|]|ts v| | | | | | | ]; try exact F; destruct v; first [exact F|apply Y].
  - destruct s as [t a [v|]|ts v| | | | | | | ]; try exact F; destruct v; exact F.
Qed.
Lemma ends_type_variables m parent arguments : forall st, inv st -> left_ st <= n -> ends st (type_variables parse resolve m parent arguments st).
Proof.
  induction arguments as [|a r IH]; intros st I L; cbn [type_variables]; [now apply kept_refl|]. destruct (to_maybe_path a); [|now apply IH].
  apply ends_bind; [now apply ends_is_type_var|]. intros st1 b K1. next K1. apply ends_bind; [apply IH; [exact I0|lia]|].
  intros st2 rest K2. next K2. now apply kept_refl.
Qed.
Lemma ends_base m parent name body base st : inv st -> left_ st <= n -> ends st (visit_base parse resolve m parent name body base st).
Proof.
  intros I L. unfold visit_base.
  assert (P : ends st (sbind (pure st (to_path base)) (fun st p => sbind (to_qualified_path resolve m parent p st) (fun st q =>
                 if q == NamedTuple_path then sbind (pure st (named_tuple_to_constructor name body)) (fun st constructor =>
                   Done (add_superclass m (parent ++ [name]) q (add_ast_node m parent [name] constructor st)) [])
                 else if q == Protocol_path then Done st [] else if q == Generic_path then Fails AssertionError
                 else Done (add_base (m, parent ++ [name]) base st) ([] : list path))))).
  { apply ends_bind; [apply ends_pure; [exact I|apply to_path_ends]|]. intros st1 p K1. next K1.
    apply ends_bind; [apply ends_qualified; [exact I0|lia]|]. intros st2 q K2. next K2.
    destruct (q == NamedTuple_path); [|destruct (q == Protocol_path); [now apply kept_refl|]; destruct (q == Generic_path); [discriminate|now apply ends_done]].
    apply ends_bind; [apply ends_pure; [exact I1|apply named_tuple_ends]|]. intros st3 c K3. next K3. now apply ends_done. }
  destruct base; try exact P. clear P.
  apply ends_bind; [apply ends_pure; [exact I|rewrite collect_spec by apply le_n; discriminate]|]. intros st1 arguments K1. next K1.
  apply ends_bind; [apply ends_type_variables; [exact I0|lia]|]. intros st2 vars K2. next K2.
  destruct (to_maybe_path base1); [|now apply ends_done]. apply ends_bind; [apply Hr; [exact I1|lia]|]. intros st3 q K3. next K3.
  destruct (mem q [Generic_path; Protocol_path]); now apply ends_done.
Qed.
Lemma ends_bases m parent name body bases : forall st, inv st -> left_ st <= n -> ends st (visit_bases parse resolve m parent name body bases st).
Proof.
  induction bases as [|b r IH]; intros st I L; cbn [visit_bases]; [now apply kept_refl|].
  apply ends_bind; [now apply ends_base|]. intros st1 vars K1. next K1. apply ends_bind; [apply IH; [exact I0|lia]|].
  intros st2 rest K2. next K2. now apply kept_refl.
Qed.
Lemma ends_names m parent names : forall st, inv st -> left_ st <= n -> ends st (resolve_names resolve m parent names st).
Proof.
  induction names as [|x r IH]; intros st I L; cbn [resolve_names]; [now apply kept_refl|].
  apply ends_bind; [now apply Hr|]. intros st1 q K1. next K1. apply ends_bind; [apply IH; [exact I0|lia]|].
  intros st2 rest K2. next K2. now apply kept_refl.
Qed.
Lemma ends_imports m (names : list alias) : forall st, inv st -> kept st (fold_left (fun st a => visit_import m a st) names st).
Proof.
  induction names as [|a r IH]; intros st I; cbn [fold_left]; [now apply kept_refl|].
  assert (F : forall ps st, inv st -> kept st (fold_left (fun st p => add_reference m p (p, []) st) ps st)).
  { induction ps as [|p ps IHp]; intros st' I'; cbn [fold_left]; [now apply kept_refl|].
    eapply kept_trans; [|apply IHp]; [now apply kept_same|exact I']. }
  assert (K : kept st (visit_import m a st)).
  { unfold visit_import. destruct (alias_asname a); [now apply kept_same|now apply F]. }
  eapply kept_trans; [exact K|]. apply IH. apply K.
Qed.
Lemma ends_imports_from m pm (names : list alias) : (forall a, In a names -> alias_name a = $"*" -> rank pm < rank m) ->
  forall st, inv st -> kept st (fold_left (fun st a => visit_import_from m pm a st) names st).
Proof.
  induction names as [|a r IH]; intros H st I; cbn [fold_left]; [now apply kept_refl|].
  assert (K : kept st (visit_import_from m pm a st)).
  { unfold visit_import_from. destruct (alias_name a == $"*") eqn:E; [|now apply kept_same]. apply (proj1 (eqb_eq _ _)) in E.
    pose proof (H a (or_introl eq_refl) E) as R. split; [|apply incl_refl]. intros m' x X. cbn in X. unfold dmodify, dget_or in X.
    rewrite dget_dset in X. destruct (m' == m) eqn:Em.
    - apply (proj1 (eqb_eq _ _)) in Em. subst m'. apply in_app_or in X as [X|[<-|[]]]; [|exact R]. apply I. exact X.
    - apply I. exact X. }
  eapply kept_trans; [exact K|]. apply IH; [intros; eapply H; eauto; now right|apply K].
Qed.
Lemma ends_visit m s : (forall x, stars is_package m x s -> rank x < rank m) ->
  forall parent st, inv st -> left_ st <= n -> ends st (visit is_package condition parse resolve m parent s st).
Proof.
  induction s as [t a v|ts v|f|f|name bases body IH|test b o IHb IHo|ns|mo ns l|ch IH] using stmt_ind'; intros S parent st I L; cbn [visit].
  - apply ends_bind; [apply ends_pure; [exact I|apply to_path_ends]|]. intros st1 p K1. next K1.
    destruct (match v with None => None | Some v => to_maybe_path v end); [|now apply ends_done].
    apply ends_bind; [apply ends_qualified; [exact I0|lia]|]. intros st2 q K2. next K2. now apply ends_done.
  - destruct (to_maybe_path v).
    + apply ends_bind; [now apply ends_qualified|]. intros st1 q K1. next K1. apply ends_each with n; [|exact I0|lia].
      intros x st2 _ I2 L2. apply ends_bind; [apply ends_pure; [exact I2|apply to_path_ends]|]. intros st3 p' K3. next K3. now apply ends_done.
    + apply ends_each with n; [|exact I|exact L].
      intros x st2 _ I2 L2. apply ends_bind; [apply ends_pure; [exact I2|apply to_path_ends]|]. intros st3 p' K3. next K3. now apply ends_done.
  - now apply ends_done.
  - now apply ends_done.
  - rewrite Forall_forall in IH. cbv zeta.
    match goal with |- ends _ (sbind (visit_bases _ _ _ _ _ _ _ ?x) _) => apply (ends_from st x); [apply kept_same; [exact I|reflexivity|reflexivity]|];
      assert (K0 : kept st x) by (apply kept_same; [exact I|reflexivity|reflexivity]); revert K0; generalize x end.
    intros st0 K0. next K0. apply ends_bind; [apply ends_bases; [exact I0|lia]|]. intros st1 vars K1. next K1.
    match goal with |- ends _ (each _ _ ?y) =>
      assert (K2 : kept st1 y) by (destruct (is_nil (dedupe vars)); apply kept_same; solve [exact I1|reflexivity]); apply (ends_from st1 y _ K2); revert K2; generalize y end.
    intros st2 K2. next K2. apply ends_each with n; [|exact I2|lia]. intros x st3 X3 I3 L3. apply IH; auto.
    intros y (mo & ns & l & a & W & R). apply S. exists mo, ns, l, a. split; [econstructor; eauto|exact R].
  - rewrite Forall_forall in IHb, IHo. apply ends_bind; [now apply ends_names|]. intros st1 bindings K1. next K1.
    apply ends_bind; [apply ends_pure; [exact I0|apply conditions]|]. intros st2 c K2. next K2. apply ends_each with n; [|exact I1|lia].
    intros x st3 Hx I3 L3.
    assert (W : In x (b ++ o) -> forall y, stars is_package m y x -> rank y < rank m).
    { intros J y (mo & ns & l & a & W & R). apply S. exists mo, ns, l, a. split; [econstructor; eauto|exact R]. }
    destruct c; [apply IHb|apply IHo]; auto; apply W; apply in_or_app; auto.
  - cbn. now apply ends_imports.
  - pose proof (parent_ends l mo m (is_package m)) as P. destruct (to_parent_module_path l mo m (is_package m)) as [pm|e] eqn:Q.
    + cbn. apply ends_imports_from; [|exact I]. intros a A E. apply S. exists mo, ns, l, a.
      split; [constructor|]. now repeat split.
    + cbn. congruence.
  - rewrite Forall_forall in IH. apply ends_each with n; [|exact I|exact L]. intros x st3 Hx I3 L3. apply IH; auto.
    intros y (mo & ns & l & a & W & R). apply S. exists mo, ns, l, a. split; [econstructor; eauto|exact R].
Qed.
End Visiting.
End Reading.
Lemma ends_stub fuel : forall m st, inv st -> left_ st + highest + 2 <= fuel -> ends st (parse_stub_scope source is_package condition fuel m st).
Proof.
  induction fuel as [|fuel IH]; intros m st I L; [lia|]. cbn [parse_stub_scope].
  destruct (mem m (visited st)) eqn:V; [apply ends_pure; [exact I|apply fetch_ends]|].
  destruct (source m) as [body|] eqn:E; [|discriminate]. cbv zeta.
  match goal with |- ends _ (sbind (each _ _ ?x) _) => assert (K : kept st x) end.
  { split; [exact I|]. cbn. intros y Y. apply in_or_app. now left. }
  match goal with |- ends _ (sbind (each _ _ ?x) _) => assert (Less : left_ x < left_ st) end.
  { unfold left_. apply strictly_fewer with m.
    - intros y. apply unvisited_before. apply K.
    - apply finite. congruence.
    - apply Bool.negb_false_iff. apply mem_In. cbn. apply in_or_app. right. now left.
    - now rewrite V. }
  match goal with |- ends _ (sbind (each _ _ ?x) _) => apply (ends_from st x _ K); revert K Less; generalize x end.
  intros st0 [I0 _] Less. apply ends_bind; [|intros st1 _ [I1 _]; apply ends_pure; [exact I1|apply fetch_ends]].
  assert (P : forall m st, inv st -> left_ st <= left_ st0 -> ends st (parse_stub_scope source is_package condition fuel m st)).
  { intros m' st' I' L'. apply IH; [exact I'|]. lia. }
  apply ends_each with (left_ st0); [|exact I0|apply le_n]. intros s st' S I' L'.
  apply ends_visit with (left_ st0); auto.
  - intros m' parent o st'' I'' L''. apply ends_resolve with (left_ st0); auto. pose proof (bounded m'). lia.
  - intros x X. apply ranked. now exists body, s.
Qed.
Lemma ends_modules fuel ms : length universe + highest + 2 <= fuel -> parse_modules source is_package condition fuel ms <> Fails RecursionError.
Proof.
  intros L. unfold parse_modules.
  assert (I : inv empty_state) by (intros m s []).
  assert (Z : left_ empty_state = length universe).
  { unfold left_. cbn. induction universe as [|x r IH] in |- *; [reflexivity|]. cbn. now rewrite IH. }
  assert (E : ends empty_state (each (fun m st => sbind (parse_stub_scope source is_package condition fuel m st) (fun st _ => Done st tt)) (builtins_path :: ms) empty_state)).
  { apply ends_each with (length universe); [|exact I|lia]. intros m st _ I' L'. apply ends_bind; [apply ends_stub; [exact I'|lia]|].
    intros st' _ K. apply kept_refl. apply K. }
  intros F. rewrite F in E. now apply E.
Qed.
End Ends.

(** ** Ranks *)
(** Star imports that form no cycle have a rank: the length of the longest chain. *)
Section Ranks.
Variable source : path -> option (list stmt).
Variable is_package : path -> bool.
Variable universe : list path.
Hypothesis finite : forall m, source m <> None -> In m universe.
Hypothesis acyclic : forall m, ~ clos_trans _ (star_import source is_package) m m.
Fixpoint stars_in (m : path) (s : stmt) : list path :=
  match s with
  | SClassDef _ _ body => flat_map (stars_in m) body
  | SIf _ body orelse => flat_map (stars_in m) body ++ flat_map (stars_in m) orelse
  | SOther children => flat_map (stars_in m) children
  | SImportFrom module names level =>
      flat_map (fun a => if alias_name a == $"*"
                         then match to_parent_module_path level module m (is_package m) with Ok x => [x] | Err _ => [] end
                         else []) names
  | _ => []
  end.
Lemma stars_in_written m x s s' : written_in s s' -> In x (stars_in m s) -> In x (stars_in m s').
Proof.
  induction 1 as [|? ? ? t I W IH|? ? ? t I W IH|? t I W IH]; intros H; [exact H|..]; specialize (IH H); cbn [stars_in].
  - apply in_flat_map. now exists t.
  - apply in_app_or in I as [I|I]; apply in_or_app; [left|right]; apply in_flat_map; now exists t.
  - apply in_flat_map. now exists t.
Qed.
Lemma stars_listed m x s : stars is_package m x s <-> In x (stars_in m s).
Proof.
  split.
  - intros (mo & ns & l & a & W & A & E & P). apply (stars_in_written _ _ _ _ W). cbn [stars_in]. apply in_flat_map. exists a.
    split; [exact A|]. rewrite E, P. now left.
  - induction s as [t a v|ts v|f|f|name bases body IH|test b o IHb IHo|ns|mo ns l|ch IH] using stmt_ind'; cbn [stars_in]; intros H; try contradiction.
    + apply in_flat_map in H as (t & T & H). rewrite Forall_forall in IH. destruct (IH t T H) as (mo & ns & l & a & W & R).
      exists mo, ns, l, a. split; [econstructor; eauto|exact R].
    + rewrite Forall_forall in IHb, IHo. apply in_app_or in H as [H|H]; apply in_flat_map in H as (t & T & H);
        [destruct (IHb t T H) as (mo & ns & l & a & W & R)|destruct (IHo t T H) as (mo & ns & l & a & W & R)];
        exists mo, ns, l, a; (split; [econstructor; [apply in_or_app; eauto|exact W]|exact R]).
    + apply in_flat_map in H as (a & A & H). destruct (alias_name a == $"*") eqn:E; [|contradiction].
      destruct (to_parent_module_path l mo m (is_package m)) as [y|] eqn:P; [|contradiction]. destruct H as [<-|[]].
      exists mo, ns, l, a. split; [constructor|]. apply (proj1 (eqb_eq _ _)) in E. now repeat split.
    + apply in_flat_map in H as (t & T & H). rewrite Forall_forall in IH. destruct (IH t T H) as (mo & ns & l & a & W & R).
      exists mo, ns, l, a. split; [econstructor; eauto|exact R].
Qed.
Definition stars_of (m : path) : list path := match source m with None => [] | Some body => flat_map (stars_in m) body end.
Lemma stars_of_spec m x : star_import source is_package m x <-> In x (stars_of m).
Proof.
  unfold star_import, stars_of. split.
  - intros (body & s & E & I & S). rewrite E. apply in_flat_map. exists s. split; [exact I|now apply stars_listed].
  - destruct (source m) as [body|]; [|intros []]. intros H. apply in_flat_map in H as (s & I & S). exists body, s.
    split; [reflexivity|]. split; [exact I|now apply stars_listed].
Qed.
Fixpoint longest (k : nat) (m : path) : nat :=
  match k with O => 0 | S k => list_max (map (fun x => S (longest k x)) (stars_of m)) end.
Lemma longest_star k m x : In x (stars_of m) -> S (longest k x) <= longest (S k) m.
Proof.
  intros I. cbn [longest]. assert (M : list_max (map (fun x => S (longest k x)) (stars_of m)) <= list_max (map (fun x => S (longest k x)) (stars_of m))) by apply le_n.
  apply (proj1 (list_max_le _ _)) in M. rewrite Forall_forall in M. apply M. apply in_map_iff. now exists x.
Qed.
Lemma longest_le k : forall m, longest k m <= k.
Proof.
  induction k as [|k IH]; intros m; [apply le_n|]. cbn [longest]. apply list_max_le. rewrite Forall_forall. intros y Y.
  apply in_map_iff in Y as (x & <- & _). specialize (IH x). lia.
Qed.
Lemma longest_reached k m : longest (S k) m <> 0 -> exists x, In x (stars_of m) /\ longest (S k) m = S (longest k x).
Proof.
  cbn [longest]. intros N. induction (stars_of m) as [|x r IH]; [now contradiction N|]. cbn [map list_max fold_right] in *. fold (list_max (map (fun x => S (longest k x)) r)) in *.
  destruct (Nat.max_spec (S (longest k x)) (list_max (map (fun x => S (longest k x)) r))) as [[L E]|[L E]].
  - destruct IH as (y & Y & F); [lia|]. exists y. split; [now right|]. lia.
  - exists x. split; [now left|]. lia.
Qed.
Lemma longest_chain k : forall m, longest k m = k -> 0 < k -> exists l, length l = k /\ NoDup l /\ incl l universe
  /\ forall y, In y l -> y = m \/ clos_trans _ (star_import source is_package) m y.
Proof.
  induction k as [|k IH]; intros m E P; [lia|]. destruct (longest_reached k m) as (x & X & F); [lia|].
  apply stars_of_spec in X. assert (M : In m universe) by (apply finite; destruct X as (body & s & Eb & _); congruence).
  destruct k as [|k].
  - exists [m]. repeat split; [constructor; [intros []|constructor]|intros y [<-|[]]; exact M|intros y [<-|[]]; now left].
  - destruct (IH x) as (l & L & D & U & R); [lia|lia|]. 
    assert (R' : forall y, In y l -> clos_trans _ (star_import source is_package) m y).
    { intros y Y. destruct (R y Y) as [->|T]; [now apply t_step|]. eapply t_trans; [apply t_step|]; eauto. }
    exists (m :: l). cbn [length]. repeat split; [lia| | |].
    + constructor; [|exact D]. intros I. exact (acyclic m (R' m I)).
    + intros y [<-|Y]; [exact M|now apply U].
    + intros y [<-|Y]; [now left|right; now apply R'].
Qed.
Definition height (m : path) : nat := longest (S (length universe)) m.
Lemma height_bounded m : height m <= length universe.
Proof.
  unfold height. pose proof (longest_le (S (length universe)) m) as L. destruct (Nat.eq_dec (longest (S (length universe)) m) (S (length universe))) as [E|N]; [|lia].
  destruct (longest_chain _ m E) as (l & Le & D & U & _); [lia|]. pose proof (NoDup_incl_length D U). lia.
Qed.
Lemma longest_steady k : forall m, longest k m < k -> longest (S k) m = longest k m.
Proof.
  induction k as [|k IH]; intros m L; [lia|].
  assert (E : map (fun x => S (longest (S k) x)) (stars_of m) = map (fun x => S (longest k x)) (stars_of m)).
  { apply map_ext_in. intros x X. f_equal. apply IH. pose proof (longest_star k m x X). lia. }
  change (list_max (map (fun x => S (longest (S k) x)) (stars_of m)) = list_max (map (fun x => S (longest k x)) (stars_of m))). now rewrite E.
Qed.
Lemma height_lower m x : star_import source is_package m x -> height x < height m.
Proof.
  intros S. apply stars_of_spec in S. unfold height at 2. rewrite <- longest_steady by (pose proof (height_bounded m) as B; unfold height in B; lia).
  apply (longest_star (Datatypes.S (length universe)) m x S).
Qed.
End Ranks.
