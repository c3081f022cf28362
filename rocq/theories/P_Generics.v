(** Properties C44-C47 as far as they concern single expressions: type arguments,
    substitution, identifiers and dotted paths. *)
From Verif Require Import Base Ast Catalog SpecCatalog CatalogProofs Conversion Generics SpecSignatures SpecGenerics SignaturesProofs GenericsProofs.
From Coq Require Import Permutation.

(** ** C44 *)
(** Nothing lost, nothing duplicated; [weight] rounds are enough. *)
Theorem C44_no_argument_lost_or_duplicated :
  forall fuel v s l, weight (Subscript v s) <= fuel -> innermost (Subscript v s) l ->
    exists found, collect_type_args fuel (Subscript v s) = Some found /\ Permutation found l.
Proof. exact @collect_permutation. Qed.
Print Assumptions C44_no_argument_lost_or_duplicated.

(** The order is right if, at every level, only the first argument is itself a
    specialisation. *)
Theorem C44_order_partial :
  forall fuel v s l, weight (Subscript v s) <= fuel -> head_nested (Subscript v s) ->
    innermost (Subscript v s) l -> collect_type_args fuel (Subscript v s) = Some l.
Proof. exact @collect_ordered. Qed.
Print Assumptions C44_order_partial.

(** [class D(Dict[K, List[V]])]: the parameters of [D] are taken to be [V, K]. *)
Theorem C44_order_refuted :
  exists e l, innermost e l
    /\ collect_type_args (weight e) e = Some [Name $"V"; Name $"K"]
    /\ l = [Name $"K"; Name $"V"].
Proof.
  exists (Subscript (Name $"Dict") (Tuple [Name $"K"; Subscript (Name $"List") (Name $"V")])).
  eexists. split; [apply leaves_innermost|]. split; reflexivity.
Qed.
Print Assumptions C44_order_refuted.

Example C44_example :
  let e := Subscript (Name $"Dict") (Tuple [Subscript (Name $"List") (Name $"V"); Name $"K"]) in
  collect_type_args (weight e) e = Some [Name $"V"; Name $"K"]
  /\ innermost e [Name $"V"; Name $"K"] /\ head_nested e.
Proof.
  split; [reflexivity|split; [exact (leaves_innermost _)|]].
  eapply head_subscript; [constructor| |].
  - eapply head_subscript; [constructor; discriminate|constructor; discriminate|constructor].
  - repeat constructor; discriminate.
Qed.

(** ** C45, expressions and definitions *)
Theorem C45_substitution :
  forall table e e', specialize table e = Ok e' -> instance table e e'.
Proof. exact @specialize_instance. Qed.
Print Assumptions C45_substitution.

Theorem C45_substitution_in_functions :
  forall table f f', specialize_function table f = Ok f' -> function_instance table f f'.
Proof. exact @specialize_function_instance. Qed.
Print Assumptions C45_substitution_in_functions.

(** The specification determines the result. *)
Theorem C45_instance_is_unique :
  forall table e e1 e2, instance table e e1 -> instance table e e2 -> e1 = e2.
Proof. exact @instance_functional. Qed.
Print Assumptions C45_instance_is_unique.

(** It succeeds when every attribute access is part of a dotted name ... *)
Theorem C45_total_partial :
  forall table e, only_dotted e -> exists e', specialize table e = Ok e'.
Proof. exact @specialize_total. Qed.
Print Assumptions C45_total_partial.

(** ... and not on, e.g., [A[T].x], although there is an instance. *)
Theorem C45_total_refuted :
  exists table e e', instance table e e' /\ specialize table e = Err TypeError.
Proof.
  exists [([$"T"], Name $"int")], (Attribute (Subscript (Name $"A") (Name $"T")) $"x"),
    (Attribute (Subscript (Name $"A") (Name $"int")) $"x").
  split; [|reflexivity]. constructor.
  - intros p H. inv H. match goal with H : dotted (Subscript _ _) _ |- _ => inv H end.
  - constructor.
    + apply i_dotted with (p := [$"A"]); [constructor|reflexivity].
    + apply i_parameter with (p := [$"T"]); [constructor|reflexivity].
Qed.
Print Assumptions C45_total_refuted.

(** [Dict[K, List[V]]] with [K := int], [V := str] *)
Example C45_example :
  specialize [([$"K"], Name $"int"); ([$"V"], Name $"str")]
    (Subscript (Name $"Dict") (Tuple [Name $"K"; Subscript (Name $"List") (Name $"V")]))
  = Ok (Subscript (Name $"Dict") (Tuple [Name $"int"; Subscript (Name $"List") (Name $"str")])).
Proof. reflexivity. Qed.

(** ** C46 *)
(** Single names applied to single names without underscores. *)
Theorem C46_distinct_identifiers_partial :
  forall printable e e' v v' names names' i,
    plain_specialisation e v names -> plain_specialisation e' v' names' ->
    Forall (fun n => ~ In 95%N n) (v :: names) ->
    Forall (fun n => ~ In 95%N n) (v' :: names') ->
    to_identifier printable e = Ok i -> to_identifier printable e' = Ok i -> e = e'.
Proof. exact @identifiers_distinct. Qed.
Print Assumptions C46_distinct_identifiers_partial.

(** The same for operators between single names, [A | B & C] say, grouped to the left, if
    no name is that of an operator. *)
Definition word (op : operator) : pystr :=
  match op with BitAnd => $"bitand" | BitOr => $"bitor" | BitXor => $"bitxor" | OtherOperator => [] end.
Definition chain (c : pystr * list (operator * pystr)) : expr :=
  fold_left (fun e x => BinOp e (fst x) (Name (snd x))) (snd c) (Name (fst c)).
Definition simple_name (n : pystr) : Prop := ~ In 95%N n /\ forall op, n <> word op.
Definition simple_chain (c : pystr * list (operator * pystr)) : Prop :=
  simple_name (fst c) /\ Forall (fun x => fst x <> OtherOperator /\ simple_name (snd x)) (snd c).
Definition applied (v : pystr) (cs : list (pystr * list (operator * pystr))) : expr :=
  Subscript (Name v) (match cs with [c] => chain c | _ => Tuple (map chain cs) end).
Definition words (c : pystr * list (operator * pystr)) : list pystr := fst c :: flat_map (fun x => [word (fst x); snd x]) (snd c).
Lemma join_app sep l l' : l <> [] -> l' <> [] -> join sep (l ++ l') = join sep l ++ sep ++ join sep l'.
Proof.
  intros N N'. induction l as [|a l IH]; [easy|]. destruct l as [|b l].
  - cbn [app]. destruct l'; [easy|]. now rewrite join_cons.
  - cbn [app] in *. rewrite !join_cons, IH by easy. now rewrite <- !app_assoc.
Qed.
Lemma word_parts op : ~ In 95%N (word op).
Proof. destruct op; cbn; intuition discriminate. Qed.
Lemma chain_identifier printable c : simple_chain c -> to_identifier printable (chain c) = Ok (join $"_" (words c)).
Proof.
  destruct c as [n l]. intros [_ F]. unfold chain, words. cbn [fst snd] in *.
  assert (G : forall l e ws, Forall (fun x => fst x <> OtherOperator /\ simple_name (snd x)) l -> ws <> [] ->
    to_identifier printable e = Ok (join $"_" ws) ->
    to_identifier printable (fold_left (fun e x => BinOp e (fst x) (Name (snd x))) l e)
    = Ok (join $"_" (ws ++ flat_map (fun x : operator * pystr => [word (fst x); snd x]) l))).
  { clear. induction l as [|[op m] l IH]; intros e ws F Ne E; cbn [fold_left flat_map fst snd]; [now rewrite app_nil_r|].
    inversion F as [|? ? [O S] F']; subst. cbn [fst snd] in *.
    rewrite app_assoc. apply IH; [exact F'|now destruct ws|]. cbn [to_identifier]. rewrite E. cbn [bind_res].
    rewrite join_app by easy. destruct op; try easy; cbn [operator_identifier bind_res word join]; now rewrite <- ?app_assoc. }
  apply (G l (Name n) [n]); auto. easy.
Qed.
Lemma applied_identifier printable v cs : Forall simple_chain cs -> cs <> [] ->
  to_identifier printable (applied v cs) = Ok (join $"_" (v :: $"getitem" :: flat_map words cs)).
Proof.
  intros F Ne. assert (M : map_m (to_identifier printable) (map chain cs) = Ok (map (fun c => join $"_" (words c)) cs)).
  { clear Ne. induction F as [|c cs Hc F IH]; [reflexivity|]. cbn [map map_m]. rewrite chain_identifier by exact Hc. cbn [bind_res].
    rewrite IH. reflexivity. }
  assert (J : join $"_" (map (fun c => join $"_" (words c)) cs) = join $"_" (flat_map words cs)).
  { clear - Ne. induction cs as [|c cs IH]; [easy|]. cbn [map flat_map]. destruct cs as [|c' cs]; [cbn [map flat_map]; now rewrite app_nil_r|].
    rewrite join_app by (try easy; unfold words; cbn; easy). cbn [map] in *. rewrite join_cons, IH by easy. reflexivity. }
  unfold applied. destruct cs as [|c [|c' cs]]; [easy| |].
  - inversion F; subst. cbn [to_identifier flat_map]. rewrite chain_identifier by assumption. cbn [bind_res]. rewrite app_nil_r. reflexivity.
  - set (all := c :: c' :: cs) in *.
    assert (T : to_identifier printable (Tuple (map chain all)) = Ok (join $"_" (map (fun c => join $"_" (words c)) all))).
    { change (to_identifier printable (Tuple (map chain all)))
        with (let* parts := map_m (to_identifier printable) (map chain all) in Ok (join $"_" parts)). now rewrite M. }
    change (to_identifier printable (Subscript (Name v) (Tuple (map chain all))))
      with (let* s := to_identifier printable (Tuple (map chain all)) in Ok (v ++ $"_getitem_" ++ s)).
    rewrite T. cbn [bind_res]. rewrite J. reflexivity.
Qed.
Lemma words_decode cs : forall cs', Forall simple_chain cs -> Forall simple_chain cs' -> flat_map words cs = flat_map words cs' -> cs = cs'.
Proof.
  assert (W : forall op op', word op = word op' -> op = op') by (intros [] []; (reflexivity || discriminate)).
  assert (H : forall l l' rest rest' : list _,
    Forall (fun x : operator * pystr => fst x <> OtherOperator /\ simple_name (snd x)) l ->
    Forall (fun x : operator * pystr => fst x <> OtherOperator /\ simple_name (snd x)) l' ->
    (forall w r, rest = w :: r -> simple_name w) -> (forall w r, rest' = w :: r -> simple_name w) ->
    flat_map (fun x => [word (fst x); snd x]) l ++ rest = flat_map (fun x => [word (fst x); snd x]) l' ++ rest' -> l = l' /\ rest = rest').
  { induction l as [|[op n] l IH]; intros [|[op' n'] l'] rest rest' F F' R R' E; cbn [flat_map app fst snd] in E.
    - auto.
    - subst. destruct (R _ _ eq_refl) as [_ N]. now destruct (N op').
    - subst. destruct (R' _ _ eq_refl) as [_ N]. now destruct (N op).
    - injection E as E1 E2 E3. apply W in E1. subst. inversion F; inversion F'; subst.
      destruct (IH l' rest rest') as [-> ->]; auto. }
  induction cs as [|[n l] cs IH]; intros [|[n' l'] cs'] F F' E; try (cbn in E; discriminate); [reflexivity|].
  change (n :: flat_map (fun x => [word (fst x); snd x]) l ++ flat_map words cs
          = n' :: flat_map (fun x => [word (fst x); snd x]) l' ++ flat_map words cs') in E. injection E as -> E.
  inversion F as [|? ? [S1 S2] S3]; inversion F' as [|? ? [S1' S2'] S3']; subst. cbn [fst snd] in *.
  destruct (H l l' (flat_map words cs) (flat_map words cs')) as [-> E']; auto.
  - intros w r Ew. destruct cs as [|c cs]; [discriminate|]. cbn in Ew. injection Ew as <- _. inversion S3 as [|? ? [S4 _]]; subst. exact S4.
  - intros w r Ew. destruct cs' as [|c cs']; [discriminate|]. cbn in Ew. injection Ew as <- _. inversion S3' as [|? ? [S4 _]]; subst. exact S4.
  - f_equal. now apply IH.
Qed.
Theorem C46_operators_partial :
  forall printable v v' cs cs' i,
    ~ In 95%N v -> ~ In 95%N v' -> Forall simple_chain cs -> Forall simple_chain cs' -> cs <> [] -> cs' <> [] ->
    to_identifier printable (applied v cs) = Ok i -> to_identifier printable (applied v' cs') = Ok i ->
    v = v' /\ cs = cs'.
Proof.
  intros printable v v' cs cs' i Hv Hv' F F' Ne Ne' E E'. rewrite applied_identifier in E by assumption. rewrite applied_identifier in E' by assumption.
  assert (S : forall w l, ~ In 95%N w -> Forall simple_chain l ->
    split_on 95%N (join $"_" (w :: $"getitem" :: flat_map words l)) = w :: $"getitem" :: flat_map words l).
  { clear. intros w l Hw F. apply (split_join 95%N). split; [discriminate|]. constructor; [exact Hw|]. constructor; [cbn; intuition discriminate|].
    apply Forall_flat_map. revert F. apply Forall_impl. intros [n ops] [[S _] Fo]. unfold words. cbn [fst snd] in *. constructor; [exact S|].
    apply Forall_flat_map. revert Fo. apply Forall_impl. intros [op m] [_ [S' _]]. constructor; [apply word_parts|]. constructor; [exact S'|constructor]. }
  assert (X : v :: $"getitem" :: flat_map words cs = v' :: $"getitem" :: flat_map words cs').
  { etransitivity; [symmetry; exact (S v cs Hv F)|]. etransitivity; [|exact (S v' cs' Hv' F')]. f_equal.
    assert (Y : forall a b : pystr, Ok a = Ok i -> Ok b = Ok i -> a = b) by congruence. now apply Y. }
  injection X as -> X. split; [reflexivity|]. now apply words_decode.
Qed.
Print Assumptions C46_operators_partial.
Example C46_operators_example : forall printable,
  to_identifier printable (applied $"G" [($"A", [(BitOr, $"B"); (BitAnd, $"C")]); ($"D", [])]) = Ok $"G_getitem_A_bitor_B_bitand_C_D"
  /\ applied $"G" [($"A", [(BitOr, $"B")])] = Subscript (Name $"G") (BinOp (Name $"A") BitOr (Name $"B")).
Proof. split; reflexivity. Qed.

(** [G[a, b]], [G[a.b]] and [G[a_b]] are stored under the same name; so are
    [A[B[C], D]] and [A[B[C, D]]], [G[(a,)]] and [G[a]]. *)
Theorem C46_distinct_identifiers_refuted :
  forall printable,
    let g x := to_identifier printable (Subscript (Name $"G") x) in
    g (Tuple [Name $"a"; Name $"b"]) = g (Attribute (Name $"a") $"b")
    /\ g (Tuple [Name $"a"; Name $"b"]) = g (Name $"a_b")
    /\ g (Tuple [Name $"a"]) = g (Name $"a")
    /\ g (Tuple [Subscript (Name $"B") (Name $"C"); Name $"D"])
       = g (Subscript (Name $"B") (Tuple [Name $"C"; Name $"D"]))
    /\ g (Name $"a") = Ok $"G_getitem_a".
Proof. repeat split. Qed.
Print Assumptions C46_distinct_identifiers_refuted.

Example C46_example : forall printable,
  to_identifier printable (Subscript (Name $"Dict") (Tuple [Name $"K"; Name $"V"]))
  = Ok $"Dict_getitem_K_V".
Proof. reflexivity. Qed.

(** ** C47 *)
Theorem C47_optional_reader :
  forall e p, to_maybe_path e = Some p <-> dotted e p.
Proof. exact @to_maybe_path_dotted. Qed.
Print Assumptions C47_optional_reader.

Theorem C47_strict_reader :
  forall e p, to_path e = Ok p <-> dotted e p.
Proof. exact @to_path_dotted. Qed.
Print Assumptions C47_strict_reader.

Theorem C47_readers_agree :
  forall e, (forall p, to_path e = Ok p <-> to_maybe_path e = Some p)
            /\ (to_maybe_path e = None <-> to_path e = Err TypeError).
Proof.
  intros e. split; [intros p; now rewrite to_path_dotted, to_maybe_path_dotted|].
  split.
  - induction e; cbn; try discriminate; try reflexivity.
    destruct (to_maybe_path e); [discriminate|]. intros _. now rewrite IHe.
  - intros H. destruct (to_maybe_path e) as [p|] eqn:E; [|reflexivity].
    apply to_maybe_path_dotted, to_path_dotted in E. congruence.
Qed.
Print Assumptions C47_readers_agree.

Example C47_example :
  to_path (Attribute (Attribute (Name $"a") $"b") $"c") = Ok [$"a"; $"b"; $"c"]
  /\ to_maybe_path (Attribute (Attribute (Name $"a") $"b") $"c") = Some [$"a"; $"b"; $"c"]
  /\ to_path (Attribute (Subscript (Name $"a") (Name $"b")) $"c") = Err TypeError
  /\ to_maybe_path (Attribute (Subscript (Name $"a") (Name $"b")) $"c") = None.
Proof. repeat split. Qed.
