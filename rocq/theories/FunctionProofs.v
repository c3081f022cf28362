(** Proofs about signatures of whole stub functions and of callables
    (signatures.py:34-133, 297-359). *)
From Verif Require Import Base Models SpecCall ModelsProofs CallProofs CallTheorems BindLaws ModelsMore OverloadLaws
  Ast Conversion Scoping SpecScoping Signatures SpecSignatures SignaturesProofs.
Set Implicit Arguments.

Section Functions.
Context {V : Type}.
Variables (is_NONE is_Ellipsis : V -> bool) (Any Self TypeSelf : V).
Variables (evaluate : expr -> path -> path -> res V) (value_of : expr -> V).
Variables (stubs : stubs_tables) (limit : nat).
Notation build := (from_function_def is_NONE is_Ellipsis Any Self TypeSelf evaluate stubs limit).
Notation follow := (fun w p => follows is_Ellipsis Any value_of (stored_kind (w_kind w)) w p).
Notation all := (all_parameters is_NONE is_Ellipsis Any evaluate).

Notation well_formed := (well_formed is_NONE evaluate value_of).
Notation return_value := (return_value Any value_of).

Lemma well_formed_parameters fd m parent : well_formed fd m parent ->
  exists ps, all (fd_args fd) m parent = Ok ps /\ Forall2 follow (written (fd_args fd)) ps.
Proof. intros (H1 & H2 & H3 & _). eapply all_parameters_ok; eauto. Qed.
Lemma returns_value fd m parent b : well_formed fd m parent -> b = false \/ fd_name fd <> $"__init__" ->
  returns_annotation_from Any Self evaluate fd b m parent = Ok (return_value fd).
Proof.
  intros (_ & _ & _ & Hr) Hb. unfold returns_annotation_from, SpecSignatures.return_value.
  replace (b && (fd_name fd == $"__init__")) with false.
  - destruct (fd_returns fd); auto.
  - destruct Hb as [->|Hn]; [reflexivity|]. symmetry. apply andb_false_iff. right. now apply eqb_neq.
Qed.

Lemma build_function fd m parent : well_formed fd m parent ->
  Forall (other_decorator stubs limit m parent) (fd_decorators fd) ->
  has_kinds stubs m -> ~ is_class stubs m parent ->
  exists ps, Forall2 follow (written (fd_args fd)) ps
    /\ build fd false m parent = Return (Plain (mk_plain ps (return_value fd))).
Proof.
  intros Hw Hd Hk Hc. destruct (well_formed_parameters Hw) as (ps & Hp & Hf). exists ps. split; [exact Hf|].
  unfold from_function_def. erewrite params_function by eassumption. cbn [obind].
  rewrite returns_value by auto. cbn [of_res obind].
  rewrite (@stored_signature V is_NONE is_Ellipsis Any value_of (fd_args fd)); [reflexivity | apply Hw | exact Hf].
Qed.

(** With an implicit first parameter *)
Lemma implicit_first fd m parent : well_formed fd m parent -> written (fd_args fd) <> [] ->
  exists w ws p ps, written (fd_args fd) = w :: ws /\ all (fd_args fd) m parent = Ok (p :: ps)
    /\ follow w p /\ Forall2 follow ws ps /\ legal_parameters (views (p :: ps)).
Proof.
  intros Hw Hne. destruct (well_formed_parameters Hw) as (ps & Hp & Hf).
  destruct (written (fd_args fd)) as [|w ws] eqn:Ew; [now destruct Hne|]. inversion Hf as [|? p ? ps' H1 H2]; subst.
  exists w, ws, p, ps'. repeat split; auto; try apply H1.
  - rewrite (follow_views Hf), <- Ew. apply stored_views_legal. apply Hw.
  - rewrite (follow_views Hf), <- Ew. apply stored_views_legal. apply Hw.
  - rewrite (follow_views Hf), <- Ew. apply stored_views_legal. apply Hw.
  - rewrite (follow_views Hf), <- Ew. apply stored_views_legal. apply Hw.
  - rewrite (follow_views Hf), <- Ew. apply stored_views_legal. apply Hw.
Qed.

Lemma build_method fd m parent : well_formed fd m parent -> written (fd_args fd) <> [] ->
  Forall (other_decorator stubs limit m parent) (fd_decorators fd) -> is_class stubs m parent ->
  exists w ws ps, written (fd_args fd) = w :: ws /\ Forall2 follow ws ps
    /\ build fd false m parent
       = Return (Plain (mk_plain (RequiredParameter Self POSITIONAL_ONLY (arg_name (w_arg w)) :: ps) (return_value fd))).
Proof.
  intros Hw Hne Hd Hc. destruct (implicit_first Hw Hne) as (w & ws & p & ps & Ew & Hp & Hf & Hfs & Hl).
  exists w, ws, ps. split; [exact Ew|]. split; [exact Hfs|].
  unfold from_function_def. erewrite params_method by eassumption. cbn [obind].
  rewrite returns_value by auto. cbn [of_res obind].
  destruct (@replaced_signature V is_NONE (p :: ps) p ps (return_value fd) Self eq_refl Hl) as [_ E].
  rewrite E. cbn. rewrite <- (fo_name _ _ _ _ _ _ Hf). reflexivity.
Qed.
Lemma build_classmethod fd m parent before d after : well_formed fd m parent -> written (fd_args fd) <> [] ->
  fd_decorators fd = before ++ d :: after ->
  Forall (other_decorator stubs limit m parent) before -> denotes stubs limit m parent d the_classmethod ->
  exists w ws ps, written (fd_args fd) = w :: ws /\ Forall2 follow ws ps
    /\ build fd false m parent
       = Return (Plain (mk_plain (RequiredParameter TypeSelf POSITIONAL_ONLY (arg_name (w_arg w)) :: ps) (return_value fd))).
Proof.
  intros Hw Hne Ed Hb Hd. destruct (implicit_first Hw Hne) as (w & ws & p & ps & Ew & Hp & Hf & Hfs & Hl).
  exists w, ws, ps. split; [exact Ew|]. split; [exact Hfs|].
  unfold from_function_def. erewrite params_classmethod by eassumption. cbn [obind].
  rewrite returns_value by auto. cbn [of_res obind].
  destruct (@replaced_signature V is_NONE (p :: ps) p ps (return_value fd) TypeSelf eq_refl Hl) as [_ E].
  rewrite E. cbn. rewrite <- (fo_name _ _ _ _ _ _ Hf). reflexivity.
Qed.
Lemma build_class fd m parent : well_formed fd m parent -> written (fd_args fd) <> [] ->
  exists w ws ps, written (fd_args fd) = w :: ws /\ Forall2 follow ws ps
    /\ build fd true m parent
       = Return (Plain (mk_plain ps (if fd_name fd == $"__init__" then Self else return_value fd))).
Proof.
  intros Hw Hne. destruct (implicit_first Hw Hne) as (w & ws & p & ps & Ew & Hp & Hf & Hfs & Hl).
  exists w, ws, ps. split; [exact Ew|]. split; [exact Hfs|].
  unfold from_function_def. erewrite params_type by eassumption. cbn [obind].
  assert (Er : returns_annotation_from Any Self evaluate fd true m parent
               = Ok (if fd_name fd == $"__init__" then Self else return_value fd)).
  { destruct (fd_name fd == $"__init__") eqn:E.
    - unfold returns_annotation_from. rewrite E. reflexivity.
    - apply returns_value; [exact Hw|]. right. intros E'. rewrite E', eqb_refl in E. discriminate. }
  rewrite Er. cbn [of_res obind].
  destruct (@replaced_signature V is_NONE (p :: ps) p ps (if fd_name fd == $"__init__" then Self else return_value fd) Self eq_refl Hl) as [E _].
  now rewrite E.
Qed.

(** Parameters before '/' never reach the result. *)
Lemma from_node_name a d m parent k p :
  parameter_from_ast_node is_NONE is_Ellipsis Any evaluate a d m parent k = Ok p -> p_name p = arg_name a.
Proof.
  unfold parameter_from_ast_node. destruct (match arg_annotation a with None => _ | Some e => _ end); cbn; [|discriminate].
  assert (N : forall o, new_optional is_NONE a0 o (IsKind k) (arg_name a) = Ok p -> p_name p = arg_name a).
  { intros o. unfold new_optional. cbn. destruct o as [x|]; [destruct (is_NONE x)|]; destruct k; cbn; intros E; inversion E; reflexivity. }
  assert (R : new_required a0 (IsKind k) (arg_name a) = Ok p -> p_name p = arg_name a).
  { unfold new_required. destruct k; cbn; intros E; inversion E; reflexivity. }
  destruct d as [e|].
  - destruct (evaluate e m parent); cbn; [|discriminate]. apply N.
  - destruct (is_variadic k); [apply (N None) | exact R].
Qed.
Definition other_names (a : arguments) : list pystr :=
  map arg_name (args a ++ kwonlyargs a)
  ++ map arg_name (match vararg a with Some x => [x] | None => [] end ++ match kwarg a with Some x => [x] | None => [] end).
Lemma zip_longest_fst {A B} (xs : list A) (ys : list B) x y : In (Some x, y) (zip_longest xs ys) -> In x xs.
Proof.
  revert ys. induction xs as [|z xs IH]; intros ys.
  - destruct ys as [|w ys]; cbn; [easy|]. intros [E|H]; [discriminate|]. exfalso.
    induction ys as [|v ys IHy]; [easy|]. destruct H as [E|H]; [discriminate|]. auto.
  - destruct ys as [|w ys]; cbn; (intros [E|H]; [inv E; now left | right; eapply IH; exact H]).
Qed.
Lemma all_parameters_names a m parent ps : all a m parent = Ok ps ->
  forall p, In p ps -> In (p_name p) (other_names a).
Proof.
  unfold all_parameters.
  destruct (to_positional_parameters _ _ _ _ _ _ _) as [p1|] eqn:E1; cbn [bind_res]; [|discriminate].
  destruct (to_variadic_parameter _ _ _ _ (vararg a) _ _ _) as [p2|] eqn:E2; cbn [bind_res]; [|discriminate].
  destruct (to_keyword_parameters _ _ _ _ _ _ _) as [p3|] eqn:E3; cbn [bind_res]; [|discriminate].
  destruct (to_variadic_parameter _ _ _ _ (kwarg a) _ _ _) as [p4|] eqn:E4; cbn [bind_res]; [|discriminate].
  intros E. inversion E; subst. clear E. intros p. rewrite !in_app_iff. unfold other_names.
  rewrite in_app_iff, !map_app, !in_app_iff.
  intros [H|[H|[H|H]]].
  - left. left. unfold to_positional_parameters in E1. apply map_m_ok in E1.
    destruct (Forall2_In_r _ E1 H) as ([[x|] d] & Hx & Ex); [|discriminate].
    apply from_node_name in Ex. rewrite Ex. apply in_map. apply in_rev in Hx. apply zip_longest_fst in Hx. now apply in_rev.
  - right. left. unfold to_variadic_parameter in E2. destruct (vararg a) as [x|]; [|inv E2; easy].
    destruct (parameter_from_ast_node _ _ _ _ x _ _ _ _) as [q|] eqn:Eq; cbn in E2; inv E2.
    destruct H as [<-|[]]. apply from_node_name in Eq. now left.
  - left. right. unfold to_keyword_parameters in E3. apply map_m_ok in E3.
    destruct (Forall2_In_r _ E3 H) as ([x d] & Hx & Ex).
    apply from_node_name in Ex. rewrite Ex. apply in_map. now apply in_combine_l in Hx.
  - right. right. unfold to_variadic_parameter in E4. destruct (kwarg a) as [x|]; [|inv E4; easy].
    destruct (parameter_from_ast_node _ _ _ _ x _ _ _ _) as [q|] eqn:Eq; cbn in E4; inv E4.
    destruct H as [<-|[]]. apply from_node_name in Eq. now left.
Qed.
Lemma written_names a : map (fun w => arg_name (w_arg w)) (written a)
  = map arg_name (posonlyargs a) ++ map arg_name (args a)
    ++ map arg_name (match vararg a with Some x => [x] | None => [] end)
    ++ map arg_name (kwonlyargs a) ++ map arg_name (match kwarg a with Some x => [x] | None => [] end).
Proof.
  assert (N : forall k f i (xs : list arg), map (fun w => arg_name (w_arg w))
                (map (fun '(i, x) => mk_written k x (f i)) (number i xs)) = map arg_name xs).
  { intros k f i xs. revert i. induction xs as [|x xs IH]; intros i; cbn; [reflexivity | now rewrite IH]. }
  assert (O : forall k o, map (fun w => arg_name (w_arg w)) (one k o)
                = map arg_name (match o with Some x => [x] | None => [] end)) by (intros k [x|]; reflexivity).
  unfold written. rewrite !map_app, !O.
  rewrite (N POSITIONAL_ONLY), (N POSITIONAL_OR_KEYWORD), (N KEYWORD_ONLY (fun i => nth i (kw_defaults a) None)). reflexivity.
Qed.
Lemma posonly_lost a m parent ps x : legal_arguments a -> all a m parent = Ok ps ->
  In x (posonlyargs a) -> ~ exists p, In p ps /\ p_name p = arg_name x.
Proof.
  intros (_ & _ & Hn) Hp Hx (p & Hin & E). apply (@all_parameters_names _ _ _ _ Hp) in Hin. rewrite E in Hin.
  rewrite written_names in Hn. apply NoDup_app_iff in Hn as (_ & _ & Hn). apply (Hn (arg_name x)); [now apply in_map|].
  unfold other_names in Hin. rewrite !map_app, !in_app_iff in Hin. rewrite !in_app_iff. tauto.
Qed.
Lemma posonly_ignored a m parent :
  all a m parent = all (mk_arguments [] (args a) (vararg a) (kwonlyargs a) (kw_defaults a) (kwarg a) (defaults a)) m parent.
Proof. reflexivity. Qed.

(** A default that belongs to a parameter before '/' makes the construction fail. *)
Lemma posonly_default a m parent : length (args a) < length (defaults a) ->
  is_ok (all a m parent) = false.
Proof.
  intros H. unfold all_parameters.
  assert (E : is_ok (to_positional_parameters is_NONE is_Ellipsis Any evaluate a m parent) = false).
  { destruct (to_positional_parameters _ _ _ _ _ _ _) as [ps|] eqn:E; [|reflexivity]. exfalso.
    unfold to_positional_parameters in E. apply map_m_ok in E.
    assert (N : exists d, In (None, Some d) (zip_longest (rev (args a)) (rev (defaults a)))).
    { assert (Hr : length (rev (args a)) < length (rev (defaults a))) by now rewrite !rev_length.
      clear -Hr. revert Hr. generalize (rev (args a)) as xs, (rev (defaults a)) as ys.
      induction xs as [|x xs IH]; intros [|y ys] Hl; cbn in *; try lia; [eauto|].
      destruct (IH ys) as [d Hd]; [lia|]. exists d. now right. }
    destruct N as [d Hd]. apply in_rev in Hd. destruct (Forall2_In_l _ E Hd) as (p & _ & Ep). discriminate. }
  destruct (to_positional_parameters _ _ _ _ _ _ _); [discriminate E | reflexivity].
Qed.
End Functions.

(** ** Partial objects *)
Section Partial.
Context {V : Type} (is_NONE : V -> bool).
Lemma bind_all_err e calls : @bind_all V is_NONE (Err e) calls = Err e.
Proof. induction calls as [|[a k] r IH]; [reflexivity | exact IH]. Qed.
End Partial.
