(** Proofs about signatures of expressions ([from_expression_node]). *)
From Verif Require Import Base PyText PyExpr PyExprProofs Models ModelsProofs SpecCall Ast Conversion Scoping Signatures SpecSignatures SignaturesProofs SpecExpressions.
Set Implicit Arguments.

Lemma obind_Return {A B} (x : outcome A) (f : A -> outcome B) b : obind x f = Return b -> exists a, x = Return a /\ f a = Return b.
Proof. destruct x; cbn; intros E; try discriminate E. now exists a. Qed.
Lemma of_res_Return {A} (x : res A) a : of_res x = Return a -> x = Ok a.
Proof. destruct x; cbn; intros E; [now injection E as ->|discriminate E]. Qed.
Lemma lookup_Return {K A} `{Eqb K} (k : K) (d : dict K A) a : lookup k d = Return a -> dget k d = Some a.
Proof. unfold lookup. destruct (dget k d); intros E; [now injection E as ->|discriminate E]. Qed.

Scheme means_mind := Induction for means Sort Prop
with states_mind := Induction for states Sort Prop
with all_mean_mind := Induction for all_mean Sort Prop
with all_state_mind := Induction for all_state Sort Prop.
Combined Scheme meaning_ind from means_mind, states_mind, all_mean_mind, all_state_mind.

Lemma repr_int_inj a b : repr_int a = repr_int b -> a = b.
Proof.
  intros E. assert (R : forall z, reads (repr_int z) (EInt z)) by (intros z; apply (@shows_reads (fun _ => true)), sh_int).
  pose proof (R a) as Ra. rewrite E in Ra. pose proof (reads_unique Ra (R b)) as U. now injection U.
Qed.

Section Expressions.
Context {V : Type}.
Variables (is_NONE is_Ellipsis : V -> bool) (Any Self TypeSelf : V) (evaluate : expr -> path -> path -> res V).
Variables (stubs : stubs_tables) (limit : nat) (callable_is_type : bool) (value : V).
Notation function_signature := (fun fd m parent s =>
  from_function_def is_NONE is_Ellipsis Any Self TypeSelf evaluate stubs limit fd callable_is_type m parent = Return s).
Notation means := (means is_NONE Any evaluate stubs limit value function_signature).
Notation states := (states is_NONE Any evaluate stubs limit value function_signature).
Notation all_mean := (all_mean is_NONE Any evaluate stubs limit value function_signature).
Notation all_state := (all_state is_NONE Any evaluate stubs limit value function_signature).
Notation from_expression_node := (from_expression_node is_NONE is_Ellipsis Any Self TypeSelf evaluate stubs limit callable_is_type value).
Notation from_statement_node := (from_statement_node is_NONE is_Ellipsis Any Self TypeSelf evaluate stubs limit callable_is_type value).

Lemma number_S {A} (l : list A) : forall i, number (S i) l = map (fun x => (S (fst x), snd x)) (number i l).
Proof. induction l as [|a l IH]; intros i; cbn [number map]; [reflexivity|]. now rewrite IH. Qed.
Lemma number_fst {A} (l : list A) : forall i x, In x (map fst (number i l)) -> i <= x.
Proof. induction l as [|a l IH]; intros i x; cbn [number map]; [easy|]. intros [<-|H]; [apply le_n|]. apply IH in H. cbn in H. lia. Qed.

Lemma callable_parameters_spec m p : forall annotations i ps,
  callable_parameters evaluate i annotations m p = Ok ps <->
  exists values, Forall2 (fun a v => evaluate a m p = Ok v) annotations values
    /\ ps = map (fun x => unnamed (fst x) (snd x)) (number i values).
Proof.
  induction annotations as [|a annotations IH]; intros i ps; cbn [callable_parameters].
  - split; [intros E; injection E as <-; now exists []|]. intros (vs & F & ->). now inversion F.
  - split.
    + destruct (evaluate a m p) as [v|e] eqn:Ev; [|discriminate]. cbn [bind_res]. unfold new_required. cbn [bind_res].
      destruct (callable_parameters evaluate (S i) annotations m p) as [rest|e] eqn:Er; [|discriminate]. cbn [bind_res].
      intros E. injection E as <-. apply IH in Er. destruct Er as (vs & F & ->). exists (v :: vs). split; [now constructor|reflexivity].
    + intros (vs & F & ->). inversion F as [|x v r vs' Ev F']; subst. rewrite Ev. cbn [bind_res]. unfold new_required. cbn [bind_res].
      rewrite (proj2 (IH (S i) _)) by (exists vs'; split; [exact F'|reflexivity]). reflexivity.
Qed.
Lemma unnamed_views (values : list V) : views (unnamed_parameters values)
  = map (fun x => mk_view POSITIONAL_ONLY true ($"_" ++ repr_int (Z.of_nat (fst x)))) (number 0 values).
Proof. unfold views, unnamed_parameters. now rewrite map_map. Qed.
Lemma unnamed_legal (values : list V) : legal_parameters (views (unnamed_parameters (V := V) values)).
Proof.
  assert (K : forall p, In p (views (unnamed_parameters (V := V) values)) -> v_kind p = POSITIONAL_ONLY /\ v_required p = true).
  { intros p Hp. rewrite unnamed_views in Hp. apply in_map_iff in Hp. now destruct Hp as (x & <- & _). }
  assert (O : forall R : pview -> pview -> Prop,
    (forall p q, v_kind p = POSITIONAL_ONLY -> v_required p = true -> v_kind q = POSITIONAL_ONLY -> v_required q = true -> R p q) ->
    ordered R (views (unnamed_parameters (V := V) values))).
  { intros R H l1 p l2 q l3 E. destruct (K p) as [K1 K2]; [rewrite E; apply in_or_app; right; now left|].
    destruct (K q) as [K3 K4]; [rewrite E; apply in_or_app; right; right; apply in_or_app; right; now left|]. now apply H. }
  split; [|repeat split; apply O; intros p q K1 K2 K3 K4].
  - rewrite unnamed_views, map_map. cbn [v_name]. generalize 0. clear. induction values as [|v values IH]; intros i; cbn [number map]; constructor.
    + intros H. apply in_map_iff in H. destruct H as (x & E & Hx). cbn [fst app] in E. injection E as E. apply repr_int_inj in E.
      assert (S i <= fst x) by (apply (number_fst values); now apply in_map). cbn in E. lia.
    + apply IH.
  - now rewrite K1, K3.
  - intros _ _ _. exact K2.
  - intros X. congruence.
  - intros X. congruence.
Qed.
Lemma any_legal : legal_parameters (views [OptionalParameter Any None VARIADIC_POSITIONAL $"args"; OptionalParameter Any None VARIADIC_KEYWORD $"kwargs"]).
Proof.
  destruct (@new_plain_spec V [OptionalParameter Any None VARIADIC_POSITIONAL $"args"; OptionalParameter Any None VARIADIC_KEYWORD $"kwargs"] Any) as [[H _]|[_ H]];
    [now apply good_list_legal in H | vm_compute in H; discriminate H].
Qed.

Lemma callable_subscript_spec item m p s : from_callable_subscript is_NONE Any evaluate item m p = Ok s <->
  (exists annotations returns values r, item = Tuple [List annotations; returns]
     /\ Forall2 (fun a v => evaluate a m p = Ok v) annotations values /\ evaluate returns m p = Ok r
     /\ s = Plain (mk_plain (unnamed_parameters values) r))
  \/ (exists dots returns r, item = Tuple [dots; returns] /\ (forall annotations, dots <> List annotations) /\ evaluate returns m p = Ok r
     /\ s = Plain (mk_plain [OptionalParameter Any None VARIADIC_POSITIONAL $"args"; OptionalParameter Any None VARIADIC_KEYWORD $"kwargs"] r)).
Proof.
  split.
  - unfold from_callable_subscript. destruct item as [| | |[|dots [|returns [|? ?]]]| | | | | | |]; try discriminate.
    destruct (evaluate returns m p) as [r|e] eqn:Er.
    2:{ destruct dots; try discriminate. now destruct (callable_parameters _ _ _ _ _). }
    assert (D : (exists annotations, dots = List annotations) \/ forall annotations, dots <> List annotations)
      by (destruct dots; try (right; intros; discriminate); left; now eexists).
    destruct D as [[annotations ->]|D].
    + destruct (callable_parameters evaluate 0 annotations m p) as [ps|e] eqn:Ep; [|discriminate]. cbn [bind_res].
      apply callable_parameters_spec in Ep. destruct Ep as (values & F & ->). fold (unnamed_parameters values).
      rewrite (proj1 (new_plain_exact is_NONE _ r) (unnamed_legal values)). intros E. injection E as <-.
      left. now exists annotations, returns, values, r.
    + intros E. right. exists dots, returns, r. split; [reflexivity|]. split; [exact D|]. split; [exact Er|].
      assert (E' : map_res Plain (new_plain [OptionalParameter Any None VARIADIC_POSITIONAL $"args"; OptionalParameter Any None VARIADIC_KEYWORD $"kwargs"] r) = Ok s)
        by (destruct dots; try exact E; exfalso; eapply D; reflexivity).
      rewrite (proj1 (new_plain_exact is_NONE _ r) any_legal) in E'. now injection E' as <-.
  - intros [(annotations & returns & values & r & -> & F & Er & ->)|(dots & returns & r & -> & D & Er & ->)].
    + cbn [from_callable_subscript]. rewrite (proj2 (callable_parameters_spec m p annotations 0 (unnamed_parameters values)))
        by (exists values; now split). cbn [bind_res]. rewrite Er. cbn [bind_res].
      now rewrite (proj1 (new_plain_exact is_NONE _ r) (unnamed_legal values)).
    + pose proof (proj1 (new_plain_exact is_NONE _ r) any_legal) as N.
      assert (E : from_callable_subscript is_NONE Any evaluate (Tuple [dots; returns]) m p
        = (let* r := evaluate returns m p in map_res Plain (new_plain [OptionalParameter Any None VARIADIC_POSITIONAL $"args"; OptionalParameter Any None VARIADIC_KEYWORD $"kwargs"] r)))
        by (destruct dots; try reflexivity; exfalso; eapply D; reflexivity).
      rewrite E, Er. cbn [bind_res]. now rewrite N.
Qed.

Lemma find_bound keywords :
  (forall k b, find (fun k : option pystr * expr => fst k == Some $"bound") keywords = Some (k, b) <-> k = Some $"bound" /\ bound_of keywords b)
  /\ (find (fun k : option pystr * expr => fst k == Some $"bound") keywords = None <-> no_bound keywords).
Proof.
  unfold no_bound. induction keywords as [|[k0 e] r [IH1 IH2]]; cbn [find map fst In].
  - split; [|tauto]. intros k b. split; [discriminate|]. intros [_ H]. inversion H.
  - destruct (eqb_reflect k0 (Some $"bound")) as [->|N].
    + split.
      * intros k b. split; [intros E; injection E as <- <-; split; [reflexivity|constructor]|].
        intros [-> H]. inversion H as [|k e' r' b' N]; subst; [reflexivity|now destruct N].
      * split; [discriminate|]. intros H. now destruct H; left.
    + split.
      * intros k b. rewrite IH1. split; intros [-> H]; (split; [reflexivity|]); [now constructor|]. inversion H; subst; [now destruct N|assumption].
      * rewrite IH2. intuition congruence.
Qed.
Lemma load_nodes_Return m o nodes : load_ast_nodes stubs m o = Return nodes <-> nodes_at stubs (m, o) nodes.
Proof.
  unfold load_ast_nodes, nodes_at. cbn [fst snd]. split.
  - destruct (dget m (raw_ast_nodes stubs)) as [t|]; [|discriminate]. destruct (dget o t) as [[|n r]|] eqn:E; try discriminate.
    intros X. injection X as <-. exists t. now split.
  - intros (t & -> & -> & N). now destruct nodes.
Qed.
Lemma resolved_denotes m p e o q : to_path e = Ok o -> of_resolution (resolve stubs limit m p o) = Return q -> denotes stubs limit m p e q.
Proof.
  intros E R. exists o. split; [now apply to_path_dotted|]. unfold resolve in R. destruct (resolve_object_path _ _ _ _ _ _); try discriminate R.
  now injection R as ->.
Qed.
Lemma call_bind_no_keywords s args : call_bind is_NONE s args [] = bind is_NONE s args [].
Proof. reflexivity. Qed.

Lemma sound fuel :
  (forall e m p s, from_expression_node fuel e m p = Return s -> means m p e s)
  /\ (forall node m p s, from_statement_node fuel node m p = Return s -> states m p node s).
Proof.
  induction fuel as [|fuel [IHe IHs]]; [split; intros; discriminate|].
  assert (AM : forall m p es ss, omap (fun a => from_expression_node fuel a m p) es = Return ss -> all_mean m p es ss).
  { intros m p. induction es as [|e es IH]; cbn [omap]; intros ss E; [injection E as <-; constructor|].
    apply obind_Return in E. destruct E as (s & Es & E). apply obind_Return in E. destruct E as (ss' & Ess & E). injection E as <-.
    constructor; auto. }
  assert (AS : forall m p ns ss, omap (fun a => from_statement_node fuel a m p) ns = Return ss -> all_state m p ns ss).
  { intros m p. induction ns as [|e es IH]; cbn [omap]; intros ss E; [injection E as <-; constructor|].
    apply obind_Return in E. destruct E as (s & Es & E). apply obind_Return in E. destruct E as (ss' & Ess & E). injection E as <-.
    constructor; auto. }
  assert (B : forall ss bs, omap (fun s => of_res (call_bind is_NONE s [value] [])) ss = Return bs ->
    Forall2 (fun s rest => bind is_NONE s [value] [] = Ok rest) ss bs).
  { induction ss as [|s ss IH]; cbn [omap]; intros bs E; [injection E as <-; constructor|].
    apply obind_Return in E. destruct E as (b & Eb & E). apply obind_Return in E. destruct E as (bs' & Ebs & E). injection E as <-.
    constructor; [now apply of_res_Return in Eb|auto]. }
  split.
  - intros e m p s E.
    assert (N : (match e with Name _ | Attribute _ _ => True | _ => False end) -> means m p e s).
    { intros T.
      assert (E' : (do object_path <- of_res (to_path e);
        do '(m, o) <- of_resolution (resolve stubs limit m p object_path);
        do kinds <- lookup m (nodes_kinds stubs);
        do k <- lookup o kinds;
        if is_CLASS k then
          do nodes <- load_ast_nodes stubs m (o ++ [call_name]);
          do signatures <- omap (fun node => from_statement_node fuel node m []) nodes;
          do bound <- omap (fun s => of_res (call_bind is_NONE s [value] [])) signatures;
          of_res (from_signatures bound)
        else
          do nodes <- lookup m (raw_ast_nodes stubs);
          do nodes <- lookup o nodes;
          match nodes with
          | [node] => from_statement_node fuel node m []
          | _ => SignatureNotFound
          end) = Return s) by (destruct e; try easy; exact E).
      clear E. apply obind_Return in E'. destruct E' as (o & Eo & E). apply of_res_Return in Eo.
      apply obind_Return in E. destruct E as ([m' o'] & Er & E). pose proof (resolved_denotes _ _ _ Eo Er) as D.
      apply obind_Return in E. destruct E as (kinds & Ek & E). apply lookup_Return in Ek.
      apply obind_Return in E. destruct E as (k & Ek' & E). apply lookup_Return in Ek'.
      assert (K : kind_at stubs (m', o') k) by (exists kinds; now split).
      destruct (is_CLASS k) eqn:C.
      - apply obind_Return in E. destruct E as (nodes & En & E). apply load_nodes_Return in En.
        apply obind_Return in E. destruct E as (ss & Ess & E). apply obind_Return in E. destruct E as (bs & Eb & E).
        apply of_res_Return in E. destruct k; try discriminate C.
        eapply me_instance; [exact D|exact K|exact En|apply AS, Ess|apply B, Eb|exact E].
      - apply obind_Return in E. destruct E as (t & Et & E). apply lookup_Return in Et.
        apply obind_Return in E. destruct E as (nodes & En & E). apply lookup_Return in En.
        destruct nodes as [|node [|? ?]]; try discriminate E.
        eapply me_alias; [exact D|exact K| | |apply IHs, E]; [intros ->; discriminate C|]. exists t. now split. }
    destruct e as [x|v a|v slice| | | |f args keywords| | | |]; try discriminate E; [now apply N|now apply N| |]; clear N; cbn [Signatures.from_expression_node] in E.
    + apply obind_Return in E. destruct E as (o & Eo & E). apply of_res_Return in Eo.
      apply obind_Return in E. destruct E as (q & Er & E). pose proof (resolved_denotes _ _ _ Eo Er) as D.
      destruct (eqb_reflect q (typing_path, [$"Callable"])) as [->|]; [|discriminate E].
      apply of_res_Return, callable_subscript_spec in E.
      destruct E as [(annotations & returns & values & r & -> & F & Er' & ->)|(dots & returns & r & -> & Hd & Er' & ->)];
        [now apply me_callable|now apply me_any_callable].
    + apply obind_Return in E. destruct E as (o & Eo & E). apply of_res_Return in Eo.
      apply obind_Return in E. destruct E as (q & Er & E). pose proof (resolved_denotes _ _ _ Eo Er) as D.
      destruct (eqb_reflect q (typing_path, [$"TypeVar"])) as [->|]; [|discriminate E].
      destruct (find _ keywords) as [[k b]|] eqn:Ef.
      * apply find_bound in Ef. destruct Ef as [_ Hb]. eapply me_bound; [exact D|exact Hb|]. now apply IHe.
      * apply find_bound in Ef. apply obind_Return in E. destruct E as (ss & Ess & E). apply of_res_Return in E.
        eapply me_constraints; [exact D|exact Ef|apply AM, Ess|exact E].
  - intros [a [v|]|v|fd|] m p s E; cbn [Signatures.from_statement_node] in E; try discriminate E; constructor; auto.
Qed.

Lemma omap_mono {A B} (f g : A -> outcome B) l r : (forall a b, f a = Return b -> g a = Return b) -> omap f l = Return r -> omap g l = Return r.
Proof.
  intros H. revert r. induction l as [|a l IH]; cbn [omap]; intros r E; [exact E|].
  apply obind_Return in E. destruct E as (b & Eb & E). apply obind_Return in E. destruct E as (bs & Ebs & E).
  rewrite (H _ _ Eb). cbn [obind]. rewrite (IH _ Ebs). exact E.
Qed.
Lemma mono fuel :
  (forall e m p s, from_expression_node fuel e m p = Return s -> from_expression_node (S fuel) e m p = Return s)
  /\ (forall node m p s, from_statement_node fuel node m p = Return s -> from_statement_node (S fuel) node m p = Return s).
Proof.
  induction fuel as [|fuel [IHe IHs]]; [split; intros; discriminate|]. split.
  - intros e m p s E. remember (S fuel) as n eqn:En.
    assert (N : forall o,
      (do '(m, o) <- of_resolution (resolve stubs limit m p o);
        do kinds <- lookup m (nodes_kinds stubs);
        do k <- lookup o kinds;
        if is_CLASS k then
          do nodes <- load_ast_nodes stubs m (o ++ [call_name]);
          do signatures <- omap (fun node => from_statement_node fuel node m []) nodes;
          do bound <- omap (fun s => of_res (call_bind is_NONE s [value] [])) signatures;
          of_res (from_signatures bound)
        else
          do nodes <- lookup m (raw_ast_nodes stubs);
          do nodes <- lookup o nodes;
          match nodes with
          | [node] => from_statement_node fuel node m []
          | _ => SignatureNotFound
          end) = Return s ->
      (do '(m, o) <- of_resolution (resolve stubs limit m p o);
        do kinds <- lookup m (nodes_kinds stubs);
        do k <- lookup o kinds;
        if is_CLASS k then
          do nodes <- load_ast_nodes stubs m (o ++ [call_name]);
          do signatures <- omap (fun node => from_statement_node n node m []) nodes;
          do bound <- omap (fun s => of_res (call_bind is_NONE s [value] [])) signatures;
          of_res (from_signatures bound)
        else
          do nodes <- lookup m (raw_ast_nodes stubs);
          do nodes <- lookup o nodes;
          match nodes with
          | [node] => from_statement_node n node m []
          | _ => SignatureNotFound
          end) = Return s).
    { intros o H. destruct (of_resolution _) as [[m' o']| |]; try discriminate H. cbn [obind] in *.
      destruct (lookup m' (nodes_kinds stubs)) as [kinds| |]; try discriminate H. cbn [obind] in *.
      destruct (lookup o' kinds) as [k| |]; try discriminate H. cbn [obind] in *. destruct (is_CLASS k).
      - destruct (load_ast_nodes _ _ _) as [nodes| |]; try discriminate H. cbn [obind] in *.
        apply obind_Return in H. destruct H as (ss & Ess & H). erewrite omap_mono; [exact H| |exact Ess]. intros a b. apply IHs.
      - destruct (lookup m' (raw_ast_nodes stubs)) as [t| |]; try discriminate H. cbn [obind] in *.
        destruct (lookup o' t) as [[|node [|? ?]]| |]; try discriminate H. now apply IHs. }
    destruct e as [x|v a|v slice| | | |f args keywords| | | |]; subst n; try discriminate E.
    + now apply N.
    + cbn [Signatures.from_expression_node] in E. apply obind_Return in E. destruct E as (o & Eo & E).
      remember (S fuel) as n. cbn [Signatures.from_expression_node]. rewrite Eo. cbn [obind]. now apply N.
    + exact E.
    + cbn [Signatures.from_expression_node] in E. apply obind_Return in E. destruct E as (o & Eo & E).
      remember (S fuel) as n. cbn [Signatures.from_expression_node]. rewrite Eo. cbn [obind]. clear N.
      apply obind_Return in E. destruct E as (q & Eq & E). rewrite Eq. cbn [obind]. destruct (q == _); [|exact E].
      destruct (find _ keywords) as [[k b]|]; [now apply IHe|]. apply obind_Return in E. destruct E as (ss & Ess & E).
      erewrite omap_mono; [exact E| |exact Ess]. intros a b. apply IHe.
  - intros [a [v|]|v|fd|] m p s E; remember (S fuel) as n; rewrite Heqn in E; cbn [Signatures.from_statement_node] in *; auto.
Qed.
Lemma mono_le fuel fuel' : fuel <= fuel' ->
  (forall e m p s, from_expression_node fuel e m p = Return s -> from_expression_node fuel' e m p = Return s)
  /\ (forall node m p s, from_statement_node fuel node m p = Return s -> from_statement_node fuel' node m p = Return s).
Proof. induction 1 as [|n L [IH1 IH2]]; [auto|]. destruct (mono n). auto. Qed.

Lemma complete :
  (forall m p e s, means m p e s -> exists fuel, from_expression_node fuel e m p = Return s)
  /\ (forall m p node s, states m p node s -> exists fuel, from_statement_node fuel node m p = Return s)
  /\ (forall m p es ss, all_mean m p es ss -> exists fuel, omap (fun e => from_expression_node fuel e m p) es = Return ss)
  /\ (forall m p ns ss, all_state m p ns ss -> exists fuel, omap (fun n => from_statement_node fuel n m p) ns = Return ss).
Proof.
  assert (D : forall m p e q, denotes stubs limit m p e q -> exists o, to_path e = Ok o /\ of_resolution (resolve stubs limit m p o) = Return q).
  { intros m p e q (o & Ho & R). exists o. split; [now apply to_path_dotted|]. unfold resolve. now rewrite R. }
  assert (N : forall e m p q, denotes stubs limit m p e q -> match e with Name _ | Attribute _ _ => True | _ => False end).
  { intros e m p q (o & Ho & _). now destruct Ho. }
  apply meaning_ind.
  - intros m p e q k node s Hd (t & Et & Ek) Hk (t' & Et' & En & _) _ [fuel IH]. exists (S fuel).
    pose proof (N _ _ _ _ Hd) as Ne. destruct (D _ _ _ _ Hd) as (o & Eo & Er).
    assert (G : (do object_path <- of_res (to_path e); do '(m, o) <- of_resolution (resolve stubs limit m p object_path);
        do kinds <- lookup m (nodes_kinds stubs);
        do k <- lookup o kinds;
        if is_CLASS k then
          do nodes <- load_ast_nodes stubs m (o ++ [call_name]);
          do signatures <- omap (fun node => from_statement_node fuel node m []) nodes;
          do bound <- omap (fun s => of_res (call_bind is_NONE s [value] [])) signatures;
          of_res (from_signatures bound)
        else
          do nodes <- lookup m (raw_ast_nodes stubs);
          do nodes <- lookup o nodes;
          match nodes with
          | [node] => from_statement_node fuel node m []
          | _ => SignatureNotFound
          end) = Return s).
    { rewrite Eo. cbn [of_res obind]. rewrite Er. destruct q as [m' o']. cbn [obind fst snd] in *. unfold lookup. rewrite Et. cbn [obind].
      rewrite Ek. cbn [obind]. destruct k; try (now destruct Hk); cbn [is_CLASS]; rewrite Et'; cbn [obind]; rewrite En; exact IH. }
    destruct e; try easy; exact G.
  - intros m p e q nodes ss rests s Hd (t & Et & Ek) Hn _ [fuel IH] F Es. exists (S fuel).
    pose proof (N _ _ _ _ Hd) as Ne. destruct (D _ _ _ _ Hd) as (o & Eo & Er).
    assert (B : omap (fun s => of_res (call_bind is_NONE s [value] [])) ss = Return rests).
    { clear -F. induction F as [|x y l l' E F IH]; cbn [omap]; [reflexivity|]. rewrite call_bind_no_keywords, E. cbn [of_res obind]. now rewrite IH. }
    assert (G : (do object_path <- of_res (to_path e); do '(m, o) <- of_resolution (resolve stubs limit m p object_path);
        do kinds <- lookup m (nodes_kinds stubs);
        do k <- lookup o kinds;
        if is_CLASS k then
          do nodes <- load_ast_nodes stubs m (o ++ [call_name]);
          do signatures <- omap (fun node => from_statement_node fuel node m []) nodes;
          do bound <- omap (fun s => of_res (call_bind is_NONE s [value] [])) signatures;
          of_res (from_signatures bound)
        else
          do nodes <- lookup m (raw_ast_nodes stubs);
          do nodes <- lookup o nodes;
          match nodes with
          | [node] => from_statement_node fuel node m []
          | _ => SignatureNotFound
          end) = Return s).
    { rewrite Eo. cbn [of_res obind]. rewrite Er. destruct q as [m' o']. cbn [obind fst snd] in *. unfold lookup. rewrite Et. cbn [obind].
      rewrite Ek. cbn [obind is_CLASS]. apply load_nodes_Return in Hn. unfold call_name. rewrite Hn. cbn [obind].
      rewrite IH. cbn [obind]. rewrite B. cbn [obind]. now rewrite Es. }
    destruct e; try easy; exact G.
  - intros m p f arguments keywords bound s Hd Hb _ [fuel IH]. exists (S fuel). destruct (D _ _ _ _ Hd) as (o & Eo & Er).
    cbn [Signatures.from_expression_node]. rewrite Eo. cbn [of_res obind]. rewrite Er. cbn [obind].
    unfold typing_path. rewrite eqb_refl. rewrite (proj2 (proj1 (find_bound keywords) (Some $"bound") bound)) by (now split). exact IH.
  - intros m p f arguments keywords ss s Hd Hb _ [fuel IH] Es. exists (S fuel). destruct (D _ _ _ _ Hd) as (o & Eo & Er).
    cbn [Signatures.from_expression_node]. rewrite Eo. cbn [of_res obind]. rewrite Er. cbn [obind].
    unfold typing_path. rewrite eqb_refl. rewrite (proj2 (proj2 (find_bound keywords)) Hb), IH. cbn [obind]. now rewrite Es.
  - intros m p e annotations returns values r Hd F Er'. exists 1. destruct (D _ _ _ _ Hd) as (o & Eo & Er).
    cbn [Signatures.from_expression_node]. rewrite Eo. cbn [of_res obind]. rewrite Er. cbn [obind]. unfold typing_path. rewrite eqb_refl.
    rewrite (proj2 (callable_subscript_spec _ m p _)) by (left; now exists annotations, returns, values, r). reflexivity.
  - intros m p e dots returns r Hd F Er'. exists 1. destruct (D _ _ _ _ Hd) as (o & Eo & Er).
    cbn [Signatures.from_expression_node]. rewrite Eo. cbn [of_res obind]. rewrite Er. cbn [obind]. unfold typing_path. rewrite eqb_refl.
    rewrite (proj2 (callable_subscript_spec _ m p _)) by (right; now exists dots, returns, r). reflexivity.
  - intros m p a s _ [fuel IH]. now exists (S fuel).
  - intros m p a v s _ [fuel IH]. now exists (S fuel).
  - intros m p v s _ [fuel IH]. now exists (S fuel).
  - intros m p fd s E. now exists 1.
  - intros m p. now exists 0.
  - intros m p e es s ss _ [f1 H1] _ [f2 H2]. exists (max f1 f2). cbn [omap].
    rewrite (proj1 (mono_le (Nat.le_max_l f1 f2)) _ _ _ _ H1). cbn [obind].
    erewrite omap_mono; [reflexivity| |exact H2]. intros a b. apply (proj1 (mono_le (Nat.le_max_r f1 f2))).
  - intros m p. now exists 0.
  - intros m p e es s ss _ [f1 H1] _ [f2 H2]. exists (max f1 f2). cbn [omap].
    rewrite (proj2 (mono_le (Nat.le_max_l f1 f2)) _ _ _ _ H1). cbn [obind].
    erewrite omap_mono; [reflexivity| |exact H2]. intros a b. apply (proj2 (mono_le (Nat.le_max_r f1 f2))).
Qed.
End Expressions.
