(** Proofs about type arguments, substitution and identifiers. *)
From Coq Require Import Permutation.
From Verif Require Import Base Ast Conversion Generics SpecSignatures SignaturesProofs SpecGenerics
  SpecCatalog Catalog CatalogProofs.
Set Implicit Arguments.

(** ** Type arguments *)
Lemma listed_items_unpack s : listed_items s (unpack_ast_node s).
Proof. destruct s; constructor; discriminate. Qed.
Lemma listed_items_functional s l l' : listed_items s l -> listed_items s l' -> l = l'.
Proof.
  intros H H'. destruct s; inversion H; inversion H'; subst; try reflexivity; try congruence;
    match goal with X : forall es, Tuple ?l <> Tuple es |- _ => now destruct (X l) end.
Qed.
Lemma listed_items_iff s l : listed_items s l <-> unpack_ast_node s = l.
Proof.
  split; [intros H; eapply listed_items_functional; [apply listed_items_unpack|exact H]|].
  intros <-. apply listed_items_unpack.
Qed.

(** The innermost arguments as a function (used in proofs only) *)
Fixpoint leaves (e : expr) : list expr :=
  match e with
  | Subscript _ s => match s with Tuple es => flat_map leaves es | _ => leaves s end
  | _ => [e]
  end.
Lemma leaves_subscript v s : leaves (Subscript v s) = flat_map leaves (unpack_ast_node s).
Proof. destruct s; cbn; rewrite ?app_nil_r; reflexivity. Qed.
Lemma leaves_leaf e : (forall v s, e <> Subscript v s) -> leaves e = [e].
Proof. destruct e; try reflexivity. intros H. now destruct (H e1 e2). Qed.
Definition weights (es : list expr) : nat := list_sum (map weight es).
Lemma weight_subscript v s : weight (Subscript v s) = S (weights (unpack_ast_node s)).
Proof. unfold weights. destruct s; cbn; rewrite ?Nat.add_0_r; reflexivity. Qed.
Lemma weights_app es es' : weights (es ++ es') = weights es + weights es'.
Proof. unfold weights. now rewrite map_app, list_sum_app. Qed.
Lemma weights_cons e es : weights (e :: es) = weight e + weights es.
Proof. reflexivity. Qed.
Lemma weights_rev es : weights (rev es) = weights es.
Proof. induction es as [|e es IH]; [reflexivity|]. cbn [rev]. rewrite weights_app, IH. rewrite !weights_cons. change (weights []) with 0. lia. Qed.

Section ByWeight.
Variable P : expr -> Prop.
Hypothesis leaf : forall e, (forall v s, e <> Subscript v s) -> P e.
Hypothesis subscript : forall v s, Forall P (unpack_ast_node s) -> P (Subscript v s).
Lemma by_weight e : P e.
Proof.
  remember (weight e) as n eqn:En. assert (Hn : weight e <= n) by lia. clear En. revert e Hn.
  induction n as [|n IH]; intros e Hn.
  - apply leaf. intros v s ->. rewrite weight_subscript in Hn. lia.
  - assert (D : (exists v s, e = Subscript v s) \/ forall v s, e <> Subscript v s)
      by (destruct e; try (right; discriminate); left; eauto).
    destruct D as [(v & s & ->)|D]; [|now apply leaf]. apply subscript. rewrite weight_subscript in Hn.
    apply Forall_forall. intros x Hx. apply IH. assert (weight x <= weights (unpack_ast_node s)); [|lia].
    clear -Hx. induction (unpack_ast_node s) as [|y l IH]; [easy|]. rewrite weights_cons.
    destruct Hx as [->|Hx]; [lia|]. specialize (IH Hx). lia.
Qed.
End ByWeight.

Lemma leaves_innermost e : innermost e (leaves e).
Proof.
  induction e as [e He|v s IH] using by_weight.
  - rewrite leaves_leaf by easy. now constructor.
  - rewrite leaves_subscript, flat_map_concat_map. econstructor; [apply listed_items_unpack|].
    induction IH; constructor; auto.
Qed.
Lemma innermost_leaves e l : innermost e l -> l = leaves e.
Proof.
  revert l. induction e as [e He|v s IH] using by_weight; intros l H; inversion H as [e' He'|v' s' items found Hi HF]; subst.
  - now rewrite leaves_leaf.
  - now destruct (He v' s').
  - now destruct (He' v s).
  - apply listed_items_iff in Hi. subst. rewrite leaves_subscript, flat_map_concat_map. f_equal.
    clear H. revert found HF. induction IH as [|x items Hx _ IHI]; intros found HF; inversion HF; subst; [reflexivity|].
    cbn. f_equal; auto.
Qed.

(** What the code computes *)
Definition nested_slices (es : list expr) : list expr :=
  flat_map (fun e => match e with Subscript _ s => [s] | _ => [] end) es.
Definition plain_items (es : list expr) : list expr :=
  filter (fun e => negb (is_generic_specialization e)) es.
Fixpoint collected (e : expr) : list expr :=
  match e with
  | Subscript _ s =>
      match s with
      | Tuple es => fold_right (fun e out => out ++ collected e) [] es ++ plain_items es
      | Subscript _ _ => collected s
      | _ => [s]
      end
  | _ => []
  end.

Lemma sort_candidates_spec es : forall queue args,
  sort_candidates es queue args = (queue ++ nested_slices es, args ++ plain_items es).
Proof.
  induction es as [|e es IH]; intros queue args; cbn; [now rewrite !app_nil_r|].
  destruct e; rewrite IH; cbn; rewrite <- ?app_assoc; reflexivity.
Qed.
Lemma nested_slices_rev es : nested_slices (rev es) = rev (nested_slices es).
Proof.
  induction es as [|e es IH]; [reflexivity|]. cbn [rev]. unfold nested_slices in *.
  rewrite flat_map_app, IH. cbn. destruct e; cbn; rewrite ?app_nil_r; reflexivity.
Qed.
Lemma filter_rev {A} (f : A -> bool) l : filter f (rev l) = rev (filter f l).
Proof.
  induction l as [|x l IH]; [reflexivity|]. cbn [rev]. rewrite filter_app, IH. cbn.
  destruct (f x); cbn; [reflexivity|now rewrite app_nil_r].
Qed.
Lemma plain_items_rev es : plain_items (rev es) = rev (plain_items es).
Proof. apply filter_rev. Qed.
Lemma pop_last_app {A} (xs : list A) x : pop_last (xs ++ [x]) = Some (xs, x).
Proof. induction xs as [|y xs IH]; cbn; [reflexivity|]. now rewrite IH. Qed.
Lemma pop_last_nil {A} (xs : list A) : pop_last xs = None -> xs = [].
Proof. destruct xs as [|x xs]; cbn; [reflexivity|]. destruct (pop_last xs) as [[? ?]|]; discriminate. Qed.

(** [slice_out n s]: what processing the slice [s] contributes, in final order *)
Definition slice_out (s : expr) : list expr := collected (Subscript (Constant CNone) s).
Lemma collected_subscript v s : collected (Subscript v s) = slice_out s.
Proof. reflexivity. Qed.
Lemma slice_out_eq s :
  slice_out s = concat (map slice_out (rev (nested_slices (unpack_ast_node s)))) ++ plain_items (unpack_ast_node s).
Proof.
  unfold slice_out at 1. destruct s as [| |v0 s0|es| | | | | | |]; try reflexivity.
  - cbn [collected]. cbn [unpack_ast_node nested_slices flat_map plain_items filter is_generic_specialization negb app rev map concat].
    now rewrite !app_nil_r.
  - cbn [collected unpack_ast_node].
    f_equal. induction es as [|e es IH]; [reflexivity|]. cbn [fold_right]. rewrite IH.
    destruct e; cbn [nested_slices flat_map app]; try (cbn [collected]; now rewrite app_nil_r).
    cbn [rev]. rewrite map_app, concat_app. cbn [map concat]. now rewrite app_nil_r.
Qed.

Definition slice_weight (s : expr) : nat := S (weights (unpack_ast_node s)).
Definition queue_weight (q : list expr) : nat := list_sum (map slice_weight q).
Lemma nested_weight es : queue_weight (nested_slices es) = weights es.
Proof.
  induction es as [|e es IH]; [reflexivity|]. destruct e; cbn [nested_slices flat_map app]; unfold weights in *; cbn [map list_sum fold_right];
    try (unfold nested_slices in IH; cbn [weight]; exact IH).
  unfold queue_weight in *. cbn [map]. cbn [list_sum fold_right]. unfold nested_slices in IH. unfold list_sum in *. rewrite IH.
  unfold slice_weight. rewrite weight_subscript. reflexivity.
Qed.
Lemma queue_weight_app q q' : queue_weight (q ++ q') = queue_weight q + queue_weight q'.
Proof. unfold queue_weight. now rewrite map_app, list_sum_app. Qed.
Lemma queue_weight_cons s q : queue_weight (s :: q) = slice_weight s + queue_weight q.
Proof. reflexivity. Qed.
Lemma queue_weight_rev q : queue_weight (rev q) = queue_weight q.
Proof. induction q as [|s q IH]; [reflexivity|]. cbn [rev]. rewrite queue_weight_app, IH, !queue_weight_cons. change (queue_weight []) with 0. lia. Qed.

Lemma collect_loop_spec fuel : forall queue args, queue_weight queue <= fuel ->
  collect_loop fuel queue args = Some (args ++ rev (concat (map slice_out queue))).
Proof.
  induction fuel as [|fuel IH]; intros queue args Hf.
  - destruct queue as [|s queue]; [cbn; now rewrite app_nil_r|]. rewrite queue_weight_cons in Hf. unfold slice_weight in Hf. lia.
  - destruct (pop_last queue) as [[front last]|] eqn:Ep.
    + assert (queue = front ++ [last]).
      { clear -Ep. revert front last Ep. induction queue as [|x q IH]; cbn; intros front last E; [discriminate|].
        destruct (pop_last q) as [[f l]|] eqn:Eq; injection E as <- <-.
        - cbn. f_equal. now apply IH.
        - apply pop_last_nil in Eq. now subst. }
      subst queue. cbn [collect_loop]. rewrite pop_last_app, sort_candidates_spec.
      rewrite queue_weight_app, queue_weight_cons in Hf. unfold slice_weight in Hf at 1.
      rewrite IH.
      * f_equal. rewrite <- app_assoc. f_equal. rewrite !map_app, !concat_app. cbn [map concat]. rewrite app_nil_r.
        rewrite (slice_out_eq last). rewrite !rev_app_distr, nested_slices_rev, plain_items_rev, <- app_assoc.
        reflexivity.
      * rewrite queue_weight_app, nested_weight, weights_rev. lia.
    + apply pop_last_nil in Ep. subst. cbn. now rewrite app_nil_r.
Qed.
Lemma collect_spec fuel v s : weight (Subscript v s) <= fuel ->
  collect_type_args fuel (Subscript v s) = Some (slice_out s).
Proof.
  intros Hf. rewrite weight_subscript in Hf. cbn [collect_type_args]. rewrite collect_loop_spec.
  - cbn. now rewrite app_nil_r, rev_involutive.
  - rewrite queue_weight_cons. change (queue_weight []) with 0. unfold slice_weight. lia.
Qed.

(** ... is a rearrangement of the innermost arguments *)
Lemma leaves_items es : Forall (fun e => forall v s, e = Subscript v s -> Permutation (slice_out s) (leaves e)) es ->
  Permutation (concat (map slice_out (rev (nested_slices es))) ++ plain_items es) (flat_map leaves es).
Proof.
  induction 1 as [|e es He Hes IH]; [constructor|].
  assert (D : (exists v s, e = Subscript v s) \/ forall v s, e <> Subscript v s)
    by (destruct e; try (right; discriminate); left; eauto).
  destruct D as [(v & s & ->)|D].
  - specialize (He v s eq_refl). cbn [nested_slices flat_map app rev plain_items filter is_generic_specialization negb].
    fold (nested_slices es). fold (plain_items es).
    change (flat_map leaves (Subscript v s :: es)) with (leaves (Subscript v s) ++ flat_map leaves es).
    rewrite map_app, concat_app. cbn [map concat]. rewrite app_nil_r, <- IH, <- He.
    etransitivity; [apply Permutation_app_tail, Permutation_app_comm|]. now rewrite <- app_assoc.
  - rewrite (flat_map_concat_map leaves (e :: es)). cbn [map concat]. rewrite leaves_leaf by easy. rewrite <- (flat_map_concat_map leaves es).
    assert (E1 : nested_slices (e :: es) = nested_slices es) by (destruct e; try reflexivity; now destruct (D e1 e2)).
    assert (E2 : plain_items (e :: es) = e :: plain_items es) by (destruct e; try reflexivity; now destruct (D e1 e2)).
    rewrite E1, E2. cbn [app]. symmetry. apply Permutation_cons_app. now symmetry.
Qed.
Lemma slice_out_permutation e : forall v s, e = Subscript v s -> Permutation (slice_out s) (leaves e).
Proof.
  induction e as [e He|v s IH] using by_weight; intros v' s' E; [now destruct (He v' s')|].
  injection E as <- <-. rewrite slice_out_eq, leaves_subscript. now apply leaves_items.
Qed.
Lemma collect_permutation fuel v s l : weight (Subscript v s) <= fuel -> innermost (Subscript v s) l ->
  exists found, collect_type_args fuel (Subscript v s) = Some found /\ Permutation found l.
Proof.
  intros Hf Hl. apply innermost_leaves in Hl. subst. exists (slice_out s).
  split; [now apply collect_spec | now eapply slice_out_permutation].
Qed.

Lemma plain_items_all es : Forall (fun e => forall v s, e <> Subscript v s) es ->
  plain_items es = es /\ nested_slices es = [] /\ flat_map leaves es = es.
Proof.
  induction 1 as [|e es He Hes (IH1 & IH2 & IH3)]; [easy|].
  cbn. rewrite leaves_leaf by easy. fold (plain_items es) (nested_slices es). rewrite IH3.
  destruct e; cbn; rewrite ?IH1, ?IH2; try easy. now destruct (He e1 e2).
Qed.
Lemma head_nested_ordered e : head_nested e -> forall v s, e = Subscript v s -> slice_out s = leaves e.
Proof.
  induction 1 as [e He|v s first rest Hi Hf IH HR|v]; intros v' s' E.
  - now destruct (He v' s').
  - injection E as <- <-. apply listed_items_iff in Hi. rewrite slice_out_eq, leaves_subscript, Hi.
    destruct (plain_items_all HR) as (E1 & E2 & E3).
    assert (D : (exists v s, first = Subscript v s) \/ forall v s, first <> Subscript v s)
      by (destruct first; try (right; discriminate); left; eauto).
    destruct D as [(v0 & s0 & ->)|D].
    + cbn [nested_slices flat_map app plain_items filter is_generic_specialization negb].
      fold (nested_slices rest) (plain_items rest). rewrite E1, E2, E3. cbn [rev app map concat].
      rewrite app_nil_r. f_equal. now eapply IH.
    + assert (HA : Forall (fun e => forall v s, e <> Subscript v s) (first :: rest)) by now constructor.
      destruct (plain_items_all HA) as (F1 & F2 & F3). now rewrite F1, F2, F3.
  - now injection E as <- <-.
Qed.
Lemma collect_ordered fuel v s l : weight (Subscript v s) <= fuel -> head_nested (Subscript v s) ->
  innermost (Subscript v s) l -> collect_type_args fuel (Subscript v s) = Some l.
Proof.
  intros Hf Hh Hl. apply innermost_leaves in Hl. subst. rewrite collect_spec by easy. f_equal.
  now eapply head_nested_ordered.
Qed.

(** ** Substitution *)
Lemma dotted_functional e p p' : dotted e p -> dotted e p' -> p = p'.
Proof. intros H H'. apply to_path_dotted in H, H'. congruence. Qed.

Lemma map_m_Forall2 {A B} (f : A -> res B) (R : A -> B -> Prop) xs ys :
  Forall (fun x => forall y, f x = Ok y -> R x y) xs -> map_m f xs = Ok ys -> Forall2 R xs ys.
Proof.
  intros HF H. apply map_m_ok in H. induction H as [|x y xs ys Hx Hxs IH]; [constructor|].
  inversion HF; subst. constructor; auto.
Qed.
Lemma map_m_total {A B} (f : A -> res B) xs :
  Forall (fun x => exists y, f x = Ok y) xs -> exists ys, map_m f xs = Ok ys.
Proof.
  induction 1 as [|x xs [y Hy] _ [ys Hys]]; [now exists []|]. exists (y :: ys). cbn. now rewrite Hy, Hys.
Qed.

Lemma specialize_instance table e : forall e', specialize table e = Ok e' -> instance table e e'.
Proof.
  induction e as [id|v a IHv|v s IHv IHs|es IH|es IH|items IH|f es ks IHf IHes IHks|l o r IHl IHr|o e IHe|c|es IH]
    using expr_ind'; intros e' H.
  - cbn in H. injection H as <-. destruct (dget [id] table) as [c|] eqn:E.
    + eapply i_parameter; [constructor|exact E].
    + eapply i_dotted; [constructor|exact E].
  - change (specialize table (Attribute v a)) with (let* p := to_path (Attribute v a) in
      Ok (match dget p table with Some candidate => candidate | None => Attribute v a end)) in H.
    destruct (to_path (Attribute v a)) as [p|] eqn:Ep; [|discriminate]. cbn [bind_res] in H. injection H as <-.
    apply to_path_dotted in Ep. destruct (dget p table) eqn:E; [eapply i_parameter | eapply i_dotted]; eassumption.
  - cbn in H. destruct (specialize table v) as [v'|] eqn:Ev; [|discriminate]. cbn in H.
    destruct (specialize table s) as [s'|] eqn:Es; [|discriminate]. injection H as <-. constructor; auto.
  - cbn in H. destruct (map_m (specialize table) es) as [es'|] eqn:E; [|discriminate]. injection H as <-.
    constructor. eapply map_m_Forall2; eassumption.
  - cbn in H. destruct (map_m (specialize table) es) as [es'|] eqn:E; [|discriminate]. injection H as <-.
    constructor. eapply map_m_Forall2; eassumption.
  - cbn [specialize] in H. match type of H with context [map_m ?g items] => destruct (map_m g items) as [items'|] eqn:Ek; [|discriminate] end.
    injection H as <-. constructor. eapply map_m_Forall2; [|exact Ek].
    eapply Forall_impl; [|exact IH]. intros [k x] [Hk Hx] [k' y] Hy. cbn [fst snd] in *. destruct k as [k|].
    + destruct (specialize table k) as [k1|] eqn:E1; [|discriminate]. cbn [bind_res] in Hy.
      destruct (specialize table x) as [x'|]; [|discriminate]. injection Hy as <- <-. split; [right; exists k, k1|]; auto.
    + cbn [bind_res] in Hy. destruct (specialize table x) as [x'|]; [|discriminate]. injection Hy as <- <-. split; auto.
  - cbn in H. destruct (specialize table f) as [f'|] eqn:Ef; [|discriminate]. cbn in H.
    destruct (map_m (specialize table) es) as [es'|] eqn:E; [|discriminate]. cbn in H.
    match type of H with context [map_m ?g ks] => destruct (map_m g ks) as [ks'|] eqn:Ek; [|discriminate] end.
    injection H as <-. constructor; [auto| |]; eapply map_m_Forall2; try eassumption.
    eapply Forall_impl; [|exact IHks]. intros [k x] Hx [k' y] Hy. cbn in *.
    destruct (specialize table x) as [x'|]; [|discriminate]. injection Hy as <- <-. split; auto.
  - cbn in H. destruct (specialize table l) as [l'|] eqn:El; [|discriminate]. cbn in H.
    destruct (specialize table r) as [r'|] eqn:Er; [|discriminate]. injection H as <-. constructor; auto.
  - cbn in H. destruct (specialize table e) as [e1|] eqn:E; [|discriminate]. injection H as <-. constructor; auto.
  - injection H as <-. constructor.
  - cbn in H. destruct (map_m (specialize table) es) as [es'|] eqn:E; [|discriminate]. injection H as <-.
    constructor. eapply map_m_Forall2; eassumption.
Qed.

Lemma instance_functional table e : forall e1 e2, instance table e e1 -> instance table e e2 -> e1 = e2.
Proof.
  assert (L : forall es, Forall (fun e => forall e1 e2, instance table e e1 -> instance table e e2 -> e1 = e2) es ->
                forall l1 l2, Forall2 (instance table) es l1 -> Forall2 (instance table) es l2 -> l1 = l2).
  { induction 1 as [|x es Hx _ IH]; intros l1 l2 H1 H2; inversion H1; inversion H2; subst; [reflexivity|]. f_equal; eauto. }
  assert (N : forall e p, dotted e p -> match e with Name _ | Attribute _ _ => True | _ => False end)
    by (intros e0 p []; exact I).
  induction e as [id|v a IHv|v s IHv IHs|es IH|es IH|items IH|f es ks IHf IHes IHks|l o r IHl IHr|o e IHe|c|es IH]
    using expr_ind'; intros e1 e2 H1 H2;
  inversion H1; subst; inversion H2; subst;
  repeat match goal with
         | H : dotted ?e ?p, H' : dotted ?e ?q |- _ =>
             pose proof (dotted_functional H H'); subst; clear H'
         end; try congruence;
  try (match goal with H : forall p, ~ dotted ?e p, H' : dotted ?e _ |- _ => now destruct (H _ H') end);
  try (match goal with H : dotted _ _ |- _ => now apply N in H end);
  f_equal; eauto.
  (* items *)
  1: { match goal with A : Forall2 _ items ?l, B : Forall2 _ items ?l' |- _ => revert A B; generalize l l' end.
  clear -IH. induction IH as [|[k x] items [Hk Hx] _ IH]; intros l l' A B; inversion A as [|? [k1 x1] ? ? [E1 F1]]; inversion B as [|? [k2 x2] ? ? [E2 F2]]; subst; [reflexivity|].
  cbn [fst snd] in *. f_equal; [|eauto]. f_equal; [|eauto].
  destruct E1 as [[-> ->]|(a & b & -> & -> & I1)], E2 as [[X ->]|(a' & b' & X & -> & I2)]; try discriminate; [reflexivity|].
  injection X as <-. f_equal. eauto. }
  (* keywords *)
  match goal with A : Forall2 _ ks ?l, B : Forall2 _ ks ?l' |- _ => revert A B; generalize l l' end.
  clear -IHks. induction IHks as [|[k x] ks Hx _ IH]; intros l l' A B; inversion A as [|? [k1 x1] ? ? [E1 F1]]; inversion B as [|? [k2 x2] ? ? [E2 F2]]; subst; [reflexivity|].
  cbn in *. subst. f_equal; [f_equal; eauto | eauto].
Qed.

Lemma specialize_total table e : only_dotted e -> exists e', specialize table e = Ok e'.
Proof.
  induction e as [id|v a IHv|v s IHv IHs|es IH|es IH|items IH|f es ks IHf IHes IHks|l o r IHl IHr|o e IHe|c|es IH]
    using expr_ind'; intros H.
  - cbn. eauto.
  - inversion H as [e p Hp| | | | | | | | |]; subst. apply to_path_dotted in Hp.
    change (specialize table (Attribute v a)) with (let* p := to_path (Attribute v a) in
      Ok (match dget p table with Some candidate => candidate | None => Attribute v a end)). rewrite Hp. cbn [bind_res]. eauto.
  - inversion H as [e p Hp|v' s' Hv Hs| | | | | | | |]; subst; [inversion Hp|].
    destruct (IHv Hv) as [v' Ev]. destruct (IHs Hs) as [s' Es]. cbn. rewrite Ev. cbn. rewrite Es. cbn. eauto.
  - inversion H as [e p Hp| |es' HF| | | | | | |]; subst; [inversion Hp|].
    destruct (@map_m_total _ _ (specialize table) es) as [ys Hys]; [|cbn; rewrite Hys; cbn; eauto].
    apply Forall_forall. intros x Hx. rewrite Forall_forall in *. auto.
  - inversion H as [e p Hp| | |es' HF| | | | | |]; subst; [inversion Hp|].
    destruct (@map_m_total _ _ (specialize table) es) as [ys Hys]; [|cbn; rewrite Hys; cbn; eauto].
    apply Forall_forall. intros x Hx. rewrite Forall_forall in *. auto.
  - inversion H as [e p Hp| | | |items' HF| | | | |]; subst; [inversion Hp|]. cbn [specialize].
    match goal with |- context [map_m ?g items] => destruct (@map_m_total _ _ g items) as [ys Hys] end; [|rewrite Hys; cbn; eauto].
    apply Forall_forall. intros [k x] Hx. rewrite Forall_forall in *. destruct (IH _ Hx) as [Ik Ix]. destruct (HF _ Hx) as [Fk Fx]. cbn [fst snd] in *.
    destruct (Ix Fx) as [x' Ex]. destruct k as [k|].
    + destruct (Ik k eq_refl (Fk k eq_refl)) as [k' Ek]. rewrite Ek. cbn. rewrite Ex. cbn. eauto.
    + cbn. rewrite Ex. cbn. eauto.
  - inversion H as [e p Hp| | | | |f' es' ks' Hf HF Hk| | | |]; subst; [inversion Hp|].
    destruct (IHf Hf) as [f' Ef]. cbn. rewrite Ef. cbn.
    destruct (@map_m_total _ _ (specialize table) es) as [ys Hys].
    { apply Forall_forall. intros x Hx. rewrite Forall_forall in *. auto. }
    rewrite Hys. cbn.
    match goal with |- context [map_m ?g ks] => destruct (@map_m_total _ _ g ks) as [ks' Hks] end; [|rewrite Hks; cbn; eauto].
    apply Forall_forall. intros [k x] Hx. rewrite Forall_forall in *. cbn.
    destruct (IHks _ Hx (Hk _ Hx)) as [x' Ex]. cbn in Ex. rewrite Ex. cbn. eauto.
  - inversion H as [e p Hp| | | | | |l' o' r' Hl Hr| | |]; subst; [inversion Hp|].
    destruct (IHl Hl) as [l' El]. destruct (IHr Hr) as [r' Er]. cbn. rewrite El. cbn. rewrite Er. cbn. eauto.
  - inversion H as [e0 p Hp| | | | | | |o' e0 He| |]; subst; [inversion Hp|]. destruct (IHe He) as [e' Ee]. cbn. rewrite Ee. cbn. eauto.
  - cbn. eauto.
  - inversion H as [e p Hp| | | | | | | | |es' HF]; subst; [inversion Hp|].
    destruct (@map_m_total _ _ (specialize table) es) as [ys Hys]; [|cbn; rewrite Hys; cbn; eauto].
    apply Forall_forall. intros x Hx. rewrite Forall_forall in *. auto.
Qed.

Lemma specialize_opt_instance table e e' : specialize_opt table e = Ok e' -> opt_instance table e e'.
Proof.
  destruct e as [e|]; cbn; [|intros H; injection H as <-; constructor].
  destruct (specialize table e) as [x|] eqn:E; cbn; [|discriminate]. intros H. injection H as <-.
  constructor. now apply specialize_instance.
Qed.
Lemma specialize_arg_instance table a a' : specialize_arg table a = Ok a' -> arg_instance table a a'.
Proof.
  unfold specialize_arg. destruct (specialize_opt table (arg_annotation a)) as [x|] eqn:E; cbn; [|discriminate].
  intros H. injection H as <-. split; [reflexivity|]. cbn. now apply specialize_opt_instance.
Qed.
Lemma specialize_opt_arg_instance table a a' : specialize_opt_arg table a = Ok a' -> opt_arg_instance table a a'.
Proof.
  destruct a as [a|]; cbn; [|intros H; injection H as <-; constructor].
  destruct (specialize_arg table a) as [x|] eqn:E; cbn; [|discriminate]. intros H. injection H as <-.
  constructor. now apply specialize_arg_instance.
Qed.
Lemma map_m_Forall2' {A B} (f : A -> res B) (R : A -> B -> Prop) xs ys :
  (forall x y, f x = Ok y -> R x y) -> map_m f xs = Ok ys -> Forall2 R xs ys.
Proof. intros H. apply map_m_Forall2. apply Forall_forall. auto. Qed.
Ltac step_res H :=
  match type of H with
  | bind_res ?x _ = Ok _ => let E := fresh "E" in destruct x eqn:E; cbn [bind_res] in H; [|discriminate H]
  end.
Lemma specialize_function_instance table f f' : specialize_function table f = Ok f' -> function_instance table f f'.
Proof.
  unfold specialize_function. intros H. step_res H. step_res H. step_res H. injection H as <-.
  unfold specialize_arguments in E. do 7 step_res E. injection E as <-.
  unfold function_instance. cbn. repeat split;
    first [ eapply map_m_Forall2'; [|eassumption];
            first [exact (@specialize_arg_instance table) | exact (@specialize_opt_instance table)
                  | exact (@specialize_instance table)]
          | now apply specialize_opt_arg_instance
          | now apply specialize_opt_instance ].
Qed.

(** ** Identifiers *)
Definition underscore : N := 95.
Section Identifiers.
Variable printable : N -> bool.

Lemma map_m_names names : map_m (to_identifier printable) (map Name names) = Ok names.
Proof. induction names as [|n names IH]; [reflexivity|]. cbn. rewrite IH. reflexivity. Qed.
Lemma plain_identifier e v names : plain_specialisation e v names ->
  to_identifier printable e = Ok (join [underscore] (v :: $"getitem" :: names)).
Proof.
  intros [v' a|v' a b rest].
  - cbn. reflexivity.
  - assert (E : to_identifier printable (Tuple (map Name (a :: b :: rest))) = Ok (join $"_" (a :: b :: rest))).
    { change (to_identifier printable (Tuple (map Name (a :: b :: rest))))
        with (let* parts := map_m (to_identifier printable) (map Name (a :: b :: rest)) in Ok (join $"_" parts)).
      now rewrite map_m_names. }
    change (to_identifier printable (Subscript (Name v') (Tuple (map Name (a :: b :: rest)))))
      with (let* s := to_identifier printable (Tuple (map Name (a :: b :: rest))) in Ok (v' ++ $"_getitem_" ++ s)).
    rewrite E. cbn [bind_res]. f_equal.
Qed.
Lemma plain_nonempty e v names : plain_specialisation e v names -> names <> [].
Proof. now intros []. Qed.
Lemma plain_determines e e' v names : plain_specialisation e v names -> plain_specialisation e' v names -> e = e'.
Proof. intros H H'. destruct H; inversion H'; subst; reflexivity. Qed.
Lemma identifiers_distinct e e' v v' names names' i :
  plain_specialisation e v names -> plain_specialisation e' v' names' ->
  Forall (fun n => ~ In underscore n) (v :: names) ->
  Forall (fun n => ~ In underscore n) (v' :: names') ->
  to_identifier printable e = Ok i -> to_identifier printable e' = Ok i -> e = e'.
Proof.
  intros H H' HF HF' Hi Hi'. erewrite plain_identifier in Hi by eassumption. erewrite plain_identifier in Hi' by eassumption.
  assert (E : v :: $"getitem" :: names = v' :: $"getitem" :: names').
  { assert (S : forall w ns, Forall (fun n => ~ In underscore n) (w :: ns) ->
                  split_on underscore (join [underscore] (w :: $"getitem" :: ns)) = w :: $"getitem" :: ns).
    { intros w ns HH. apply split_join. split; [discriminate|]. inversion HH; subst.
      constructor; [easy|]. constructor; [|easy]. cbn. unfold underscore. intuition discriminate. }
    etransitivity; [symmetry; exact (S v names HF)|]. etransitivity; [|exact (S v' names' HF')].
    apply f_equal. assert (X : forall a b : pystr, Ok a = Ok i -> Ok b = Ok i -> a = b) by congruence. now apply X. }
  injection E as -> ->. eapply plain_determines; eassumption.
Qed.
End Identifiers.
