(** Proofs about parameter lists: construction, decomposition by kind. *)
From Verif Require Import Base Models SpecCall.
Set Implicit Arguments.


(** ** Ordered pairs *)
Lemma ordered_FOP {A} (R : A -> A -> Prop) xs : ordered R xs <-> ForallOrdPairs R xs.
Proof.
  unfold ordered. split.
  - induction xs as [|x xs IH]; intros H; constructor.
    + apply Forall_forall. intros y Hy. apply in_split in Hy as (l2 & l3 & ->).
      apply (H [] x l2 y l3). reflexivity.
    + apply IH. intros l1 p l2 q l3 ->. apply (H (x :: l1) p l2 q l3). reflexivity.
  - intros F. induction F as [|x xs Hx F IH]; intros l1 p l2 q l3 E.
    + destruct l1; discriminate.
    + destruct l1 as [|y l1]; cbn in E; injection E as -> ->.
      * rewrite Forall_forall in Hx. apply Hx. apply in_or_app. right. now left.
      * now apply (IH l1 p l2 q l3).
Qed.

Lemma FOP_app {A} (R : A -> A -> Prop) xs ys :
  ForallOrdPairs R (xs ++ ys) <->
  ForallOrdPairs R xs /\ ForallOrdPairs R ys /\ (forall x y, In x xs -> In y ys -> R x y).
Proof.
  induction xs as [|a xs IH]; cbn.
  - split; [intros H; split; [constructor | easy] | easy].
  - split.
    + intros H. inv H. apply IH in H3 as (H1 & H3 & H4). apply Forall_app in H2 as [H2 H5].
      repeat split; [now constructor | easy |].
      intros x y [<-|Hx] Hy; [|auto]. rewrite Forall_forall in H5. auto.
    + intros (H1 & H2 & H3). inv H1. constructor.
      * apply Forall_app. split; [easy|]. apply Forall_forall. auto.
      * apply IH. repeat split; auto.
Qed.

Lemma FOP_and {A} (R S : A -> A -> Prop) xs :
  ForallOrdPairs (fun x y => R x y /\ S x y) xs <-> ForallOrdPairs R xs /\ ForallOrdPairs S xs.
Proof.
  induction xs as [|a xs IH]; split.
  - intros _; split; constructor.
  - intros _; constructor.
  - intros H. inv H. apply IH in H3 as [H3 H4]. apply Forall_and_inv in H2 as [H2 H5].
    split; now constructor.
  - intros [H1 H2]. inv H1. inv H2. constructor; [now apply Forall_and | now apply IH].
Qed.

Lemma FOP_impl {A} (R S : A -> A -> Prop) xs :
  (forall x y, In x xs -> In y xs -> R x y -> S x y) -> ForallOrdPairs R xs -> ForallOrdPairs S xs.
Proof.
  intros HI H. induction H as [|a xs Hx H IH]; constructor.
  - rewrite Forall_forall in *. intros y Hy. apply HI; [now left | now right | auto].
  - apply IH. intros x y Hx' Hy'. apply HI; now right.
Qed.

Lemma FOP_map {A B} (f : A -> B) (R : B -> B -> Prop) xs :
  ForallOrdPairs R (map f xs) <-> ForallOrdPairs (fun x y => R (f x) (f y)) xs.
Proof.
  induction xs as [|a xs IH]; cbn; split; intros H; try constructor; inv H.
  - now rewrite Forall_map in H2.
  - now apply IH.
  - now rewrite Forall_map.
  - now apply IH.
Qed.

Lemma FOP_all {A} (R : A -> A -> Prop) xs :
  (forall x y, In x xs -> In y xs -> R x y) -> ForallOrdPairs R xs.
Proof.
  intros H. induction xs as [|x xs IH]; constructor.
  - apply Forall_forall. intros y Hy. apply H; [now left | now right].
  - apply IH. intros y z Hy Hz. apply H; now right.
Qed.

Lemma NoDup_FOP {A} (xs : list A) : NoDup xs <-> ForallOrdPairs (fun x y => x <> y) xs.
Proof.
  induction xs as [|a xs IH]; split; intros H; try constructor; inv H.
  - apply Forall_forall. intros y Hy ->. easy.
  - now apply IH.
  - intros Hin. rewrite Forall_forall in H2. now apply (H2 a).
  - now apply IH.
Qed.

Lemma Sorted_FOP {A} (R : A -> A -> Prop) xs :
  (forall x y z, R x y -> R y z -> R x z) -> Sorted R xs <-> ForallOrdPairs R xs.
Proof.
  intros HT. split.
  - intros H. apply Sorted_StronglySorted in H; [|exact HT].
    induction H; constructor; easy.
  - intros H. induction H as [|a xs Hx H IH]; constructor; [easy|].
    destruct xs as [|b xs]; constructor. now inv Hx.
Qed.

Section Lists.
Context {V : Type}.
Variable is_NONE : V -> bool.
Notation par := (parameter V).
Implicit Types (p q : par) (ps : list par).

Lemma v_kind_view p : v_kind (view p) = p_kind p.
Proof. now destruct p. Qed.
Lemma v_name_view p : v_name (view p) = p_name p.
Proof. now destruct p. Qed.
Lemma v_required_view p : v_required (view p) = is_required p.
Proof. now destruct p. Qed.
Lemma view_names ps : map v_name (views ps) = map p_name ps.
Proof. unfold views. rewrite map_map. apply map_ext, v_name_view. Qed.
Lemma positionalb_view p : positionalb (view p) = is_positionable p.
Proof. destruct p as [a [] n|a d [] n]; reflexivity. Qed.
Lemma positional_view p : positional (view p) <-> is_positionable p = true.
Proof.
  unfold positional, is_positionable. rewrite v_kind_view, orb_true_iff, !eqb_eq. tauto.
Qed.
Lemma keyword_capable_view p : keyword_capable (view p) <-> is_keywordable p = true.
Proof.
  unfold keyword_capable, is_keywordable. rewrite v_kind_view, orb_true_iff, !eqb_eq. tauto.
Qed.

(** ** What the constructors build *)
Definition good_parameter p : Prop :=
  match p with
  | RequiredParameter _ k _ => k <> VARIADIC_POSITIONAL /\ k <> VARIADIC_KEYWORD
  | OptionalParameter _ (Some v) k _ =>
      is_NONE v = false /\ k <> VARIADIC_POSITIONAL /\ k <> VARIADIC_KEYWORD
  | OptionalParameter _ None _ _ => True
  end.

Lemma built_good p : built_parameter is_NONE p <-> good_parameter p.
Proof.
  split.
  - intros [(a & [k|] & n & E)|(a & d & [k|] & n & E)]; try discriminate.
    + unfold new_required in E. destruct k; cbn in E; inv E; cbn; easy.
    + unfold new_optional in E. destruct d as [v|].
      * destruct (is_NONE v) eqn:Ev; destruct k; cbn in E; inv E; cbn; easy.
      * destruct k; cbn in E; inv E; cbn; easy.
  - destruct p as [a k n|a [v|] k n]; cbn.
    + intros [H1 H2]. left. exists a, (IsKind k), n. destruct k; easy.
    + intros (Hv & H1 & H2). right. exists a, (Some v), (IsKind k), n.
      unfold new_optional. rewrite Hv. destruct k; easy.
    + intros _. right. exists a, None, (IsKind k), n. destruct k; easy.
Qed.

(** ** The constructor's loop *)
Definition step_ok p q : Prop :=
  kind_value (p_kind p) <= kind_value (p_kind q)
  /\ (is_positionable q = true -> is_required q = true -> is_required p = true).

Lemma is_positionable_value p : is_positionable p = true <-> kind_value (p_kind p) <= 1.
Proof. destruct p as [a [] n|a d [] n]; cbn; split; (lia || easy). Qed.

Lemma step_ok_trans p q r : step_ok p q -> step_ok q r -> step_ok p r.
Proof.
  unfold step_ok. intros [H1 H2] [H3 H4]. split; [lia|].
  intros Hr Hq. apply H2; [|auto]. apply is_positionable_value.
  apply is_positionable_value in Hr. lia.
Qed.

Definition variadic (k : kind) : bool := (k == VARIADIC_POSITIONAL) || (k == VARIADIC_KEYWORD).

Definition once p q : Prop := variadic (p_kind p) = true -> p_kind p <> p_kind q.

Lemma kind_ltb_spec j k : kind_ltb j k = true <-> kind_value j < kind_value k.
Proof. apply Nat.ltb_lt. Qed.
Lemma kind_ltb_false j k : kind_ltb j k = false <-> kind_value k <= kind_value j.
Proof. apply Nat.ltb_ge. Qed.

Lemma check_parameters_error ps prior names kinds e :
  check_parameters prior names kinds ps = Err e -> e = ValueError.
Proof.
  revert prior names kinds. induction ps as [|p ps IH]; cbn; intros prior names kinds E;
    [discriminate|].
  repeat match type of E with
  | (if ?b then _ else _) = _ => destruct b
  end; try (now inv E); eauto.
Qed.

Lemma check_parameters_ok ps prior names kinds :
  check_parameters prior names kinds ps = Ok tt <->
  (NoDup (map p_name ps) /\ (forall p, In p ps -> ~ In (p_name p) names))
  /\ Sorted step_ok (prior :: ps)
  /\ (forall p, In p ps -> variadic (p_kind p) = true -> ~ In (p_kind p) kinds)
  /\ ForallOrdPairs once ps.
Proof.
  revert prior names kinds.
  induction ps as [|p ps IH]; cbn [check_parameters map In]; intros prior names kinds.
  { split; [|easy]. intros _. repeat split; try constructor; try easy; constructor. }
  assert (Hgen : forall P : Prop,
    (is_positionable p = true -> is_required p = true -> is_required prior = true) ->
    (variadic (p_kind p) = true -> ~ In (p_kind p) kinds) ->
    kind_value (p_kind prior) <= kind_value (p_kind p) ->
    ~ In (p_name p) names ->
    (check_parameters p (p_name p :: names) (p_kind p :: kinds) ps = Ok tt <-> P) ->
    (P <->
     (NoDup (p_name p :: map p_name ps)
      /\ (forall q, p = q \/ In q ps -> ~ In (p_name q) names))
     /\ Sorted step_ok (prior :: p :: ps)
     /\ (forall q, p = q \/ In q ps -> variadic (p_kind q) = true -> ~ In (p_kind q) kinds)
     /\ ForallOrdPairs once (p :: ps)) ).
  { intros P Hpos Hvar Hk Hn <-. rewrite IH. clear IH. split.
    - intros ((Hnd & Hnn) & Hs & Hv & Ho). repeat split.
      + constructor; [|easy]. rewrite in_map_iff. intros (q & E & Hq).
        apply (Hnn q Hq). left. congruence.
      + intros q [<-|Hq]; [easy|]. intros Hin. apply (Hnn q Hq). now right.
      + constructor; [easy|]. constructor. split; [easy | exact Hpos].
      + intros q [<-|Hq]; [easy|]. intros Hq' Hin. apply (Hv q Hq Hq'). now right.
      + constructor; [|easy]. apply Forall_forall. intros q Hq Hp E.
        apply (Hv q Hq); [congruence | left; congruence].
    - intros ((Hnd & Hnn) & Hs & Hv & Ho).
      inversion Hnd as [|? ? Hnin Hnd']; subst.
      inversion Hs as [|? ? Hs' Hs'']; subst.
      inversion Ho as [|? ? Hall Ho']; subst.
      rewrite Forall_forall in Hall. repeat split; try easy.
      + intros q Hq [E|Hin]; [|apply (Hnn q); [now right | exact Hin]].
        apply Hnin. rewrite E. now apply in_map.
      + intros q Hq Hq' [E|Hin]; [|apply (Hv q); [now right | exact Hq' | exact Hin]].
        apply (Hall q Hq); congruence. }
  destruct (mem (p_name p) names) eqn:En.
  { split; [discriminate|]. intros ((_ & Hnn) & _). exfalso. apply (Hnn p); [now left|].
    now apply mem_In. }
  apply mem_not_In in En.
  destruct (kind_ltb (p_kind p) (p_kind prior)) eqn:Ek.
  { split; [discriminate|]. intros (_ & Hs & _).
    inversion Hs as [|? ? _ Hd]; subst. inversion Hd as [|? ? H0]; subst. destruct H0 as [H0 _].
    apply kind_ltb_spec in Ek. lia. }
  apply kind_ltb_false in Ek.
  fold (is_positionable p).
  destruct (is_positionable p) eqn:Ep.
  - assert (Hvar : variadic (p_kind p) = false) by (destruct p as [? [] ?|? ? [] ?]; easy).
    destruct (is_required p && is_optional prior) eqn:Er.
    + split; [discriminate|]. intros (_ & Hs & _).
      inversion Hs as [|? ? _ Hd]; subst. inversion Hd as [|? ? H0]; subst. destruct H0 as [_ H0].
      apply andb_true_iff in Er as [Er Eo]. specialize (H0 Ep Er). unfold is_required in H0.
      rewrite Eo in H0. discriminate.
    + apply Hgen; try easy; try congruence.
      intros _ Hr. rewrite Hr in Er. cbn in Er. unfold is_required. now rewrite Er.
  - destruct (variadic (p_kind p)) eqn:Ev; unfold variadic in Ev; rewrite Ev.
    + destruct (mem (p_kind p) kinds) eqn:Em.
      * split; [discriminate|]. intros (_ & _ & Hv & _). exfalso.
        apply (Hv p); [now left | exact Ev | now apply mem_In].
      * apply mem_not_In in Em. apply Hgen; easy.
    + apply Hgen; try easy; try congruence. 
Qed.

Lemma check_unit (r : res unit) : (exists u, r = Ok u) <-> r = Ok tt.
Proof. split; [intros [[] ->]; easy | eauto]. Qed.

Definition good_list ps : Prop :=
  NoDup (map p_name ps) /\ ForallOrdPairs step_ok ps /\ ForallOrdPairs once ps.

Lemma new_plain_spec ps r :
  (good_list ps /\ new_plain ps r = Ok (mk_plain ps r))
  \/ (~ good_list ps /\ new_plain ps r = Err ValueError).
Proof.
  destruct ps as [|prior ps].
  { left. split; [|reflexivity]. repeat split; constructor. }
  cbn. destruct (check_parameters prior [p_name prior] [p_kind prior] ps) as [[]|e] eqn:E; cbn.
  - left. split; [|reflexivity].
    apply check_parameters_ok in E as ((Hnd & Hnn) & Hs & Hv & Ho).
    repeat split; cbn.
    + constructor; [|easy]. rewrite in_map_iff. intros (q & E & Hq).
      apply (Hnn q Hq). left. congruence.
    + now apply Sorted_FOP; [apply step_ok_trans|].
    + constructor; [|easy]. apply Forall_forall. intros q Hq Hp E.
      apply (Hv q Hq); [congruence | left; congruence].
  - right. split.
    2: { now rewrite (check_parameters_error _ _ _ _ E). }
    intros (Hnd & Hs & Ho). cbn in Hnd.
    inversion Hnd as [|? ? H1 Hnd']; subst. inversion Ho as [|? ? H3 Ho']; subst.
    enough (C : check_parameters prior [p_name prior] [p_kind prior] ps = Ok tt) by congruence.
    apply check_parameters_ok. repeat split.
    + easy.
    + intros q Hq [E'|[]]. apply H1. rewrite E'. now apply in_map.
    + now apply Sorted_FOP; [apply step_ok_trans|].
    + intros q Hq Hv [E'|[]]. rewrite Forall_forall in H3. apply (H3 q Hq); congruence.
    + easy.
Qed.

Lemma good_list_legal ps : good_list ps <-> legal_parameters (views ps).
Proof.
  unfold good_list, legal_parameters. rewrite view_names, !ordered_FOP. unfold views.
  rewrite !FOP_map. split.
  - intros (Hn & Hs & Ho). split; [easy|]. repeat split.
    + eapply FOP_impl; [|exact Hs]. intros x y _ _ [H _]. now rewrite !v_kind_view.
    + eapply FOP_impl; [|exact Hs]. intros x y _ _ [_ H].
      rewrite !positional_view, !v_required_view. auto.
    + eapply FOP_impl; [|exact Ho]. unfold once. intros x y _ _ H.
      rewrite !v_kind_view. intros E E'. apply H; rewrite E; easy.
    + eapply FOP_impl; [|exact Ho]. unfold once. intros x y _ _ H.
      rewrite !v_kind_view. intros E E'. apply H; rewrite E; easy.
  - intros (Hn & Hk & Hr & Hv1 & Hv2). split; [easy|]. split.
    + pose proof (proj2 (FOP_and _ _ ps) (conj Hk Hr)) as H.
      eapply FOP_impl; [|exact H]. cbn. intros x y _ _ [H1 H2].
      rewrite !v_kind_view in H1. change (kind_value (p_kind x) <= kind_value (p_kind y)) in H1. rewrite !positional_view, !v_required_view in H2.
      split; [exact H1|]. intros Hy Hq. apply H2; try easy.
      apply is_positionable_value in Hy. apply is_positionable_value. lia.
    + pose proof (proj2 (FOP_and _ _ ps) (conj Hv1 Hv2)) as H.
      eapply FOP_impl; [|exact H]. cbn. intros x y _ _ [H1 H2].
      rewrite !v_kind_view in H1, H2. unfold once, variadic.
      rewrite orb_true_iff, !eqb_eq. intuition congruence.
Qed.

Lemma new_plain_exact ps r :
  (legal_parameters (views ps) -> new_plain ps r = Ok (mk_plain ps r))
  /\ (~ legal_parameters (views ps) -> new_plain ps r = Err ValueError).
Proof.
  rewrite <- good_list_legal. destruct (new_plain_spec ps r) as [[H1 H2]|[H1 H2]]; tauto.
Qed.

Lemma new_plain_Ok ps r s :
  new_plain ps r = Ok s <-> good_list ps /\ s = mk_plain ps r.
Proof.
  destruct (new_plain_spec ps r) as [[H1 ->]|[H1 ->]]; split.
  - intros E. inv E. easy.
  - intros [_ ->]. easy.
  - discriminate.
  - easy.
Qed.

Lemma built_plain_spec (s : plain_signature V) :
  built_plain is_NONE s <-> Forall good_parameter (parameters s) /\ good_list (parameters s).
Proof.
  split.
  - intros (ps & r & Hb & E). apply new_plain_Ok in E as [Hg ->]. cbn. split; [|easy].
    eapply Forall_impl; [|exact Hb]. intros p. apply built_good.
  - intros [H1 H2]. exists (parameters s), (returns s). split.
    + eapply Forall_impl; [|exact H1]. intros p. apply built_good.
    + apply new_plain_Ok. destruct s; easy.
Qed.

(** ** Decomposition by kind *)
Definition of_kind (k : kind) ps : list par := filter (fun p => p_kind p == k) ps.

Lemma at_kind_fold ps d k :
  at_kind k (fold_left (fun d p => dset (p_kind p) (at_kind (p_kind p) d ++ [p]) d) ps d)
  = at_kind k d ++ of_kind k ps.
Proof.
  revert d. induction ps as [|p ps IH]; intros d; cbn; [now rewrite app_nil_r|].
  rewrite IH. unfold at_kind at 1. rewrite dget_dset. rewrite (eqb_sym k (p_kind p)).
  destruct (eqb_reflect (p_kind p) k) as [->|]; [|reflexivity].
  now rewrite <- app_assoc.
Qed.

Lemma at_kind_by_kind ps k : at_kind k (to_parameters_by_kind ps) = of_kind k ps.
Proof. unfold to_parameters_by_kind. now rewrite at_kind_fold. Qed.

Definition all_kind (k : kind) ps : Prop := Forall (fun p => p_kind p = k) ps.

Lemma of_kind_all_kind k ps : all_kind k (of_kind k ps).
Proof. apply Forall_forall. intros p Hp. apply filter_In in Hp. now apply eqb_eq. Qed.

Lemma of_kind_same k ps : all_kind k ps -> of_kind k ps = ps.
Proof.
  intros H. induction H as [|p ps Hp H IH]; cbn; [easy|]. rewrite Hp, eqb_refl. now f_equal.
Qed.

Lemma of_kind_other k j ps : all_kind j ps -> j <> k -> of_kind k ps = [].
Proof.
  intros H Hn. induction H as [|p ps Hp H IH]; cbn; [easy|].
  rewrite Hp. destruct (eqb_reflect j k); [easy | exact IH].
Qed.

Lemma of_kind_app k ps qs : of_kind k (ps ++ qs) = of_kind k ps ++ of_kind k qs.
Proof. apply filter_app. Qed.

Lemma of_kind_cons k p ps :
  of_kind k (p :: ps) = if p_kind p == k then p :: of_kind k ps else of_kind k ps.
Proof. reflexivity. Qed.

Lemma of_kind_below k ps :
  (forall q, In q ps -> kind_value k < kind_value (p_kind q)) -> of_kind k ps = [].
Proof.
  intros H. induction ps as [|p ps IH]; cbn; [easy|].
  destruct (eqb_reflect (p_kind p) k) as [<-|].
  - specialize (H p (or_introl eq_refl)). lia.
  - apply IH. intros q Hq. apply H. now right.
Qed.

Lemma split_by_kind ps :
  ForallOrdPairs step_ok ps ->
  ps = of_kind POSITIONAL_ONLY ps ++ of_kind POSITIONAL_OR_KEYWORD ps
       ++ of_kind VARIADIC_POSITIONAL ps ++ of_kind KEYWORD_ONLY ps
       ++ of_kind VARIADIC_KEYWORD ps.
Proof.
  intros H. induction H as [|p ps Hp H IH]; [easy|].
  rewrite Forall_forall in Hp.
  assert (Hle : forall q, In q ps -> kind_value (p_kind p) <= kind_value (p_kind q))
    by (intros q Hq; apply Hp, Hq).
  clear Hp H.
  assert (G : forall k, kind_value k < kind_value (p_kind p) -> of_kind k ps = [])
    by (intros k Hk; apply of_kind_below; intros q Hq; specialize (Hle q Hq); lia).
  rewrite !of_kind_cons.
  destruct (p_kind p) eqn:Ek; cbn [kind_value] in *; unfold eqb, Eqb_kind; cbn [kind_eqb];
    repeat (rewrite G in * by (cbn; lia)); cbn [app] in *; f_equal; exact IH.
Qed.

(** The five blocks of a legal parameter list. *)
Record blocks (po pk vp ko vk : list par) : Prop := {
  b_po : all_kind POSITIONAL_ONLY po;
  b_pk : all_kind POSITIONAL_OR_KEYWORD pk;
  b_vp : all_kind VARIADIC_POSITIONAL vp;
  b_ko : all_kind KEYWORD_ONLY ko;
  b_vk : all_kind VARIADIC_KEYWORD vk;
  b_vp1 : length vp <= 1;
  b_vk1 : length vk <= 1;
  b_names : NoDup (map p_name (po ++ pk ++ vp ++ ko ++ vk));
  b_opt : ForallOrdPairs (fun p q => is_required q = true -> is_required p = true) (po ++ pk)
}.

Lemma once_length k ps :
  variadic k = true -> all_kind k ps -> ForallOrdPairs once ps <-> length ps <= 1.
Proof.
  intros Hv Hk. split.
  - intros H. destruct ps as [|p [|q ps]]; cbn; try lia.
    inv H. inv H2. inv Hk. inv H5. exfalso. apply H1; congruence.
  - destruct ps as [|p [|q ps]]; cbn; intros Hl; try lia; repeat constructor.
Qed.

Lemma FOP_skip {A} (R : A -> A -> Prop) n xs : ForallOrdPairs R xs -> ForallOrdPairs R (skipn n xs).
Proof. intros H. rewrite <- (firstn_skipn n xs) in H. now apply FOP_app in H. Qed.

Lemma FOP_filter {A} (R : A -> A -> Prop) f xs : ForallOrdPairs R xs -> ForallOrdPairs R (filter f xs).
Proof.
  intros H. induction H as [|x xs Hx H IH]; cbn; [constructor|].
  destruct (f x); [|easy]. constructor; [|easy].
  rewrite Forall_forall in *. intros y Hy. apply filter_In in Hy. now apply Hx.
Qed.

Lemma good_list_blocks ps :
  good_list ps <->
  exists po pk vp ko vk, ps = po ++ pk ++ vp ++ ko ++ vk /\ blocks po pk vp ko vk.
Proof.
  split.
  - intros (Hn & Hs & Ho).
    pose proof (split_by_kind Hs) as E.
    do 5 eexists. split; [exact E|]. constructor; try apply of_kind_all_kind.
    + eapply once_length; [|apply of_kind_all_kind | now apply FOP_filter]. easy.
    + eapply once_length; [|apply of_kind_all_kind | now apply FOP_filter]. easy.
    + now rewrite <- E.
    + rewrite E, app_assoc in Hs. apply FOP_app in Hs as [Hs _].
      eapply FOP_impl; [|exact Hs]. intros p q _ Hq [_ H]. apply H.
      apply in_app_or in Hq as [Hq|Hq]; apply filter_In in Hq as [_ Hq];
        apply eqb_to_eq in Hq; unfold is_positionable; now rewrite Hq.
  - intros (po & pk & vp & ko & vk & -> & B). destruct B. split; [easy|].
    unfold all_kind in *. rewrite Forall_forall in *.
    split.
    + rewrite app_assoc. apply FOP_app. split; [|split].
      * apply (@FOP_impl _ (fun p q => kind_value (p_kind p) <= kind_value (p_kind q)
          /\ (is_required q = true -> is_required p = true))).
        { intros p q _ _ [H1 H2]. split; auto. }
        apply FOP_and. split; [|easy]. apply FOP_app. split; [|split].
        -- apply FOP_all. intros p q Hp Hq. rewrite (b_po0 p), (b_po0 q); easy.
        -- apply FOP_all. intros p q Hp Hq. rewrite (b_pk0 p), (b_pk0 q); easy.
        -- intros p q Hp Hq. rewrite (b_po0 p), (b_pk0 q); cbn; (lia || easy).
      * assert (G : forall p q, 1 < kind_value (p_kind q) ->
          kind_value (p_kind p) <= kind_value (p_kind q) -> step_ok p q).
        { clear. intros p q H1 H2. split; [lia|]. rewrite is_positionable_value. lia. }
        rewrite !FOP_app. repeat match goal with |- _ /\ _ => split end; try apply FOP_all;
          intros p q Hp Hq; repeat rewrite in_app_iff in Hq; apply G;
          repeat match goal with
          | H : In ?p vp |- _ => rewrite ?(b_vp0 p H) in *; clear H
          | H : In ?p ko |- _ => rewrite ?(b_ko0 p H) in *; clear H
          | H : In ?p vk |- _ => rewrite ?(b_vk0 p H) in *; clear H
          | H : _ \/ _ |- _ => destruct H as [H|H]
          end; cbn; lia.
      * intros p q Hp Hq. rewrite !in_app_iff in *.
        assert (kind_value (p_kind p) <= 1) by (destruct Hp; [rewrite b_po0 | rewrite b_pk0]; auto).
        assert (1 < kind_value (p_kind q))
          by (destruct Hq as [?|[?|?]]; [rewrite b_vp0 | rewrite b_ko0 | rewrite b_vk0]; cbn; auto).
        split; [lia|]. rewrite is_positionable_value. lia.
    + assert (G1 : ForallOrdPairs once vp)
        by (eapply (@once_length VARIADIC_POSITIONAL); [easy | now apply Forall_forall | easy]).
      assert (G2 : ForallOrdPairs once vk)
        by (eapply (@once_length VARIADIC_KEYWORD); [easy | now apply Forall_forall | easy]).
      unfold once in *.
      rewrite !FOP_app. repeat match goal with |- _ /\ _ => split end; try easy; try apply FOP_all;
        intros p q Hp Hq; repeat rewrite in_app_iff in Hq;
        repeat match goal with
        | H : In ?p po |- _ => rewrite ?(b_po0 p H) in *; clear H
        | H : In ?p pk |- _ => rewrite ?(b_pk0 p H) in *; clear H
        | H : In ?p vp |- _ => rewrite ?(b_vp0 p H) in *; clear H
        | H : In ?p ko |- _ => rewrite ?(b_ko0 p H) in *; clear H
        | H : In ?p vk |- _ => rewrite ?(b_vk0 p H) in *; clear H
        | H : _ \/ _ |- _ => destruct H as [H|H]
        end; easy.
Qed.
End Lists.
