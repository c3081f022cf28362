(** From the block normal forms to the declarative call rules. *)
From Verif Require Import Base Models SpecCall ModelsProofs CallProofs.
Set Implicit Arguments.

Section Theorems.
Context {V : Type}.
Variable is_NONE : V -> bool.
Notation par := (parameter V).
Notation sig := (plain_signature V).
Implicit Types (p q : par) (ps po pk vp ko vk : list par) (kwargs : dict pystr V) (s : sig).

Lemma built_blocks s :
  built_plain is_NONE s ->
  exists po pk vp ko vk,
    s = mk_plain (po ++ pk ++ vp ++ ko ++ vk) (returns s) /\ blocks po pk vp ko vk
    /\ Forall (good_parameter is_NONE) (po ++ pk ++ vp ++ ko ++ vk).
Proof.
  intros H. apply built_plain_spec in H as [H1 H2].
  apply good_list_blocks in H2 as (po & pk & vp & ko & vk & E & B).
  exists po, pk, vp, ko, vk. split; [|split; [easy | now rewrite <- E]].
  destruct s; cbn in *; now subst.
Qed.

Lemma filter_view (f : pview -> bool) ps : filter f (views ps) = views (filter (fun p => f (view p)) ps).
Proof. unfold views. induction ps as [|p ps IH]; cbn; [easy|]. destruct (f (view p)); cbn; now rewrite IH. Qed.

Section Blocks.
Variables po pk vp ko vk : list par.
Hypothesis B : blocks po pk vp ko vk.
Hypothesis G : Forall (good_parameter is_NONE) (po ++ pk ++ vp ++ ko ++ vk).
Let ps := po ++ pk ++ vp ++ ko ++ vk.

Lemma positionals_views : positionals (views ps) = views (po ++ pk).
Proof.
  unfold positionals. rewrite filter_view. f_equal. unfold ps. rewrite app_assoc, filter_app.
  rewrite filter_all, filter_none; [now rewrite app_nil_r | |].
  - intros p Hp. rewrite positionalb_view. now apply (is_positionable_rest B).
  - intros p Hp. rewrite positionalb_view. now apply (is_positionable_pos B).
Qed.

Lemma view_inj p q : In p ps -> In q ps -> view p = view q -> p = q.
Proof.
  intros Hp Hq E. apply (names_unique B); [exact Hp | exact Hq |].
  rewrite <- !v_name_view. now rewrite E.
Qed.

Lemma In_pos_ps p : In p (po ++ pk) -> In p ps.
Proof. unfold ps. rewrite app_assoc. rewrite (in_app_iff (po ++ pk)). intros H. now left. Qed.

Lemma filled_In n p : In p ps -> filled (views ps) n (view p) <-> In p (firstn n (po ++ pk)).
Proof.
  intros Hp. unfold filled. rewrite positionals_views. unfold views. rewrite firstn_map, in_map_iff.
  split.
  - intros (q & E & Hq). rewrite <- (@view_inj q p); auto. apply In_pos_ps. now apply In_firstn in Hq.
  - intros H. now exists p.
Qed.

Lemma filled_inv n v : filled (views ps) n v -> exists p, v = view p /\ In p (firstn n (po ++ pk)).
Proof.
  unfold filled. rewrite positionals_views. unfold views. rewrite firstn_map, in_map_iff.
  intros (q & <- & Hq). now exists q.
Qed.

Lemma firstn_pos n : firstn n (po ++ pk) = firstn n po ++ firstn (n - length po) pk.
Proof. apply firstn_app. Qed.

Lemma pos_NoDup : NoDup (po ++ pk).
Proof.
  pose proof (b_names B) as H. rewrite app_assoc, map_app in H.
  apply NoDup_app_iff in H as (H & _). now apply NoDup_map_inv in H.
Qed.

Lemma not_filled_pk n p : In p pk -> ~ In p (firstn n (po ++ pk)) <-> In p (rest_pk po pk n).
Proof.
  intros Hp. rewrite firstn_pos, in_app_iff. unfold rest_pk.
  pose proof pos_NoDup as H. apply NoDup_app_iff in H as (_ & Hpk & Hd).
  rewrite <- (firstn_skipn (n - length po) pk) in Hp, Hpk.
  apply NoDup_app_iff in Hpk as (_ & _ & Hpk).
  apply in_app_or in Hp as [Hp|Hp].
  - split; [tauto|]. intros H. exfalso. eauto.
  - split; [easy|]. intros _ [H|H]; [|eauto].
    apply (Hd p); [now apply In_firstn in H | now apply In_skipn in Hp].
Qed.

Lemma not_filled_po n p : In p po -> ~ In p (firstn n (po ++ pk)) <-> In p (rest_po po n).
Proof.
  intros Hp. rewrite firstn_pos, in_app_iff. unfold rest_po.
  pose proof pos_NoDup as H. apply NoDup_app_iff in H as (Hpo & _ & Hd).
  assert (Hp' := Hp). rewrite <- (firstn_skipn n po) in Hp', Hpo.
  apply NoDup_app_iff in Hpo as (_ & _ & Hpo).
  apply in_app_or in Hp' as [Hp'|Hp'].
  - split; [tauto|]. intros H. exfalso. eauto.
  - split; [easy|]. intros _ [H|H]; [eauto|].
    apply (Hd p); [easy | now apply In_firstn in H].
Qed.

Lemma not_filled_ko n p : In p ko -> ~ In p (firstn n (po ++ pk)).
Proof.
  intros Hp H. apply In_firstn in H. pose proof (is_positionable_pos B p H) as E.
  rewrite (is_positionable_rest B) in E; [easy|]. rewrite !in_app_iff. tauto.
Qed.

Lemma extra_positionals : takes_extra_positionals (views ps) <-> vp <> [].
Proof.
  clear G. unfold takes_extra_positionals, views. split.
  - intros (v & Hv & E). apply in_map_iff in Hv as (p & <- & Hp). rewrite v_kind_view in E.
    assert (H : In p (of_kind VARIADIC_POSITIONAL ps)).
    { apply filter_In. split; [easy|]. rewrite E. apply eqb_refl. }
    unfold ps in H. rewrite (blocks_vp B) in H. now destruct vp.
  - intros H. destruct vp as [|p l] eqn:E; [easy|]. exists (view p). split.
    + apply in_map. unfold ps. rewrite !in_app_iff. right. right. left. now left.
    + rewrite v_kind_view. apply (all_kind_In p (b_vp B)). now left.
Qed.

Lemma extra_keywords : takes_extra_keywords (views ps) <-> vk <> [].
Proof.
  clear G. unfold takes_extra_keywords, views. split.
  - intros (v & Hv & E). apply in_map_iff in Hv as (p & <- & Hp). rewrite v_kind_view in E.
    assert (H : In p (of_kind VARIADIC_KEYWORD ps)).
    { apply filter_In. split; [easy|]. rewrite E. apply eqb_refl. }
    unfold ps in H. rewrite (blocks_vk B) in H. now destruct vk.
  - intros H. destruct vk as [|p l] eqn:E; [easy|]. exists (view p). split.
    + apply in_map. unfold ps. rewrite !in_app_iff. do 4 right. now left.
    + rewrite v_kind_view. apply (all_kind_In p (b_vk B)). now left.
Qed.

Lemma is_nil_false {A} (xs : list A) : negb (is_nil xs) = true <-> xs <> [].
Proof. destruct xs; cbn; split; congruence. Qed.

Lemma positionals_fit_nf n : positionals_fit (views ps) n <-> fits po pk vp n = true.
Proof.
  unfold positionals_fit, fits. rewrite positionals_views, extra_positionals.
  unfold views. rewrite map_length, app_length, orb_true_iff, is_nil_false, Nat.leb_le. tauto.
Qed.

Lemma keyword_capable_ps p : In p ps -> keyword_capable (view p) <-> In p (pk ++ ko).
Proof.
  intros Hp. rewrite keyword_capable_view, in_app_iff. unfold ps in Hp. rewrite !in_app_iff in Hp.
  split.
  - intros E. destruct Hp as [H|[H|[H|[H|H]]]]; auto; exfalso.
    + rewrite (keywordable_po B) in E; easy.
    + rewrite (keywordable_vp B) in E; easy.
    + rewrite (keywordable_vk B) in E; easy.
  - intros [H|H]; [now apply (keywordable_pk B) | now apply (keywordable_ko B)].
Qed.

Lemma In_kw_ps p : In p (pk ++ ko) -> In p ps.
Proof. unfold ps. rewrite !in_app_iff. tauto. Qed.

Lemma In_rest_ps n p : In p (rest_pk po pk n ++ ko) -> In p (pk ++ ko).
Proof. rewrite !in_app_iff. intros [H|H]; [left; now apply In_rest_pk in H | now right]. Qed.

Lemma keyword_cases n p : In p (pk ++ ko) ->
  In p (firstn n (po ++ pk)) \/ In p (rest_pk po pk n ++ ko).
Proof.
  rewrite firstn_pos, !in_app_iff. unfold rest_pk.
  rewrite <- (firstn_skipn (n - length po) pk) at 1. rewrite in_app_iff. tauto.
Qed.

(** keyword-capable and not filled *)
Lemma open_keyword n p :
  In p (rest_pk po pk n ++ ko) <-> In p (pk ++ ko) /\ ~ In p (firstn n (po ++ pk)).
Proof.
  rewrite !in_app_iff. split.
  - intros [H|H].
    + pose proof (In_rest_pk _ _ _ _ H) as H'. split; [now left | now apply not_filled_pk].
    + split; [now right | now apply not_filled_ko].
  - intros [[H|H] H']; [left; now apply not_filled_pk | now right].
Qed.

Lemma open_exists n kw :
  (exists v, In v (views ps) /\ keyword_capable v /\ v_name v = kw /\ ~ filled (views ps) n v)
  <-> In kw (map p_name (rest_pk po pk n ++ ko)).
Proof.
  rewrite in_map_iff. unfold views. split.
  - intros (v & Hv & Hk & Hn & Hf). apply in_map_iff in Hv as (p & <- & Hp).
    exists p. rewrite v_name_view in Hn. split; [easy|].
    apply open_keyword. split; [now apply keyword_capable_ps|].
    intros H. apply Hf. now apply filled_In.
  - intros (p & <- & Hp). apply open_keyword in Hp as [Hp Hf].
    pose proof (In_kw_ps p Hp) as Hps.
    exists (view p). repeat split.
    + now apply in_map.
    + now apply keyword_capable_ps.
    + apply v_name_view.
    + intros H. apply Hf. now apply filled_In in H.
Qed.

Lemma known_spec n kwargs :
  known po pk ko vk n kwargs = true <->
  vk <> [] \/ (forall kw, In kw (dkeys kwargs) -> In kw (map p_name (rest_pk po pk n ++ ko))).
Proof.
  unfold known. rewrite orb_true_iff, is_nil_false, forallb_forall.
  split; (intros [H|H]; [now left | right]); intros kw Hkw; apply mem_In, H, Hkw.
Qed.

Lemma keywords_fit_known n kwargs :
  keywords_fit (views ps) n (dkeys kwargs) -> known po pk ko vk n kwargs = true.
Proof.
  intros H. apply known_spec. destruct (is_nil vk) eqn:E;
    [right; apply is_nil_true in E | left; apply is_nil_false; now rewrite E].
  intros kw Hkw. apply open_exists. destruct (H kw Hkw) as [H'|[H' _]]; [exact H'|].
  exfalso. assert (F : ~ takes_extra_keywords (views ps)); [|easy].
  rewrite extra_keywords, E. easy.
Qed.

Lemma known_keywords_fit n kwargs :
  (takes_extra_keywords (views ps) -> ~ clash (views ps) n (dkeys kwargs)) ->
  known po pk ko vk n kwargs = true -> keywords_fit (views ps) n (dkeys kwargs).
Proof.
  intros Hc H kw Hkw. rewrite open_exists. apply known_spec in H as [H|H]; [|left; auto].
  rewrite extra_keywords in *. specialize (Hc H).
  destruct (mem kw (map p_name (rest_pk po pk n ++ ko))) eqn:Em; [left; now apply mem_In|].
  right. split; [easy|]. apply mem_not_In in Em. intros v Hv Hk <-.
  unfold views in Hv. apply in_map_iff in Hv as (p & <- & Hp).
  apply Hc. exists (view p). split; [|easy].
  apply filled_In; [easy|].
  destruct (@keyword_cases n p) as [Hin|Hin]; [now apply keyword_capable_ps | easy |].
  exfalso. apply Em. rewrite v_name_view. now apply in_map.
Qed.

Lemma clash_spec n kws :
  clash (views ps) n kws <-> exists p, In p pk /\ In p (firstn n (po ++ pk)) /\ In (p_name p) kws.
Proof.
  unfold clash. split.
  - intros (v & Hf & Hk & Hn). apply filled_inv in Hf as (p & -> & Hp).
    rewrite v_name_view in Hn. exists p. repeat split; auto.
    pose proof (In_firstn _ _ _ Hp) as Hp'. apply keyword_capable_ps in Hk; [|now apply In_pos_ps].
    apply in_app_or in Hk as [Hk|Hk]; [easy|].
    exfalso. now apply (not_filled_ko n p Hk).
  - intros (p & Hp & Hf & Hn). assert (Hps : In p ps) by (apply In_kw_ps, in_or_app; now left).
    exists (view p). repeat split.
    + now apply filled_In.
    + apply keyword_capable_ps; [easy|]. apply in_or_app. now left.
    + now rewrite v_name_view.
Qed.

Lemma names_filled_spec n kws :
  names_filled (views ps) n kws <-> exists p, In p (firstn n (po ++ pk)) /\ In (p_name p) kws.
Proof.
  unfold names_filled. split.
  - intros (v & Hf & Hn). apply filled_inv in Hf as (p & -> & Hp). rewrite v_name_view in Hn. eauto.
  - intros (p & Hf & Hn). exists (view p). rewrite v_name_view. split; [|easy].
    apply filled_In; [apply In_pos_ps; now apply In_firstn in Hf | easy].
Qed.

Lemma no_repeat_spec n kwargs :
  no_repeat po pk n kwargs = true <-> ~ names_filled (views ps) n (dkeys kwargs).
Proof.
  rewrite names_filled_spec. unfold no_repeat, unbound. rewrite forallb_forall. split.
  - intros H (p & Hp & Hn). specialize (H p Hp). apply negb_true_iff, dmem_not_In in H. easy.
  - intros H p Hp. apply negb_true_iff, dmem_not_In. intros Hn. apply H. eauto.
Qed.

Lemma required_In p : In p ps -> is_required p = true -> In p (po ++ pk ++ ko).
Proof.
  intros Hp Hr. rewrite Forall_forall in G. specialize (G p Hp). unfold ps in Hp.
  rewrite !in_app_iff in *. destruct Hp as [H|[H|[H|[H|H]]]]; auto; exfalso.
  - apply (all_kind_In p (b_vp B)) in H. destruct p; cbn in *; [tauto | easy].
  - apply (all_kind_In p (b_vk B)) in H. destruct p; cbn in *; [tauto | easy].
Qed.

Lemma pos_cases n p : In p (po ++ pk) ->
  In p (firstn n (po ++ pk)) \/ In p (rest_po po n) \/ In p (rest_pk po pk n).
Proof.
  intros H. rewrite <- (firstn_skipn n (po ++ pk)), rest_split, !in_app_iff in H. tauto.
Qed.

Lemma nothing_missing_nf n kwargs :
  nothing_missing (views ps) n (dkeys kwargs) <-> supplied po pk ko n kwargs = true.
Proof.
  unfold nothing_missing, supplied. rewrite andb_true_iff, !forallb_forall. split.
  - intros H. split.
    + intros p Hp. pose proof (In_rest_po _ _ _ Hp) as Hp'.
      assert (Hps : In p ps) by (apply In_pos_ps, in_or_app; now left).
      destruct (is_optional p) eqn:Eo; [easy|].
      destruct (H (view p)) as [Hf|[Hk _]].
      * unfold views. now apply in_map.
      * rewrite v_required_view. unfold is_required. now rewrite Eo.
      * exfalso. apply filled_In in Hf; [|easy]. now apply (not_filled_po n p Hp') in Hp.
      * apply keyword_capable_view in Hk. rewrite (keywordable_po B) in Hk; easy.
    + intros p Hp. pose proof Hp as Hp'. apply open_keyword in Hp' as [Hp' Hf'].
      pose proof (In_kw_ps p Hp') as Hps.
      destruct (is_optional p) eqn:Eo; [easy|].
      destruct (H (view p)) as [Hf|[Hk Hn]].
      * unfold views. now apply in_map.
      * rewrite v_required_view. unfold is_required. now rewrite Eo.
      * exfalso. apply Hf'. now apply filled_In in Hf.
      * cbn. apply dmem_In. now rewrite v_name_view in Hn.
  - intros [H1 H2] v Hv Hr. unfold views in Hv. apply in_map_iff in Hv as (p & <- & Hp).
    rewrite v_required_view in Hr. rewrite v_name_view, (filled_In n p Hp).
    pose proof (required_In p Hp Hr) as Hp'. rewrite app_assoc, in_app_iff in Hp'.
    assert (HK : In p (rest_pk po pk n ++ ko) -> keyword_capable (view p) /\ In (p_name p) (dkeys kwargs)).
    { intros H. split.
      - apply keyword_capable_ps; [easy|]. now apply open_keyword in H.
      - specialize (H2 p H). unfold is_required in Hr. apply negb_true_iff in Hr.
        rewrite Hr in H2. cbn in H2. now apply dmem_In. }
    destruct Hp' as [Hp'|Hp'].
    + destruct (@pos_cases n p Hp') as [H|[H|H]]; [now left | |].
      * exfalso. specialize (H1 p H). unfold is_required in Hr. rewrite H1 in Hr. easy.
      * right. apply HK, in_or_app. now left.
    + right. apply HK, in_or_app. now right.
Qed.

End Blocks.

(** ** Statements about built signatures *)

Ltac blocks_of s po pk vp ko vk B G :=
  let H := fresh in
  match goal with
  | Hs : built_plain is_NONE s |- _ =>
      pose proof (built_blocks Hs) as H;
      destruct H as (po & pk & vp & ko & vk & H & B & G);
      let r := fresh "r" in
      remember (returns s) as r eqn:Er; clear Er; subst s
  end.

Lemma expects_direct s args kwargs :
  built_plain is_NONE s ->
  plain_expects s args kwargs = true <->
  positionals_fit (sviews s) (length args)
  /\ (takes_extra_keywords (sviews s)
      \/ forall kw, In kw (dkeys kwargs) ->
           exists v, In v (sviews s) /\ keyword_capable v /\ v_name v = kw
                     /\ ~ filled (sviews s) (length args) v).
Proof.
  intros Hs. blocks_of s po pk vp ko vk B G. unfold sviews. cbn [parameters].
  rewrite (expects_nf B), andb_true_iff, (positionals_fit_nf B), known_spec, (extra_keywords B).
  split; intros [H1 [H2|H2]]; (split; [easy|]); try (now left); right; intros kw Hkw.
  - apply (proj2 (open_exists B _ _)), H2, Hkw.
  - apply (proj1 (open_exists B _ _)), H2, Hkw.
Qed.

Lemma all_set_exact s args kwargs :
  built_plain is_NONE s ->
  (takes_extra_keywords (sviews s) -> ~ clash (sviews s) (length args) (dkeys kwargs)) ->
  plain_all_set s args kwargs = true <-> accepts (sviews s) (length args) (dkeys kwargs).
Proof.
  intros Hs. blocks_of s po pk vp ko vk B G. unfold sviews. cbn [parameters]. intros Hc.
  rewrite (all_set_nf B), !andb_true_iff. unfold accepts.
  rewrite (positionals_fit_nf B), (nothing_missing_nf B G).
  split.
  - intros [[H1 H2] H3]. repeat split; [easy | now apply (known_keywords_fit B) | easy].
  - intros (H1 & H2 & H3). repeat split; [easy | now apply (keywords_fit_known B) | easy].
Qed.

Lemma all_set_complete s args kwargs :
  built_plain is_NONE s ->
  accepts (sviews s) (length args) (dkeys kwargs) -> plain_all_set s args kwargs = true.
Proof.
  intros Hs. blocks_of s po pk vp ko vk B G. unfold sviews. cbn [parameters].
  rewrite (all_set_nf B), !andb_true_iff. unfold accepts.
  rewrite (positionals_fit_nf B), (nothing_missing_nf B G).
  intros (H1 & H2 & H3). repeat split; [easy | now apply (keywords_fit_known B) | easy].
Qed.

Lemma all_set_expects s args kwargs :
  built_plain is_NONE s -> plain_all_set s args kwargs = true -> plain_expects s args kwargs = true.
Proof.
  intros Hs. blocks_of s po pk vp ko vk B G.
  rewrite (all_set_nf B), (expects_nf B), !andb_true_iff. tauto.
Qed.

Lemma bind_exact s args kwargs :
  built_plain is_NONE s ->
  (exists s', plain_bind is_NONE s args kwargs = Ok s') <->
  plain_expects s args kwargs = true /\ ~ names_filled (sviews s) (length args) (dkeys kwargs).
Proof.
  intros Hs. blocks_of s po pk vp ko vk B G. unfold sviews. cbn [parameters].
  rewrite (bind_nf B G), (expects_nf B), andb_true_iff, <- (no_repeat_spec B).
  destruct (fits _ _ _ _), (no_repeat _ _ _ _), (known _ _ _ _ _ _); cbn; split;
    try (intros [? E]; discriminate E); try tauto; try (intros [[? ?] ?]; discriminate); eauto.
Qed.

Lemma bind_total s args kwargs :
  built_plain is_NONE s ->
  (exists s', plain_bind is_NONE s args kwargs = Ok s' /\ built_plain is_NONE s')
  \/ plain_bind is_NONE s args kwargs = Err TypeError.
Proof.
  intros Hs. blocks_of s po pk vp ko vk B G. rewrite (bind_nf B G).
  destruct (_ && _ && _); [left | now right]. eexists. split; [reflexivity|].
  apply built_plain_spec. cbn [parameters]. split.
  - now apply bound_good.
  - now apply bound_good_list.
Qed.
End Theorems.
