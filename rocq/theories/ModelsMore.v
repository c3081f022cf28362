(** Shape of bound signatures, overloads, equality, hashing, pickling. *)
From Verif Require Import Base Models SpecCall ModelsProofs CallProofs CallTheorems BindLaws.
Set Implicit Arguments.

Section More.
Context {V : Type}.
Variable is_NONE : V -> bool.
Notation par := (parameter V).
Notation sig := (plain_signature V).
Implicit Types (p q : par) (ps po pk vp ko vk : list par) (kwargs : dict pystr V) (s : sig).

(** ** Shape *)
Lemma conv_annotation kwargs p : p_annotation (conv is_NONE kwargs p) = p_annotation p.
Proof. destruct p as [a k n|a [d|] k n]; cbn; [destruct (dget n kwargs)| |destruct (dget n kwargs)]; easy. Qed.

Lemma bound_by_dmem kwargs p :
  is_keywordable p = true -> bound_by_keyword kwargs p <-> dmem (p_name p) kwargs = true.
Proof.
  intros H. unfold bound_by_keyword. rewrite keyword_capable_view, dmem_In. tauto.
Qed.

Lemma conv_rebound kwargs p :
  legal_kwargs kwargs -> is_keywordable p = true -> rebound is_NONE kwargs p (conv is_NONE kwargs p).
Proof.
  intros Hl Hk. constructor.
  - apply conv_name.
  - apply conv_annotation.
  - intros _. apply conv_kind.
  - intros Hn. rewrite conv_kind. unfold is_keywordable in Hk.
    apply orb_true_iff in Hk as [Hk|Hk]; apply eqb_to_eq in Hk; congruence.
  - rewrite !v_required_view, (bound_by_dmem _ _ Hk). unfold is_required. rewrite conv_optional.
    destruct (is_optional p), (dmem (p_name p) kwargs); cbn; intuition congruence.
  - intros d. destruct p as [a k n|a [d'|] k n]; cbn; try easy.
  - rewrite (bound_by_dmem _ _ Hk). unfold dmem.
    destruct p as [a k n|a [d'|] k n]; cbn; try easy; destruct (dget n kwargs); cbn; easy.
  - intros v Hd _ Hin HN. apply (dget_In _ _ _ Hl) in Hin.
    destruct p as [a k n|a [d'|] k n]; cbn in *; try easy; rewrite Hin; cbn; unfold stored; now rewrite HN.
Qed.

Lemma self_rebound kwargs p : is_keywordable p = false -> rebound is_NONE kwargs p p.
Proof.
  intros H. assert (Hb : ~ bound_by_keyword kwargs p).
  { unfold bound_by_keyword. rewrite keyword_capable_view. intros [H' _]. congruence. }
  constructor; try easy.
  - intros E. unfold is_keywordable in H. rewrite E in H. easy.
Qed.

Lemma bind_shape s args kwargs s' :
  built_plain is_NONE s -> legal_kwargs kwargs ->
  plain_bind is_NONE s args kwargs = Ok s' ->
  returns s' = returns s /\
  exists gone before after after',
    parameters s = gone ++ before ++ after
    /\ length gone = Nat.min (length args) (length (positionals (sviews s)))
    /\ (forall p, In p before -> ~ bound_by_keyword kwargs p)
    /\ (forall p l, after = p :: l -> bound_by_keyword kwargs p)
    /\ parameters s' = before ++ after'
    /\ Forall2 (rebound is_NONE kwargs)
         (filter (fun p => negb (kind_eqb (p_kind p) VARIADIC_POSITIONAL)) after) after'.
Proof.
  intros Hs Hl E.
  destruct (bind_Ok _ _ Hs E) as (po & pk & vp & ko & vk & Es & B & G & F & R & K & ->).
  cbn [returns parameters]. split; [easy|]. clear E.
  assert (Eps : parameters s = po ++ pk ++ vp ++ ko ++ vk) by (rewrite Es; easy).
  unfold sviews. rewrite Eps, (positionals_views B). clear Es Eps.
  set (n := length args) in *.
  assert (Hgone : length (firstn n (po ++ pk)) = Nat.min n (length (views (po ++ pk)))).
  { unfold views. now rewrite firstn_length, map_length. }
  assert (Hsplit : po ++ pk ++ vp ++ ko ++ vk
    = firstn n (po ++ pk) ++ rest_po po n ++ rest_pk po pk n ++ vp ++ ko ++ vk).
  { rewrite (app_assoc (rest_po po n)), <- rest_split, app_assoc, (app_assoc (firstn _ _)),
      firstn_skipn. easy. }
  assert (Hkw : forall p, In p (rest_pk po pk n ++ ko) -> is_keywordable p = true).
  { intros p Hp. apply in_app_or in Hp as [Hp|Hp];
      [apply (keywordable_pk B), (In_rest_pk _ _ _ _ Hp) | now apply (keywordable_ko B)]. }
  assert (Hno : forall p, is_keywordable p = false -> ~ bound_by_keyword kwargs p).
  { unfold bound_by_keyword. intros p H. rewrite keyword_capable_view. intros [H' _]. congruence. }
  assert (HF2 : forall l, (forall p, In p l -> is_keywordable p = true) ->
    Forall2 (rebound is_NONE kwargs) l (map (conv is_NONE kwargs) l)).
  { intros l Hi. induction l as [|p l IH]; cbn; constructor.
    - apply conv_rebound; [easy | apply Hi; now left].
    - apply IH. intros q Hq. apply Hi. now right. }
  assert (HF2vk : Forall2 (rebound is_NONE kwargs) vk vk).
  { assert (Hi : incl vk vk) by easy. revert Hi. generalize vk at 1 3 4. intros l Hi.
    induction l as [|p l IH]; constructor.
    - apply self_rebound, (keywordable_vk B), Hi. now left.
    - apply IH. intros q Hq. apply Hi. now right. }
  assert (Hfn : forall k l, k <> VARIADIC_POSITIONAL -> all_kind k l ->
    filter (fun p => negb (kind_eqb (p_kind p) VARIADIC_POSITIONAL)) l = l).
  { intros k l Hk Ha. apply filter_all. intros p Hp. rewrite (all_kind_In p Ha Hp). now destruct k. }
  pose proof (kept_turned po pk n kwargs) as Ekt.
  pose proof (take_while_forall (unbound kwargs) (rest_pk po pk n)) as Fk.
  fold (kept po pk n kwargs) in Fk. rewrite Forall_forall in Fk.
  unfold bound_parameters, vp_left.
  destruct (is_nil (turned po pk n kwargs)) eqn:Et.
  - apply is_nil_true in Et. rewrite Et, app_nil_r in *. cbn [app].
    pose proof (take_drop_while (unbound kwargs) ko) as Eko.
    pose proof (take_while_forall (unbound kwargs) ko) as Fko. rewrite Forall_forall in Fko.
    set (ko1 := take_while (unbound kwargs) ko) in *. clearbody ko1.
    destruct (drop_while (unbound kwargs) ko) as [|k0 ko'] eqn:Ed.
    + exists (firstn n (po ++ pk)), (rest_po po n ++ rest_pk po pk n ++ vp ++ ko ++ vk), [], [].
      rewrite !app_nil_r in *.
      split; [exact Hsplit|]. split; [exact Hgone|]. split; [|split; [easy|split; [|constructor]]].
      * intros p Hp. rewrite !in_app_iff in Hp. destruct Hp as [Hp|[Hp|[Hp|[Hp|Hp]]]].
        -- apply Hno, (keywordable_po B). now apply In_rest_po in Hp.
        -- rewrite bound_by_dmem by (apply Hkw; rewrite in_app_iff; now left).
           rewrite <- Ekt in Hp. apply Fk in Hp. unfold unbound in Hp. now destruct (dmem _ _).
        -- now apply Hno, (keywordable_vp B).
        -- rewrite bound_by_dmem by (apply Hkw; rewrite in_app_iff; now right).
           rewrite <- Eko in Hp. apply Fko in Hp. unfold unbound in Hp. now destruct (dmem _ _).
        -- now apply Hno, (keywordable_vk B).
      * rewrite Ekt. do 4 f_equal. rewrite <- (map_id ko) at 2. apply map_ext_in. intros p Hp.
        apply conv_id; [apply (all_kind_In p (b_ko B) Hp)|].
        rewrite <- Eko in Hp. apply Fko in Hp. unfold unbound in Hp. now destruct (dmem _ _).
    + exists (firstn n (po ++ pk)), (rest_po po n ++ rest_pk po pk n ++ vp ++ ko1),
        ((k0 :: ko') ++ vk), (map (conv is_NONE kwargs) (k0 :: ko') ++ vk).
      assert (Hin2 : forall p, In p (k0 :: ko') -> In p ko)
        by (intros p Hp; rewrite <- Eko; apply in_or_app; now right).
      assert (Hin1 : forall p, In p ko1 -> In p ko)
        by (intros p Hp; rewrite <- Eko; apply in_or_app; now left).
      split; [rewrite Hsplit, <- Eko; now rewrite <- !app_assoc|].
      split; [exact Hgone|]. split; [|split; [|split]].
      * intros p Hp. rewrite !in_app_iff in Hp. destruct Hp as [Hp|[Hp|[Hp|Hp]]].
        -- apply Hno, (keywordable_po B). now apply In_rest_po in Hp.
        -- rewrite bound_by_dmem by (apply Hkw; rewrite in_app_iff; now left).
           rewrite <- Ekt in Hp. apply Fk in Hp. unfold unbound in Hp. now destruct (dmem _ _).
        -- now apply Hno, (keywordable_vp B).
        -- rewrite bound_by_dmem by (apply Hkw; rewrite in_app_iff; right; auto).
           apply Fko in Hp. unfold unbound in Hp. now destruct (dmem _ _).
      * cbn [app]. intros p l E. injection E as <- _. rewrite bound_by_dmem.
        -- apply drop_while_head in Ed. unfold unbound in Ed. now destruct (dmem _ _).
        -- apply Hkw, in_or_app. right. apply Hin2. now left.
      * rewrite Ekt, <- !app_assoc. do 3 f_equal. rewrite <- Eko at 1. rewrite map_app, <- app_assoc. f_equal.
        rewrite <- (map_id ko1) at 2. apply map_ext_in. intros p Hp.
        apply conv_id; [apply (all_kind_In p (b_ko B)); auto|].
        apply Fko in Hp. unfold unbound in Hp. now destruct (dmem _ _).
      * rewrite filter_app, (Hfn KEYWORD_ONLY), (Hfn VARIADIC_KEYWORD); try easy.
        -- apply Forall2_app; [apply HF2 | exact HF2vk]. intros p Hp. apply (keywordable_ko B). auto.
        -- apply (b_vk B).
        -- apply Forall_forall. intros p Hp. apply (all_kind_In p (b_ko B)). auto.
  - set (tu := turned po pk n kwargs) in *. cbn [app].
    assert (Hin2 : forall p, In p tu -> In p (rest_pk po pk n))
      by (intros p Hp; rewrite <- Ekt; apply in_or_app; now right).
    assert (Hin1 : forall p, In p (kept po pk n kwargs) -> In p (rest_pk po pk n))
      by (intros p Hp; rewrite <- Ekt; apply in_or_app; now left).
    exists (firstn n (po ++ pk)), (rest_po po n ++ kept po pk n kwargs),
      (tu ++ vp ++ ko ++ vk), (map (conv is_NONE kwargs) (tu ++ ko) ++ vk).
    split; [rewrite Hsplit, <- Ekt; now rewrite <- !app_assoc|].
    split; [exact Hgone|]. split; [|split; [|split]].
    + intros p Hp. rewrite !in_app_iff in Hp. destruct Hp as [Hp|Hp].
      * apply Hno, (keywordable_po B). now apply In_rest_po in Hp.
      * rewrite bound_by_dmem by (apply Hkw; rewrite in_app_iff; left; auto).
        apply Fk in Hp. unfold unbound in Hp. now destruct (dmem _ _).
    + intros p l E. destruct tu as [|p0 l0] eqn:Etu; [easy|]. cbn in E. injection E as -> _.
      rewrite bound_by_dmem.
      * apply drop_while_head in Etu. unfold unbound in Etu. now destruct (dmem _ _).
      * apply Hkw, in_or_app. left. apply Hin2. now left.
    + now rewrite <- app_assoc.
    + rewrite !filter_app, (Hfn POSITIONAL_OR_KEYWORD tu), (Hfn KEYWORD_ONLY ko), (Hfn VARIADIC_KEYWORD vk);
        try easy; try apply (b_vk B); try apply (b_ko B).
      * rewrite (@filter_none _ _ vp) by (intros p Hp; now rewrite (all_kind_In p (b_vp B) Hp)).
        cbn [app]. rewrite app_assoc. apply Forall2_app; [|exact HF2vk]. apply HF2.
        intros p Hp. apply Hkw. rewrite in_app_iff in *. destruct Hp; auto.
      * apply Forall_forall. intros p Hp. apply (all_kind_In p (b_pk B)).
        apply Hin2 in Hp. now apply In_rest_pk in Hp.
Qed.

(** ** The value bound by keyword *)
Lemma bind_keyword_value s args kwargs s' p v :
  built_plain is_NONE s -> legal_kwargs kwargs ->
  plain_bind is_NONE s args kwargs = Ok s' ->
  In p (parameters s) -> keyword_capable (view p) -> In (p_name p, v) kwargs ->
  exists p', In p' (parameters s') /\ p_name p' = p_name p /\ p_annotation p' = p_annotation p
    /\ p_kind p' = KEYWORD_ONLY /\ is_optional p' = true
    /\ (p_default p = None -> is_NONE v = false -> p_default p' = Some v)
    /\ (forall d, p_default p = Some d -> p_default p' = Some d).
Proof.
  intros Hs Hl E Hp Hk Hv.
  destruct (bind_Ok _ _ Hs E) as (po & pk & vp & ko & vk & Es & B & G & F & R & K & ->).
  cbn [parameters]. rewrite Es in Hp. cbn [parameters] in Hp. clear Es E Hs.
  assert (Hd : dmem (p_name p) kwargs = true).
  { apply dmem_In. unfold dkeys. apply in_map_iff. now exists (p_name p, v). }
  assert (Hopen : In p (rest_pk po pk (length args) ++ ko)).
  { apply (open_keyword B). split; [now apply (keyword_capable_ps B)|].
    intros Hf. unfold no_repeat in R. rewrite forallb_forall in R. specialize (R p Hf).
    unfold unbound in R. now rewrite Hd in R. }
  assert (Hconv : In (conv is_NONE kwargs p) (bound_parameters is_NONE po pk vp ko vk (length args) kwargs)).
  { unfold bound_parameters. rewrite !in_app_iff. right. right. right. left. apply in_map.
    rewrite in_app_iff in *. destruct Hopen as [Ho|Ho]; [left | now right].
    rewrite <- (kept_turned po pk (length args) kwargs) in Ho.
    apply in_app_or in Ho as [Ho|Ho]; [|easy].
    pose proof (take_while_forall (unbound kwargs) (rest_pk po pk (length args))) as Fk.
    rewrite Forall_forall in Fk. apply Fk in Ho. unfold unbound in Ho. now rewrite Hd in Ho. }
  exists (conv is_NONE kwargs p). split; [easy|].
  apply keyword_capable_view in Hk. pose proof (conv_rebound _ Hl Hk) as [H1 H2 _ _ _ H6 _ H8].
  repeat split; try easy.
  - apply conv_kind.
  - rewrite conv_optional, Hd. apply orb_true_r.
  - intros Hn HN. apply H8; try easy. unfold bound_by_keyword. rewrite keyword_capable_view.
    split; [easy | now apply dmem_In].
Qed.

(** ** The empty call *)
Lemma expects_empty s : built_plain is_NONE s -> plain_expects s [] [] = true.
Proof.
  intros Hs. destruct (built_blocks Hs) as (po & pk & vp & ko & vk & Es & B & G).
  rewrite Es, (expects_nf B). unfold fits, known. cbn.
  now rewrite !orb_true_r.
Qed.

Lemma bind_empty s : built_plain is_NONE s -> plain_bind is_NONE s [] [] = Ok s.
Proof.
  intros Hs. destruct (built_blocks Hs) as (po & pk & vp & ko & vk & Es & B & G).
  rewrite Es. cbn [returns]. rewrite (bind_nf B G). unfold fits, known, no_repeat. cbn [length].
  cbn [dkeys map forallb firstn Nat.leb]. rewrite !orb_true_r. cbn [andb].
  do 2 f_equal. unfold bound_parameters, vp_left, rest_po. cbn [skipn].
  assert (Ek : kept po pk 0 ([] : dict pystr V) = pk).
  { unfold kept, rest_pk. cbn. apply take_while_all. apply Forall_forall. easy. }
  assert (Et : turned po pk 0 ([] : dict pystr V) = []).
  { unfold turned, rest_pk. cbn. apply drop_while_nil. apply Forall_forall. easy. }
  rewrite Ek, Et. cbn [is_nil app]. do 4 f_equal.
  rewrite <- (map_id ko) at 2. apply map_ext_in. intros p Hp.
  apply conv_id; [apply (all_kind_In p (b_ko B) Hp) | easy].
Qed.

(** ** Overloads *)
Lemma as_plains_map (ss : list sig) : as_plains (map Plain ss) = Some ss.
Proof. induction ss as [|s ss IH]; cbn; [easy|]. now rewrite IH. Qed.

Lemma new_overloaded_map (ss : list sig) :
  new_overloaded (map Plain ss) = if length ss <? 2 then Err ValueError else Ok (Overloaded ss).
Proof. unfold new_overloaded. now rewrite as_plains_map, map_length. Qed.

Lemma built_overloaded (ss : list sig) :
  built is_NONE (Overloaded ss) <-> Forall (built_plain is_NONE) ss /\ 2 <= length ss.
Proof.
  cbn. split.
  - intros (ss' & H & E). rewrite new_overloaded_map in E.
    destruct (length ss' <? 2) eqn:El; [easy|]. inv E. split; [easy|].
    now apply Nat.ltb_ge in El.
  - intros [H Hl]. exists ss. split; [easy|]. rewrite new_overloaded_map.
    destruct (length ss <? 2) eqn:El; [apply Nat.ltb_lt in El; lia | easy].
Qed.

Lemma flat_map_Plain (ss : list sig) : flat_map flatten_signature (map Plain ss) = ss.
Proof. induction ss as [|s ss IH]; cbn; [easy|]. now rewrite IH. Qed.

Definition combined (ss : list sig) : res (signature V) :=
  match ss with
  | [] => Err ValueError
  | [s] => Ok (Plain s)
  | _ => Ok (Overloaded ss)
  end.

Lemma from_signatures_combined (xs : list (signature V)) :
  from_signatures xs = combined (flat_map flatten_signature xs).
Proof.
  unfold from_signatures, combined. destruct (flat_map flatten_signature xs) as [|a [|b l]] eqn:E;
    try easy. now rewrite new_overloaded_map.
Qed.

Lemma combined_flatten ss (s : signature V) : combined ss = Ok s -> flatten_signature s = ss.
Proof. destruct ss as [|a [|b l]]; cbn; intros E; inv E; easy. Qed.

Lemma from_signatures_flatten xs (s : signature V) :
  from_signatures xs = Ok s -> flatten_signature s = flat_map flatten_signature xs.
Proof. rewrite from_signatures_combined. apply combined_flatten. Qed.

Lemma from_signatures_assoc (xs ys zs : list (signature V)) y :
  from_signatures ys = Ok y ->
  from_signatures (xs ++ y :: zs) = from_signatures (xs ++ ys ++ zs).
Proof.
  intros E. rewrite !from_signatures_combined. f_equal. rewrite !flat_map_app. f_equal.
  cbn. now rewrite (from_signatures_flatten _ E).
Qed.

Lemma existsb_flatten (f : sig -> bool) (s : signature V) (g : signature V -> bool) :
  (forall p : sig, g (Plain p) = f p) -> (forall ps : list sig, g (Overloaded ps) = existsb f ps) ->
  g s = existsb f (flatten_signature s).
Proof. intros H1 H2. destruct s; cbn; [now rewrite H1, orb_false_r | apply H2]. Qed.

Lemma expects_union (s : signature V) args kwargs :
  expects s args kwargs = existsb (fun p : sig => plain_expects p args kwargs) (flatten_signature s).
Proof. apply (existsb_flatten _ s (fun s : signature V => expects s args kwargs)); easy. Qed.
Lemma all_set_union (s : signature V) args kwargs :
  all_set s args kwargs = existsb (fun p : sig => plain_all_set p args kwargs) (flatten_signature s).
Proof. apply (existsb_flatten _ s (fun s : signature V => all_set s args kwargs)); easy. Qed.

Lemma built_flatten (s : signature V) : built is_NONE s -> Forall (built_plain is_NONE) (flatten_signature s).
Proof. destruct s; [cbn; auto|]. intros H. now apply built_overloaded in H. Qed.

Lemma overloaded_all_set_expects (s : signature V) args kwargs :
  built is_NONE s -> all_set s args kwargs = true -> expects s args kwargs = true.
Proof.
  intros Hb. apply built_flatten in Hb. rewrite Forall_forall in Hb.
  rewrite expects_union, all_set_union, !existsb_exists.
  intros (p & Hp & E). exists p. split; [easy|]. now apply (@all_set_expects _ is_NONE); [apply Hb|].
Qed.

Lemma map_m_bind_total (ss : list sig) args kwargs :
  Forall (built_plain is_NONE) ss ->
  (exists ts, map_m (fun p : sig => plain_bind is_NONE p args kwargs) ss = Ok ts
              /\ Forall (built_plain is_NONE) ts)
  \/ map_m (fun p : sig => plain_bind is_NONE p args kwargs) ss = Err TypeError.
Proof.
  intros H. induction H as [|s ss Hs H IH]; cbn; [left; eauto|].
  destruct (bind_total args kwargs Hs) as [(t & -> & Ht)| ->]; cbn; [|now right].
  destruct IH as [(ts & -> & Hts)| ->]; cbn; [left; eauto | now right].
Qed.

Lemma overloaded_bind_total (s : signature V) args kwargs :
  built is_NONE s ->
  (exists t, bind is_NONE s args kwargs = Ok t /\ built is_NONE t)
  \/ bind is_NONE s args kwargs = Err TypeError.
Proof.
  destruct s as [s|ss].
  - cbn. intros Hs. destruct (bind_total args kwargs Hs) as [(t & -> & Ht)| ->]; cbn; [left; eauto | now right].
  - intros Hb. apply built_overloaded in Hb as [Hb Hl]. cbn [bind].
    destruct (@map_m_bind_total (filter (fun p : sig => plain_expects p args kwargs) ss) args kwargs)
      as [(ts & -> & Hts)| ->]; [|cbn|now right].
    + rewrite Forall_forall in *. intros p Hp. apply filter_In in Hp. now apply Hb.
    + destruct ts as [|t ts]; [now right|]. left. rewrite from_signatures_combined, flat_map_Plain.
      destruct ts as [|t' ts]; cbn [combined]; eexists; (split; [reflexivity|]).
      * now inv Hts.
      * apply built_overloaded. split; [easy | cbn; lia].
Qed.

Lemma overloaded_bind_spec (ss : list sig) args kwargs t :
  bind is_NONE (Overloaded ss) args kwargs = Ok t <->
  filter (fun p : sig => plain_expects p args kwargs) ss <> []
  /\ exists ts,
    Forall2 (fun s s' => plain_bind is_NONE s args kwargs = Ok s')
      (filter (fun p : sig => plain_expects p args kwargs) ss) ts
    /\ from_signatures (map Plain ts) = Ok t.
Proof.
  cbn [bind]. set (es := filter _ ss). split.
  - destruct (map_m _ es) as [ts|e] eqn:E; [|easy]. cbn [bind_res]. apply map_m_ok in E.
    intros H. destruct ts as [|t0 ts]; [easy|]. split; [now inversion E|].
    exists (t0 :: ts). easy.
  - intros [Hne (ts & F & E)]. rewrite (proj2 (map_m_ok _ es ts)) by easy. cbn [bind_res].
    destruct ts as [|t0 ts]; [inv F; congruence|]. exact E.
Qed.

Lemma overloaded_unexpected (ss : list sig) args kwargs :
  expects (Overloaded ss) args kwargs = false ->
  bind is_NONE (Overloaded ss) args kwargs = Err TypeError.
Proof.
  cbn [expects bind]. intros H. rewrite filter_none; [easy|]. intros p Hp.
  apply not_true_is_false. intros E. apply not_true_iff_false in H. apply H.
  apply existsb_exists. eauto.
Qed.

Lemma overloaded_bind_survivors (ss : list sig) args kwargs t :
  bind is_NONE (Overloaded ss) args kwargs = Ok t <->
  filter (fun p : sig => plain_expects p args kwargs) ss <> []
  /\ exists ts,
    Forall2 (fun s s' => plain_bind is_NONE s args kwargs = Ok s')
      (filter (fun p : sig => plain_expects p args kwargs) ss) ts
    /\ t = match ts with [s'] => Plain s' | _ => Overloaded ts end.
Proof.
  rewrite overloaded_bind_spec. split; intros [Hne (ts & F & E)]; (split; [exact Hne|]); exists ts;
    (split; [exact F|]); rewrite from_signatures_combined, flat_map_Plain in *.
  - destruct ts as [|a [|b l]]; cbn in E; congruence.
  - subst t. destruct ts as [|a [|b l]]; [inv F; congruence | easy | easy].
Qed.

Lemma overloaded_bind_flatten (s : signature V) args kwargs t :
  built is_NONE s ->
  bind is_NONE s args kwargs = Ok t ->
  Forall2 (fun s s' => plain_bind is_NONE s args kwargs = Ok s')
    (filter (fun p : sig => plain_expects p args kwargs) (flatten_signature s)) (flatten_signature t).
Proof.
  intros Hb E. destruct s as [s|ss].
  - cbn in *. destruct (plain_bind is_NONE s args kwargs) as [s'|] eqn:E'; [|easy].
    cbn in E. inv E. cbn.
    assert (H : plain_expects s args kwargs = true).
    { apply (bind_exact args kwargs Hb). eauto. }
    rewrite H. repeat constructor. exact E'.
  - apply overloaded_bind_spec in E as (Hne & ts & F & E). apply from_signatures_flatten in E.
    rewrite flat_map_Plain in E. cbn [flatten_signature] in *. rewrite E. exact F.
Qed.

Lemma overloaded_residual (s t : signature V) a1 a2 k1 k2 :
  built is_NONE s ->
  bind is_NONE s a1 k1 = Ok t ->
  (forall p : sig, In p (flatten_signature s) -> takes_extra_keywords (sviews p) ->
   ~ clash (sviews p) (length a1 + length a2) (dkeys k1 ++ dkeys k2)) ->
  expects t a2 k2 = expects s (a1 ++ a2) (merge k1 k2)
  /\ all_set t a2 k2 = all_set s (a1 ++ a2) (merge k1 k2).
Proof.
  intros Hb E HC. pose proof (overloaded_bind_flatten _ _ _ Hb E) as F.
  rewrite !expects_union, !all_set_union. apply built_flatten in Hb.
  clear E. revert F. generalize (flatten_signature t). induction (flatten_signature s) as [|p ps IH];
    intros ts F; cbn in F.
  - inv F. easy.
  - inversion Hb as [|? ? Hp Hps]; subst.
    assert (HC' : forall p : sig, In p ps -> takes_extra_keywords (sviews p) ->
      ~ clash (sviews p) (length a1 + length a2) (dkeys k1 ++ dkeys k2))
      by (intros q Hq; apply HC; now right).
    destruct (plain_expects p a1 k1) eqn:Ep.
    + inversion F as [|? t0 ? ts' Ht Hts]; subst.
      destruct (IH Hps HC' ts' Hts) as [IH1 IH2].
      assert (R : plain_expects t0 a2 k2 = plain_expects p (a1 ++ a2) (merge k1 k2)
        /\ plain_all_set t0 a2 k2 = plain_all_set p (a1 ++ a2) (merge k1 k2)).
      { eapply residual; [exact Hp | exact Ht | apply HC; now left]. }
      destruct R as [R1 R2].
      cbn. now rewrite R1, R2, IH1, IH2.
    + destruct (IH Hps HC' ts F) as [IH1 IH2]. cbn. rewrite IH1, IH2.
      assert (E1 : plain_expects p (a1 ++ a2) (merge k1 k2) = false).
      { apply not_true_is_false. intros H. apply (expects_prefix _ _ _ _ Hp) in H. congruence. }
      assert (E2 : plain_all_set p (a1 ++ a2) (merge k1 k2) = false).
      { apply not_true_is_false. intros H. apply (all_set_expects _ _ Hp) in H. congruence. }
      now rewrite E1, E2.
Qed.

Lemma overloaded_empty (s : signature V) :
  built is_NONE s -> expects s [] [] = true /\ bind is_NONE s [] [] = Ok s.
Proof.
  intros Hb. pose proof (built_flatten _ Hb) as Hf. destruct s as [s|ss].
  - cbn [expects bind]. rewrite bind_empty, expects_empty by easy. easy.
  - apply built_overloaded in Hb as [Hb Hl]. split.
    + destruct ss as [|s ss]; [cbn in Hl; lia|]. cbn [expects existsb].
      inv Hb. now rewrite expects_empty.
    + cbn [bind]. rewrite filter_all.
      2: { rewrite Forall_forall in Hb. intros p Hp. apply expects_empty. auto. }
      rewrite (proj2 (map_m_ok _ ss ss)).
      2: { clear Hl Hf. induction Hb; constructor; [now apply bind_empty | easy]. }
      cbn [bind_res]. destruct ss as [|a [|b l]]; cbn in Hl; try lia.
      rewrite from_signatures_combined, flat_map_Plain. easy.
Qed.

(** ** Pickling *)
Lemma parameter_pickle p :
  built_parameter is_NONE p -> parameter_rebuild is_NONE (parameter_getnewargs p) = Ok p.
Proof.
  intros H. apply built_good in H. destruct p as [a k n|a [d|] k n]; cbn in *.
  - destruct k; easy.
  - destruct H as (-> & H1 & H2). destruct k; easy.
  - destruct k; easy.
Qed.

Lemma signature_pickle (s : signature V) :
  built is_NONE s -> signature_rebuild (signature_getnewargs s) = Ok s.
Proof.
  destruct s as [s|ss].
  - intros H. cbn in H. apply built_plain_spec in H as [H1 H2]. cbn.
    rewrite (proj2 (new_plain_Ok (parameters s) (returns s) s)); [easy|]. destruct s; easy.
  - intros H. apply built_overloaded in H as [H1 H2]. cbn [signature_getnewargs signature_rebuild].
    rewrite new_overloaded_map. destruct (length ss <? 2) eqn:E; [apply Nat.ltb_lt in E; lia | easy].
Qed.

(** ** Equality *)
Section Equality.
Variable are_equal : V -> V -> bool.

Lemma tuple_eq_refl {A} (eq : A -> A -> bool) xs :
  (forall x, eq x x = true) -> tuple_eq eq xs xs = true.
Proof. intros H. induction xs as [|x xs IH]; cbn; [easy|]. now rewrite H. Qed.
Lemma tuple_eq_sym {A} (eq : A -> A -> bool) xs ys :
  (forall x y, eq x y = eq y x) -> tuple_eq eq xs ys = tuple_eq eq ys xs.
Proof.
  intros H. revert ys. induction xs as [|x xs IH]; intros [|y ys]; cbn; try easy. now rewrite H, IH.
Qed.
Lemma tuple_eq_trans {A} (eq : A -> A -> bool) xs ys zs :
  (forall x y z, eq x y = true -> eq y z = true -> eq x z = true) ->
  tuple_eq eq xs ys = true -> tuple_eq eq ys zs = true -> tuple_eq eq xs zs = true.
Proof.
  intros H. revert ys zs. induction xs as [|x xs IH]; intros [|y ys] [|z zs]; cbn; try easy.
  rewrite !andb_true_iff. intros [H1 H2] [H3 H4]. split; eauto.
Qed.

Lemma parameter_eq_refl : (forall v, are_equal v v = true) -> forall p, parameter_eq are_equal p p = true.
Proof. intros H p. destruct p as [a k n|a [d|] k n]; cbn; now rewrite !eqb_refl, ?H. Qed.
Lemma parameter_eq_sym : (forall v w, are_equal v w = are_equal w v) ->
  forall p q, parameter_eq are_equal p q = parameter_eq are_equal q p.
Proof.
  intros H p q. destruct p as [a k n|a [d|] k n], q as [a' k' n'|a' [d'|] k' n']; cbn; try easy;
    rewrite (eqb_sym n), (eqb_sym k), (H a), ?(H d); easy.
Qed.
Lemma parameter_eq_trans :
  (forall u v w, are_equal u v = true -> are_equal v w = true -> are_equal u w = true) ->
  forall p q r, parameter_eq are_equal p q = true -> parameter_eq are_equal q r = true ->
    parameter_eq are_equal p r = true.
Proof.
  intros H p q r.
  destruct p as [a k n|a [d|] k n], q as [a' k' n'|a' [d'|] k' n'], r as [a2 k2 n2|a2 [d2|] k2 n2];
    cbn; try easy; rewrite ?andb_false_r; try easy; rewrite !andb_true_iff, !eqb_eq; intuition (eauto; congruence).
Qed.

Lemma plain_eq_refl : (forall v, are_equal v v = true) -> forall s, plain_eq are_equal s s = true.
Proof. intros H s. unfold plain_eq. rewrite tuple_eq_refl, H; [easy|]. now apply parameter_eq_refl. Qed.
Lemma plain_eq_sym : (forall v w, are_equal v w = are_equal w v) ->
  forall s t, plain_eq are_equal s t = plain_eq are_equal t s.
Proof.
  intros H s t. unfold plain_eq. rewrite tuple_eq_sym, (H (returns s)); [easy|]. now apply parameter_eq_sym.
Qed.
Lemma plain_eq_trans :
  (forall u v w, are_equal u v = true -> are_equal v w = true -> are_equal u w = true) ->
  forall r s t, plain_eq are_equal r s = true -> plain_eq are_equal s t = true ->
    plain_eq are_equal r t = true.
Proof.
  intros H r s t. unfold plain_eq. rewrite !andb_true_iff. intros [H1 H2] [H3 H4].
  split; [|eauto]. eapply tuple_eq_trans; eauto. now apply parameter_eq_trans.
Qed.

Lemma signature_eq_refl : (forall v, are_equal v v = true) -> forall s : signature V, signature_eq are_equal s s = true.
Proof.
  intros H [s|ss]; cbn; [now apply plain_eq_refl | apply tuple_eq_refl; now apply plain_eq_refl].
Qed.
Lemma signature_eq_sym : (forall v w, are_equal v w = are_equal w v) ->
  forall s t : signature V, signature_eq are_equal s t = signature_eq are_equal t s.
Proof.
  intros H [s|ss] [t|ts]; cbn; try easy;
    [now apply plain_eq_sym | apply tuple_eq_sym; now apply plain_eq_sym].
Qed.
Lemma signature_eq_trans :
  (forall u v w, are_equal u v = true -> are_equal v w = true -> are_equal u w = true) ->
  forall r s t : signature V, signature_eq are_equal r s = true -> signature_eq are_equal s t = true ->
    signature_eq are_equal r t = true.
Proof.
  intros H [r|rs] [s|ss] [t|ts]; cbn; try easy;
    [now apply plain_eq_trans | apply tuple_eq_trans; now apply plain_eq_trans].
Qed.

(** ** Hashing *)
Variable hash_value : V -> option Z.
Variable hash_str : pystr -> Z.
Variable hash_kind : kind -> Z.
Variable hash_tuple : list Z -> Z.
Hypothesis hash_consistent : forall v w h h',
  are_equal v w = true -> hash_value v = Some h -> hash_value w = Some h' -> h = h'.

Lemma parameter_hash_consistent p q h h' :
  parameter_eq are_equal p q = true ->
  parameter_hash hash_value hash_str hash_kind hash_tuple p = Some h ->
  parameter_hash hash_value hash_str hash_kind hash_tuple q = Some h' -> h = h'.
Proof.
  destruct p as [a k n|a [d|] k n], q as [a' k' n'|a' [d'|] k' n']; cbn; try easy;
    rewrite ?andb_false_r; try easy; rewrite !andb_true_iff, !eqb_eq.
  - intros [[-> ->] H]. destruct (hash_value a) eqn:E1, (hash_value a') eqn:E2; try easy.
    rewrite (hash_consistent H E1 E2). congruence.
  - intros [[[-> ->] H'] H].
    destruct (hash_value a) eqn:E1; [|easy]. destruct (hash_value d) eqn:E3; [|easy].
    destruct (hash_value a') eqn:E2; [|easy]. destruct (hash_value d') eqn:E4; [|easy].
    rewrite (hash_consistent H E1 E2), (hash_consistent H' E3 E4). congruence.
  - intros [[[-> ->] _] H]. destruct (hash_value a) eqn:E1, (hash_value a') eqn:E2; try easy.
    rewrite (hash_consistent H E1 E2). congruence.
Qed.

Lemma hash_all_consistent {A} (eq : A -> A -> bool) (hash : A -> option Z) :
  (forall x y h h', eq x y = true -> hash x = Some h -> hash y = Some h' -> h = h') ->
  forall xs ys hs hs', tuple_eq eq xs ys = true ->
    hash_all hash xs = Some hs -> hash_all hash ys = Some hs' -> hs = hs'.
Proof.
  intros H xs. induction xs as [|x xs IH]; intros [|y ys] hs hs'; cbn; try easy.
  - congruence.
  - rewrite andb_true_iff. intros [H1 H2].
    destruct (hash x) eqn:E1; [|easy]. destruct (hash_all hash xs) eqn:E2; [|easy].
    destruct (hash y) eqn:E3; [|easy]. destruct (hash_all hash ys) eqn:E4; [|easy].
    rewrite (H _ _ _ _ H1 E1 E3). rewrite (IH _ _ _ H2 eq_refl E4). congruence.
Qed.

Lemma plain_hash_consistent s t h h' :
  plain_eq are_equal s t = true ->
  plain_hash hash_value hash_str hash_kind hash_tuple s = Some h ->
  plain_hash hash_value hash_str hash_kind hash_tuple t = Some h' -> h = h'.
Proof.
  unfold plain_eq, plain_hash. rewrite andb_true_iff. intros [H1 H2].
  destruct (hash_all _ (parameters s)) eqn:E1; [|easy].
  destruct (hash_value (returns s)) eqn:E2; [|easy].
  destruct (hash_all _ (parameters t)) eqn:E3; [|easy].
  destruct (hash_value (returns t)) eqn:E4; [|easy].
  assert (El : l = l0) by (eapply hash_all_consistent;
    [intros ? ? ? ?; apply parameter_hash_consistent | eassumption ..]). rewrite El.
  rewrite (hash_consistent H2 E2 E4). congruence.
Qed.

Lemma signature_hash_consistent (s t : signature V) h h' :
  signature_eq are_equal s t = true ->
  signature_hash hash_value hash_str hash_kind hash_tuple s = Some h ->
  signature_hash hash_value hash_str hash_kind hash_tuple t = Some h' -> h = h'.
Proof.
  destruct s as [s|ss], t as [t|ts]; cbn; try easy; [apply plain_hash_consistent|].
  intros H. destruct (hash_all _ ss) eqn:E1; [|easy]. destruct (hash_all _ ts) eqn:E2; [|easy].
  assert (El : l = l0) by (eapply hash_all_consistent;
    [intros ? ? ? ?; apply plain_hash_consistent | eassumption ..]). rewrite El. cbn. congruence.
Qed.
End Equality.

End More.
