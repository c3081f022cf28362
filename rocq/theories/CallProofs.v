(** Normal forms of [expects], [all_set] and [bind] on a legal parameter list
    written as its five blocks. *)
From Verif Require Import Base Models SpecCall ModelsProofs.
Set Implicit Arguments.

Fixpoint drop_while {A} (f : A -> bool) (xs : list A) : list A :=
  match xs with
  | [] => []
  | x :: xs' => if f x then drop_while f xs' else xs
  end.

Lemma take_drop_while {A} (f : A -> bool) xs : take_while f xs ++ drop_while f xs = xs.
Proof. induction xs as [|x xs IH]; cbn; [easy|]. destruct (f x); cbn; congruence. Qed.

Lemma take_while_forall {A} (f : A -> bool) xs : Forall (fun x => f x = true) (take_while f xs).
Proof. induction xs as [|x xs IH]; cbn; [easy|]. destruct (f x) eqn:E; now constructor. Qed.

Lemma drop_while_head {A} (f : A -> bool) xs x ys : drop_while f xs = x :: ys -> f x = false.
Proof.
  induction xs as [|y xs IH]; cbn; [easy|]. destruct (f y) eqn:E; [exact IH|].
  intros H. inv H. exact E.
Qed.

Lemma drop_while_nil {A} (f : A -> bool) xs : drop_while f xs = [] <-> Forall (fun x => f x = true) xs.
Proof.
  induction xs as [|x xs IH]; cbn; [easy|]. destruct (f x) eqn:E.
  - rewrite IH. split; [now constructor | intros H; now inv H].
  - split; [easy | intros H; inv H; congruence].
Qed.

Lemma take_while_all {A} (f : A -> bool) xs : Forall (fun x => f x = true) xs -> take_while f xs = xs.
Proof. intros H. induction H as [|x xs Hx H IH]; cbn; [easy|]. rewrite Hx. now f_equal. Qed.

Lemma take_while_app_stop {A} (f : A -> bool) xs ys :
  Forall (fun x => f x = true) xs -> (forall y, In y ys -> f y = false) ->
  take_while f (xs ++ ys) = xs.
Proof.
  intros H Hy. induction H as [|x xs Hx H IH]; cbn.
  - destruct ys as [|y ys]; cbn; [easy|]. now rewrite Hy by now left.
  - rewrite Hx. now f_equal.
Qed.

Lemma filter_ext_in' {A} (f g : A -> bool) xs :
  (forall x, In x xs -> f x = g x) -> filter f xs = filter g xs.
Proof. apply filter_ext_in. Qed.

Lemma filter_all {A} (f : A -> bool) xs : (forall x, In x xs -> f x = true) -> filter f xs = xs.
Proof.
  induction xs as [|x xs IH]; cbn; intros H; [easy|].
  rewrite H by now left. f_equal. apply IH. intros y Hy. apply H. now right.
Qed.

Lemma filter_none {A} (f : A -> bool) xs : (forall x, In x xs -> f x = false) -> filter f xs = [].
Proof.
  induction xs as [|x xs IH]; cbn; intros H; [easy|].
  rewrite H by now left. apply IH. intros y Hy. apply H. now right.
Qed.

Lemma find_index_at {A} (f : A -> bool) xs x ys :
  (forall y, In y xs -> f y = false) -> f x = true -> find_index f (xs ++ x :: ys) = Some (length xs).
Proof.
  intros H Hx. induction xs as [|y xs IH]; cbn.
  - now rewrite Hx.
  - rewrite H by now left. rewrite IH; [easy|]. intros z Hz. apply H. now right.
Qed.

Lemma firstn_length_app {A} (xs ys : list A) : firstn (length xs) (xs ++ ys) = xs.
Proof. rewrite firstn_app, Nat.sub_diag, firstn_O, firstn_all. apply app_nil_r. Qed.
Lemma skipn_length_app {A} (xs ys : list A) : skipn (length xs) (xs ++ ys) = ys.
Proof. rewrite skipn_app, Nat.sub_diag, skipn_all. easy. Qed.

Lemma In_firstn {A} (x : A) n xs : In x (firstn n xs) -> In x xs.
Proof. intros H. rewrite <- (firstn_skipn n xs). apply in_or_app. now left. Qed.
Lemma In_skipn {A} (x : A) n xs : In x (skipn n xs) -> In x xs.
Proof. intros H. rewrite <- (firstn_skipn n xs). apply in_or_app. now right. Qed.

Lemma NoDup_drop_mid {A} (xs ys zs : list A) : NoDup (xs ++ ys ++ zs) -> NoDup (xs ++ zs).
Proof.
  induction xs as [|x xs IH]; cbn.
  - induction ys as [|y ys IH]; cbn; [easy|]. intros H. inv H. auto.
  - intros H. inv H. constructor; [|auto]. rewrite !in_app_iff in *. tauto.
Qed.

Lemma NoDup_app_iff {A} (xs ys : list A) :
  NoDup (xs ++ ys) <-> NoDup xs /\ NoDup ys /\ (forall x, In x xs -> In x ys -> False).
Proof.
  induction xs as [|x xs IH]; cbn.
  - split; [intros H; split; [constructor | easy] | easy].
  - split.
    + intros H. inv H. apply IH in H3 as (H3 & H4 & H5). rewrite in_app_iff in H2.
      repeat split; [constructor; tauto | easy |]. intros y [<-|Hy] Hy'; [tauto | eauto].
    + intros (H1 & H2 & H3). inv H1. constructor.
      * rewrite in_app_iff. intros [H|H]; [easy | eauto].
      * apply IH. repeat split; [easy | easy |]. intros y Hy Hy'. eauto.
Qed.

Lemma existsb_ext_in {A} (f g : A -> bool) xs :
  (forall x, In x xs -> f x = g x) -> existsb f xs = existsb g xs.
Proof.
  induction xs as [|x xs IH]; cbn; intros H; [easy|].
  rewrite H by now left. f_equal. apply IH. intros y Hy. apply H. now right.
Qed.

Lemma forallb_ext_in {A} (f g : A -> bool) xs :
  (forall x, In x xs -> f x = g x) -> forallb f xs = forallb g xs.
Proof.
  induction xs as [|x xs IH]; cbn; intros H; [easy|].
  rewrite H by now left. f_equal. apply IH. intros y Hy. apply H. now right.
Qed.

Lemma is_nil_filter_negb {A} (f : A -> bool) xs : is_nil (filter (fun x => negb (f x)) xs) = forallb f xs.
Proof. induction xs as [|x xs IH]; cbn; [easy|]. destruct (f x); cbn; easy. Qed.

Lemma bool_eq_iff (a b : bool) : (a = true <-> b = true) -> a = b.
Proof. destruct a, b; intuition congruence. Qed.

Section Calls.
Context {V : Type}.
Variable is_NONE : V -> bool.
Notation par := (parameter V).
Implicit Types (p q : par) (ps po pk vp ko vk : list par) (kwargs : dict pystr V).

Lemma Forall_skipn {A} (P : A -> Prop) n xs : Forall P xs -> Forall P (skipn n xs).
Proof. rewrite !Forall_forall. intros H x Hx. apply H. now apply In_skipn in Hx. Qed.
Lemma Forall_firstn {A} (P : A -> Prop) n xs : Forall P xs -> Forall P (firstn n xs).
Proof. rewrite !Forall_forall. intros H x Hx. apply H. now apply In_firstn in Hx. Qed.

Lemma all_kind_In k ps p : all_kind k ps -> In p ps -> p_kind p = k.
Proof. unfold all_kind. rewrite Forall_forall. auto. Qed.

Section Blocks.
Variables po pk vp ko vk : list par.
Hypothesis B : blocks po pk vp ko vk.
Let ps := po ++ pk ++ vp ++ ko ++ vk.

Ltac ofk :=
  unfold ps; rewrite !of_kind_app;
  rewrite ?(of_kind_same (b_po B)), ?(of_kind_same (b_pk B)), ?(of_kind_same (b_vp B)),
    ?(of_kind_same (b_ko B)), ?(of_kind_same (b_vk B));
  repeat match goal with
  | |- context [of_kind ?k po] => rewrite (@of_kind_other _ k _ _ (b_po B)) by easy
  | |- context [of_kind ?k pk] => rewrite (@of_kind_other _ k _ _ (b_pk B)) by easy
  | |- context [of_kind ?k vp] => rewrite (@of_kind_other _ k _ _ (b_vp B)) by easy
  | |- context [of_kind ?k ko] => rewrite (@of_kind_other _ k _ _ (b_ko B)) by easy
  | |- context [of_kind ?k vk] => rewrite (@of_kind_other _ k _ _ (b_vk B)) by easy
  end; rewrite ?app_nil_r; reflexivity.

Lemma blocks_po : of_kind POSITIONAL_ONLY ps = po. Proof. ofk. Qed.
Lemma blocks_pk : of_kind POSITIONAL_OR_KEYWORD ps = pk. Proof. ofk. Qed.
Lemma blocks_vp : of_kind VARIADIC_POSITIONAL ps = vp. Proof. ofk. Qed.
Lemma blocks_ko : of_kind KEYWORD_ONLY ps = ko. Proof. ofk. Qed.
Lemma blocks_vk : of_kind VARIADIC_KEYWORD ps = vk. Proof. ofk. Qed.

Definition rest_po n := skipn n po.
Definition rest_pk n := skipn (n - length po) pk.

Lemma rest_split n : skipn n (po ++ pk) = rest_po n ++ rest_pk n.
Proof. apply skipn_app. Qed.

Lemma rest_po_kind n : all_kind POSITIONAL_ONLY (rest_po n).
Proof. apply Forall_skipn, (b_po B). Qed.
Lemma rest_pk_kind n : all_kind POSITIONAL_OR_KEYWORD (rest_pk n).
Proof. apply Forall_skipn, (b_pk B). Qed.

Lemma rest_of_po n : of_kind POSITIONAL_ONLY (skipn n (po ++ pk)) = rest_po n.
Proof.
  rewrite rest_split, of_kind_app, (of_kind_same (rest_po_kind n)).
  rewrite (of_kind_other (rest_pk_kind n)) by easy. apply app_nil_r.
Qed.
Lemma rest_of_pk n : of_kind POSITIONAL_OR_KEYWORD (skipn n (po ++ pk)) = rest_pk n.
Proof.
  rewrite rest_split, of_kind_app, (of_kind_same (rest_pk_kind n)).
  now rewrite (of_kind_other (rest_po_kind n)) by easy.
Qed.

(** Names are pairwise distinct across blocks. *)
Lemma names_unique p q : In p ps -> In q ps -> p_name p = p_name q -> p = q.
Proof.
  pose proof (b_names B) as H. fold ps in H. clearbody ps. clear B.
  induction ps as [|x xs IH]; cbn; [easy|]. cbn in H. inv H.
  intros [<-|Hp] [<-|Hq] E; auto.
  - exfalso. apply H2. rewrite E. now apply in_map.
  - exfalso. apply H2. rewrite <- E. now apply in_map.
Qed.

Lemma names_rest n : NoDup (map p_name (rest_pk n ++ ko)).
Proof.
  pose proof (b_names B) as H. rewrite <- (firstn_skipn (n - length po) pk) in H.
  fold (rest_pk n) in H. rewrite !map_app in *.
  do 1 (apply NoDup_app_iff in H as (_ & H & _)).
  rewrite <- app_assoc in H. apply NoDup_app_iff in H as (_ & H & _).
  apply NoDup_drop_mid in H. rewrite app_assoc in H. now apply NoDup_app_iff in H.
Qed.

Lemma by_name_rest n :
  to_parameters_by_name (rest_pk n ++ ko) = map (fun p => (p_name p, p)) (rest_pk n ++ ko).
Proof.
  apply dict_of_NoDup. rewrite map_map. cbn. apply names_rest.
Qed.

Lemma keys_by_name xs : dkeys (map (fun p => (p_name p, p)) xs) = map p_name xs.
Proof. unfold dkeys. now rewrite map_map. Qed.

Definition fits (n : nat) : bool := negb (is_nil vp) || (n <=? length po + length pk).
Definition known (n : nat) kwargs : bool :=
  negb (is_nil vk) || forallb (fun kw => mem kw (map p_name (rest_pk n ++ ko))) (dkeys kwargs).

Lemma expects_nf r args kwargs :
  plain_expects (mk_plain ps r) args kwargs = fits (length args) && known (length args) kwargs.
Proof.
  unfold plain_expects. cbn [parameters].
  rewrite !at_kind_by_kind, blocks_po, blocks_pk, blocks_vp, blocks_vk, blocks_ko, rest_of_pk.
  rewrite by_name_rest, keys_by_name, app_length. unfold fits, known, has_key_outside.
  rewrite Nat.ltb_antisym, is_nil_filter_negb.
  destruct (is_nil vp), (length args <=? length po + length pk), (is_nil vk); cbn; try easy;
    destruct (forallb _ (dkeys kwargs)); easy.
Qed.

Definition supplied n kwargs : bool :=
  forallb is_optional (rest_po n)
  && forallb (fun p => is_optional p || dmem (p_name p) kwargs) (rest_pk n ++ ko).

Lemma all_set_nf r args kwargs :
  plain_all_set (mk_plain ps r) args kwargs
  = fits (length args) && known (length args) kwargs && supplied (length args) kwargs.
Proof.
  unfold plain_all_set. cbn [parameters].
  rewrite !at_kind_by_kind, blocks_po, blocks_pk, blocks_vp, blocks_vk, blocks_ko,
    rest_of_pk, rest_of_po.
  rewrite by_name_rest, keys_by_name, app_length. unfold fits, known, has_key_outside.
  rewrite Nat.ltb_antisym, is_nil_filter_negb.
  assert (E : all_parameters_are_optional
    (map snd (filter (fun np => negb (dmem (fst np) kwargs))
      (map (fun p => (p_name p, p)) (rest_pk (length args) ++ ko))))
    = forallb (fun p => is_optional p || dmem (p_name p) kwargs) (rest_pk (length args) ++ ko)).
  { generalize (rest_pk (length args) ++ ko). intros l. unfold all_parameters_are_optional.
    induction l as [|p l IH]; cbn; [easy|]. destruct (dmem (p_name p) kwargs); cbn;
      rewrite IH; destruct (is_optional p); easy. }
  rewrite E. unfold supplied, all_parameters_are_optional.
  destruct (is_nil vp), (length args <=? length po + length pk), (is_nil vk); cbn; try easy;
    destruct (forallb _ (dkeys kwargs)); easy.
Qed.

(** ** [bind] *)

(** The keyword-only version of a parameter after binding [kwargs]. *)
Definition stored (v : V) : option V := if is_NONE v then None else Some v.
Definition conv kwargs p : par :=
  match p with
  | RequiredParameter a _ n =>
      match dget n kwargs with
      | Some v => OptionalParameter a (stored v) KEYWORD_ONLY n
      | None => RequiredParameter a KEYWORD_ONLY n
      end
  | OptionalParameter a (Some d) _ n => OptionalParameter a (Some d) KEYWORD_ONLY n
  | OptionalParameter a None _ n =>
      match dget n kwargs with
      | Some v => OptionalParameter a (stored v) KEYWORD_ONLY n
      | None => OptionalParameter a None KEYWORD_ONLY n
      end
  end.

Lemma conv_name kwargs p : p_name (conv kwargs p) = p_name p.
Proof. destruct p as [a k n|a [d|] k n]; cbn; [destruct (dget n kwargs)| |destruct (dget n kwargs)]; easy. Qed.
Lemma conv_kind kwargs p : p_kind (conv kwargs p) = KEYWORD_ONLY.
Proof. destruct p as [a k n|a [d|] k n]; cbn; [destruct (dget n kwargs)| |destruct (dget n kwargs)]; easy. Qed.
Lemma conv_optional kwargs p : is_optional (conv kwargs p) = is_optional p || dmem (p_name p) kwargs.
Proof.
  unfold dmem. destruct p as [a k n|a [d|] k n]; cbn; [destruct (dget n kwargs)| |destruct (dget n kwargs)]; easy.
Qed.
Lemma conv_good kwargs p : good_parameter is_NONE p -> good_parameter is_NONE (conv kwargs p).
Proof.
  destruct p as [a k n|a [d|] k n]; cbn; [destruct (dget n kwargs)| |destruct (dget n kwargs)]; cbn;
    unfold stored; try easy; destruct (is_NONE v) eqn:E; easy.
Qed.

Lemma conv_id kwargs p :
  p_kind p = KEYWORD_ONLY -> dmem (p_name p) kwargs = false -> conv kwargs p = p.
Proof.
  unfold dmem. destruct p as [a k n|a [d|] k n]; cbn; intros ->; try destruct (dget n kwargs); easy.
Qed.

Lemma rebuild_conv kwargs names p :
  is_keywordable p = true -> good_parameter is_NONE p ->
  mem (p_name p) names = dmem (p_name p) kwargs ->
  rebuild_keyword is_NONE kwargs names p = Ok (conv kwargs p).
Proof.
  intros Hk Hg Hn. unfold rebuild_keyword. rewrite Hk, Hn. unfold dmem.
  destruct p as [a k n|a [d|] k n]; cbn in *.
  - destruct (dget n kwargs) as [v|]; [|easy]. unfold stored.
    destruct (is_NONE v); easy.
  - destruct Hg as (Hd & _). rewrite Hd. easy.
  - destruct (dget n kwargs) as [v|]; [|easy]. unfold stored.
    destruct (is_NONE v); easy.
Qed.

Definition unbound kwargs p : bool := negb (dmem (p_name p) kwargs).
Definition kept n kwargs := take_while (unbound kwargs) (rest_pk n).
Definition turned n kwargs := drop_while (unbound kwargs) (rest_pk n).
Definition vp_left n kwargs := if is_nil (turned n kwargs) then vp else [].

Definition bound_parameters n kwargs : list par :=
  rest_po n ++ kept n kwargs ++ vp_left n kwargs
  ++ map (conv kwargs) (turned n kwargs ++ ko) ++ vk.

Definition no_repeat n kwargs : bool :=
  forallb (unbound kwargs) (firstn n (po ++ pk)).

Lemma kept_turned n kwargs : kept n kwargs ++ turned n kwargs = rest_pk n.
Proof. apply take_drop_while. Qed.

Lemma In_rest_pk p n : In p (rest_pk n) -> In p pk.
Proof. apply In_skipn. Qed.
Lemma In_rest_po p n : In p (rest_po n) -> In p po.
Proof. apply In_skipn. Qed.
Lemma In_turned p n kwargs : In p (turned n kwargs) -> In p (rest_pk n).
Proof. intros H. rewrite <- (kept_turned n kwargs). apply in_or_app. now right. Qed.
Lemma In_kept p n kwargs : In p (kept n kwargs) -> In p (rest_pk n).
Proof. intros H. rewrite <- (kept_turned n kwargs). apply in_or_app. now left. Qed.

Lemma is_positionable_pos p : In p (po ++ pk) -> is_positionable p = true.
Proof.
  rewrite in_app_iff. unfold is_positionable.
  intros [H|H]; [rewrite (all_kind_In p (b_po B) H) | rewrite (all_kind_In p (b_pk B) H)]; easy.
Qed.
Lemma is_positionable_rest p : In p (vp ++ ko ++ vk) -> is_positionable p = false.
Proof.
  rewrite !in_app_iff. unfold is_positionable.
  intros [H|[H|H]]; [rewrite (all_kind_In p (b_vp B) H) | rewrite (all_kind_In p (b_ko B) H)
    | rewrite (all_kind_In p (b_vk B) H)]; easy.
Qed.

Lemma take_positionals : take_while is_positionable ps = po ++ pk.
Proof.
  unfold ps. rewrite app_assoc. apply take_while_app_stop.
  - apply Forall_forall. apply is_positionable_pos.
  - apply is_positionable_rest.
Qed.

Lemma bind_positionals_nf args kwargs hv :
  bind_positionals ps args kwargs hv
  = if (length args <=? length po + length pk) || hv then
      if no_repeat (length args) kwargs
      then Ok (rest_po (length args) ++ rest_pk (length args) ++ vp ++ ko ++ vk)
      else Err TypeError
    else Err TypeError.
Proof.
  unfold bind_positionals. rewrite take_positionals, app_length.
  assert (E : existsb (fun positional => dmem (p_name positional) kwargs)
    (firstn (length args) (po ++ pk)) = negb (no_repeat (length args) kwargs)).
  { unfold no_repeat, unbound. generalize (firstn (length args) (po ++ pk)). intros l.
    induction l as [|p l IH]; cbn; [easy|]. rewrite IH. destruct (dmem (p_name p) kwargs); easy. }
  rewrite E, rest_split. rewrite Nat.ltb_antisym.
  replace (skipn (length po + length pk) ps) with (vp ++ ko ++ vk).
  2: { unfold ps. rewrite (app_assoc po), <- app_length. now rewrite skipn_length_app. }
  rewrite <- app_assoc.
  destruct (length args <=? length po + length pk), hv, (no_repeat (length args) kwargs); easy.
Qed.

Lemma keywordable_pk p : In p pk -> is_keywordable p = true.
Proof. intros H. unfold is_keywordable. now rewrite (all_kind_In p (b_pk B) H). Qed.
Lemma keywordable_ko p : In p ko -> is_keywordable p = true.
Proof. intros H. unfold is_keywordable. now rewrite (all_kind_In p (b_ko B) H). Qed.
Lemma keywordable_po p : In p po -> is_keywordable p = false.
Proof. intros H. unfold is_keywordable. now rewrite (all_kind_In p (b_po B) H). Qed.
Lemma keywordable_vp p : In p vp -> is_keywordable p = false.
Proof. intros H. unfold is_keywordable. now rewrite (all_kind_In p (b_vp B) H). Qed.
Lemma keywordable_vk p : In p vk -> is_keywordable p = false.
Proof. intros H. unfold is_keywordable. now rewrite (all_kind_In p (b_vk B) H). Qed.

Hypothesis G : Forall (good_parameter is_NONE) ps.

Lemma good_In p : In p ps -> good_parameter is_NONE p.
Proof. rewrite Forall_forall in G. auto. Qed.

Lemma In_ps p : In p ps <-> In p po \/ In p pk \/ In p vp \/ In p ko \/ In p vk.
Proof. unfold ps. now rewrite !in_app_iff. Qed.

Lemma residual_keywordable n :
  filter is_keywordable (rest_po n ++ rest_pk n ++ vp ++ ko ++ vk) = rest_pk n ++ ko.
Proof.
  rewrite !filter_app.
  rewrite (@filter_none _ _ (rest_po n)) by (intros p H; apply In_rest_po in H; now apply keywordable_po).
  rewrite (@filter_all _ _ (rest_pk n)) by (intros p H; apply In_rest_pk in H; now apply keywordable_pk).
  rewrite (@filter_none _ _ vp) by apply keywordable_vp.
  rewrite (@filter_all _ _ ko) by apply keywordable_ko.
  rewrite (@filter_none _ _ vk) by apply keywordable_vk.
  cbn. now rewrite app_nil_r.
Qed.

Lemma bind_keywords_nf n kwargs :
  bind_keywords is_NONE (rest_po n ++ rest_pk n ++ vp ++ ko ++ vk) kwargs (negb (is_nil vk))
  = if known n kwargs then Ok (bound_parameters n kwargs) else Err TypeError.
Proof.
  unfold bind_keywords. rewrite residual_keywordable.
  set (names := map p_name (rest_pk n ++ ko)).
  set (extra := filter (fun kw => negb (mem kw names)) (dkeys kwargs)).
  assert (Eknown : negb (negb (is_nil extra) && negb (negb (is_nil vk))) = known n kwargs).
  { unfold known, extra. rewrite is_nil_filter_negb. fold names.
    destruct (forallb _ (dkeys kwargs)), (is_nil vk); easy. }
  destruct (known n kwargs);
    [apply negb_true_iff in Eknown | apply negb_false_iff in Eknown]; rewrite Eknown; [|easy].
  clear Eknown.
  set (names' := filter (fun kw => negb (mem kw extra)) (dkeys kwargs)).
  assert (Hnames' : forall kw, mem kw names' = mem kw names && dmem kw kwargs).
  { intros kw. apply bool_eq_iff. rewrite andb_true_iff, !mem_In, dmem_In. unfold names', extra.
    rewrite filter_In, negb_true_iff, mem_not_In, filter_In, negb_true_iff, mem_not_In.
    split.
    - intros [H1 H2]. split; [|easy]. destruct (mem kw names) eqn:E; [now apply mem_In|].
      exfalso. apply H2. split; [easy | now apply mem_not_In].
    - intros [H1 H2]. split; [easy|]. tauto. }
  (* names of keyword-capable survivors *)
  assert (HK : forall p, In p (rest_pk n ++ ko) -> mem (p_name p) names' = dmem (p_name p) kwargs).
  { intros p Hp. rewrite Hnames'. replace (mem (p_name p) names) with true; [easy|].
    symmetry. apply mem_In. unfold names. now apply in_map. }
  (* names of the others *)
  assert (HO : forall p, In p ps -> is_keywordable p = false -> mem (p_name p) names' = false).
  { intros p Hp Hk. rewrite Hnames'. apply andb_false_iff. left. apply mem_not_In.
    unfold names. rewrite in_map_iff. intros (q & E & Hq).
    assert (Hqk : is_keywordable q = true).
    { apply in_app_or in Hq as [Hq|Hq]; [apply keywordable_pk, (In_rest_pk _ _ Hq) | now apply keywordable_ko]. }
    assert (Hq' : In q ps).
    { apply In_ps. apply in_app_or in Hq as [Hq|Hq]; [apply In_rest_pk in Hq|]; tauto. }
    rewrite (names_unique q p Hq' Hp E) in Hqk. congruence. }
  assert (HP : forall p, In p (rest_po n) -> mem (p_name p) names' = false).
  { intros p Hp. apply In_rest_po in Hp. apply HO; [apply In_ps; tauto | now apply keywordable_po]. }
  assert (HVP : forall p, In p vp -> mem (p_name p) names' = false).
  { intros p Hp. apply HO; [apply In_ps; tauto | now apply keywordable_vp]. }
  assert (HVK : forall p, In p vk -> mem (p_name p) names' = false).
  { intros p Hp. apply HO; [apply In_ps; tauto | now apply keywordable_vk]. }
  assert (Hmap : forall l, incl l (rest_pk n ++ ko) ->
    Forall2 (fun x y => rebuild_keyword is_NONE kwargs names' x = Ok y) l (map (conv kwargs) l)).
  { intros l Hl. induction l as [|p l IH]; cbn; constructor.
    - assert (Hp : In p (rest_pk n ++ ko)) by (apply Hl; now left).
      apply rebuild_conv.
      + apply in_app_or in Hp as [Hp|Hp]; [apply keywordable_pk, (In_rest_pk _ _ Hp) | now apply keywordable_ko].
      + apply good_In, In_ps. apply in_app_or in Hp as [Hp|Hp]; [apply In_rest_pk in Hp|]; tauto.
      + now apply HK.
    - apply IH. intros q Hq. apply Hl. now right. }
  assert (Hmapvk : Forall2 (fun x y => rebuild_keyword is_NONE kwargs names' x = Ok y) vk vk).
  { assert (Hl : incl vk vk) by easy. revert Hl. generalize vk at 1 3 4. intros l Hl.
    induction l as [|p l IH]; constructor.
    - unfold rebuild_keyword. rewrite keywordable_vk; [easy|]. apply Hl. now left.
    - apply IH. intros q Hq. apply Hl. now right. }
  assert (HVPk : forall p, In p vp -> negb (p_kind p == VARIADIC_POSITIONAL) = false).
  { intros p Hp. now rewrite (all_kind_In p (b_vp B) Hp). }
  assert (HVPpk : forall p, In p (rest_pk n) -> negb (p_kind p == VARIADIC_POSITIONAL) = true).
  { intros p Hp. apply In_rest_pk in Hp. now rewrite (all_kind_In p (b_pk B) Hp). }
  assert (HVPko : forall p, In p ko -> negb (p_kind p == VARIADIC_POSITIONAL) = true).
  { intros p Hp. now rewrite (all_kind_In p (b_ko B) Hp). }
  assert (HVPvk : forall p, In p vk -> negb (p_kind p == VARIADIC_POSITIONAL) = true).
  { intros p Hp. now rewrite (all_kind_In p (b_vk B) Hp). }
  assert (Hid : forall l, incl l ko -> (forall p, In p l -> dmem (p_name p) kwargs = false) ->
    map (conv kwargs) l = l).
  { intros l Hl Hu. rewrite <- (map_id l) at 2. apply map_ext_in. intros p Hp.
    apply conv_id; [apply (all_kind_In p (b_ko B)); auto | auto]. }
  assert (Hkept : forall p, In p (kept n kwargs) -> dmem (p_name p) kwargs = false).
  { intros p Hp. pose proof (take_while_forall (unbound kwargs) (rest_pk n)) as F.
    rewrite Forall_forall in F. specialize (F p Hp). now apply negb_true_iff in F. }
  unfold bound_parameters, vp_left.
  destruct (turned n kwargs) as [|p0 turned'] eqn:Et.
  - (* nothing positional-or-keyword is bound *)
    assert (Ekept : kept n kwargs = rest_pk n).
    { rewrite <- (kept_turned n kwargs), Et. now rewrite app_nil_r. }
    rewrite Ekept. cbn [is_nil app].
    pose proof (take_drop_while (unbound kwargs) ko) as Eko.
    pose proof (take_while_forall (unbound kwargs) ko) as Fko. rewrite Forall_forall in Fko.
    destruct (drop_while (unbound kwargs) ko) as [|k0 ko'] eqn:Ed.
    + rewrite app_nil_r in Eko. rewrite Eko in Fko.
      assert (E : is_nil names' = true).
      { destruct names' as [|kw ?] eqn:En; [easy|]. exfalso.
        assert (Hkw : mem kw names' = true) by (rewrite En; cbn; unfold mem; cbn; now rewrite eqb_refl).
        rewrite <- En in *. clear En. rewrite Hnames' in Hkw. apply andb_true_iff in Hkw as [H1 H2].
        apply mem_In in H1. unfold names in H1. apply in_map_iff in H1 as (q & <- & Hq).
        apply in_app_or in Hq as [Hq|Hq].
        - rewrite <- Ekept in Hq. apply Hkept in Hq. congruence.
        - apply Fko in Hq. unfold unbound in Hq. apply negb_true_iff in Hq. congruence. }
      rewrite E. rewrite Hid; [easy | easy |]. intros p Hp. apply Fko in Hp. now apply negb_true_iff in Hp.
    + pose proof (drop_while_head _ _ Ed) as Hk0. unfold unbound in Hk0. apply negb_false_iff in Hk0.
      assert (Hk0in : In k0 ko) by (rewrite <- Eko; apply in_or_app; right; now left).
      assert (En0 : mem (p_name k0) names' = true).
      { rewrite HK; [easy|]. apply in_or_app. now right. }
      assert (E : is_nil names' = false).
      { destruct names'; [discriminate | easy]. }
      rewrite E.
      set (ko1 := take_while (unbound kwargs) ko) in *.
      assert (Hlay : rest_po n ++ rest_pk n ++ vp ++ ko ++ vk
        = (rest_po n ++ rest_pk n ++ vp ++ ko1) ++ k0 :: ko' ++ vk).
      { rewrite <- Eko. now rewrite <- !app_assoc. }
      rewrite Hlay, find_index_at; [| |exact En0].
      2: { intros p Hp. rewrite !in_app_iff in Hp. destruct Hp as [Hp|[Hp|[Hp|Hp]]]; auto.
           - rewrite HK by (apply in_or_app; now left). rewrite <- Ekept in Hp. auto.
           - rewrite HK. + apply Fko in Hp. now apply negb_true_iff in Hp.
             + apply in_or_app. right. rewrite <- Eko. apply in_or_app. now left. }
      rewrite firstn_length_app, skipn_length_app.
      replace (k0 :: ko' ++ vk) with ((k0 :: ko') ++ vk) by easy.
      rewrite filter_all.
      2: { intros p Hp. apply in_app_or in Hp as [Hp|Hp]; [|auto]. apply HVPko.
           rewrite <- Eko. apply in_or_app. now right. }
      rewrite (proj2 (map_m_ok _ _ (map (conv kwargs) (k0 :: ko') ++ vk))).
      2: { apply Forall2_app; [|exact Hmapvk]. apply Hmap. intros p Hp. apply in_or_app. right.
           rewrite <- Eko. apply in_or_app. now right. }
      unfold bind_res. f_equal. rewrite <- Eko. rewrite map_app, (Hid ko1).
      * now rewrite <- !app_assoc.
      * intros p Hp. rewrite <- Eko. apply in_or_app. now left.
      * intros p Hp. apply Fko in Hp. now apply negb_true_iff in Hp.
  - pose proof (drop_while_head _ _ Et) as Hp0. unfold unbound in Hp0. apply negb_false_iff in Hp0.
    assert (Hp0in : In p0 (rest_pk n)) by (apply (In_turned _ n kwargs); rewrite Et; now left).
    assert (En0 : mem (p_name p0) names' = true).
    { rewrite HK; [easy|]. apply in_or_app. now left. }
    assert (E : is_nil names' = false).
    { destruct names'; [discriminate | easy]. }
    rewrite E. cbn [is_nil app].
    rewrite <- (kept_turned n kwargs). rewrite Et.
    assert (Hlay : rest_po n ++ (kept n kwargs ++ p0 :: turned') ++ vp ++ ko ++ vk
      = (rest_po n ++ kept n kwargs) ++ p0 :: turned' ++ vp ++ ko ++ vk).
    { now rewrite <- !app_assoc. }
    rewrite Hlay, find_index_at; [| |exact En0].
    2: { intros p Hp. rewrite !in_app_iff in Hp. destruct Hp as [Hp|Hp]; auto.
         rewrite HK by (apply in_or_app; left; now apply In_kept in Hp). auto. }
    rewrite firstn_length_app, skipn_length_app.
    replace (p0 :: turned' ++ vp ++ ko ++ vk) with ((p0 :: turned') ++ vp ++ ko ++ vk) by easy.
    rewrite !filter_app.
    rewrite (@filter_all _ _ (p0 :: turned')).
    2: { intros p Hp. rewrite <- Et in Hp. apply HVPpk. now apply In_turned in Hp. }
    rewrite (filter_none _ _ HVPk), (filter_all _ _ HVPko), (filter_all _ _ HVPvk).
    rewrite (proj2 (map_m_ok _ _ (map (conv kwargs) ((p0 :: turned') ++ ko) ++ vk))).
    2: { cbn [app]. rewrite app_assoc. change (p0 :: (turned' ++ ko) ++ vk) with ((p0 :: turned' ++ ko) ++ vk).
         apply Forall2_app; [|exact Hmapvk]. apply (Hmap ((p0 :: turned') ++ ko)).
         intros p Hp. apply in_app_or in Hp as [Hp|Hp]; apply in_or_app; [left|now right].
         rewrite <- Et in Hp. now apply In_turned in Hp. }
    unfold bind_res. f_equal. now rewrite <- !app_assoc.
Qed.

Lemma NoDup_skip_front {A} n (xs ys : list A) : NoDup (xs ++ ys) -> NoDup (skipn n xs ++ ys).
Proof.
  rewrite <- (firstn_skipn n xs) at 1. rewrite <- app_assoc. intros H. now apply NoDup_app_iff in H.
Qed.

Lemma bound_blocks n kwargs :
  blocks (rest_po n) (kept n kwargs) (vp_left n kwargs)
    (map (conv kwargs) (turned n kwargs ++ ko)) vk.
Proof.
  constructor.
  - apply rest_po_kind.
  - apply Forall_forall. intros p Hp. apply In_kept in Hp.
    pose proof (rest_pk_kind n) as F. exact (all_kind_In p F Hp).
  - unfold vp_left. destruct (is_nil _); [apply (b_vp B) | constructor].
  - apply Forall_forall. intros p Hp. apply in_map_iff in Hp as (q & <- & _). apply conv_kind.
  - apply (b_vk B).
  - unfold vp_left. destruct (is_nil _); [apply (b_vp1 B) | cbn; lia].
  - apply (b_vk1 B).
  - assert (H : NoDup (map p_name (rest_po n ++ kept n kwargs ++ turned n kwargs ++ vp ++ ko ++ vk))).
    { pose proof (kept_turned n kwargs) as E. rewrite (app_assoc (kept n kwargs)), E.
      generalize (b_names B). rewrite !map_app. unfold rest_po, rest_pk. rewrite <- !skipn_map.
      intros H. apply NoDup_skip_front. rewrite <- (firstn_skipn (n - length po) (map p_name pk)) in H.
      rewrite <- app_assoc in H. now apply NoDup_drop_mid in H. }
    rewrite !map_app in *. rewrite !map_map.
    rewrite (map_ext _ _ (conv_name kwargs)), (map_ext _ _ (conv_name kwargs)).
    unfold vp_left. destruct (is_nil (turned n kwargs)) eqn:En.
    + apply is_nil_true in En. rewrite En in *. cbn [map app] in *. exact H.
    + clear En. change (map p_name (@nil par)) with (@nil pystr). rewrite app_nil_l, <- app_assoc.
      rewrite (app_assoc (map p_name (kept n kwargs))), app_assoc in H |- *.
      now apply NoDup_drop_mid in H.
  - assert (H : ForallOrdPairs (fun p q => is_required q = true -> is_required p = true)
      (skipn n (po ++ pk))) by (apply FOP_skip, (b_opt B)).
    rewrite rest_split, <- (kept_turned n kwargs), app_assoc in H. now apply FOP_app in H.
Qed.

Lemma bound_good n kwargs : Forall (good_parameter is_NONE) (bound_parameters n kwargs).
Proof.
  apply Forall_forall. intros p Hp. unfold bound_parameters in Hp.
  rewrite !in_app_iff in Hp. destruct Hp as [Hp|[Hp|[Hp|[Hp|Hp]]]].
  - apply good_In, In_ps. apply In_rest_po in Hp. tauto.
  - apply good_In, In_ps. apply In_kept, In_rest_pk in Hp. tauto.
  - unfold vp_left in Hp. destruct (is_nil _); [|easy]. apply good_In, In_ps. tauto.
  - apply in_map_iff in Hp as (q & <- & Hq). apply conv_good, good_In, In_ps.
    apply in_app_or in Hq as [Hq|Hq]; [apply In_turned, In_rest_pk in Hq|]; tauto.
  - apply good_In, In_ps. tauto.
Qed.

Lemma bound_good_list n kwargs : good_list (bound_parameters n kwargs).
Proof.
  apply good_list_blocks. do 5 eexists. split; [|apply (bound_blocks n kwargs)]. reflexivity.
Qed.

Theorem bind_nf r args kwargs :
  plain_bind is_NONE (mk_plain ps r) args kwargs
  = if fits (length args) && no_repeat (length args) kwargs && known (length args) kwargs
    then Ok (mk_plain (bound_parameters (length args) kwargs) r)
    else Err TypeError.
Proof.
  unfold plain_bind. cbn [parameters returns].
  rewrite !at_kind_by_kind, blocks_vp, blocks_vk, bind_positionals_nf.
  rewrite orb_comm. fold (fits (length args)).
  destruct (fits (length args)); [|easy]. cbn [andb].
  destruct (no_repeat (length args) kwargs); [|easy]. cbn [bind_res andb].
  rewrite bind_keywords_nf. destruct (known (length args) kwargs); [|easy]. cbn [bind_res].
  apply new_plain_Ok. split; [apply bound_good_list | reflexivity].
Qed.

End Blocks.
End Calls.
