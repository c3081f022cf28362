(** Laws of [bind]: completability, shape, composition, residual calls. *)
From Verif Require Import Base Models SpecCall ModelsProofs CallProofs CallTheorems.
Set Implicit Arguments.

Lemma skipn_skipn {A} x y (l : list A) : skipn x (skipn y l) = skipn (x + y) l.
Proof.
  revert l. induction y as [|y IH]; intros l; [now rewrite Nat.add_0_r|].
  rewrite Nat.add_succ_r. destruct l; cbn; [apply skipn_nil | apply IH].
Qed.

Section Laws.
Context {V : Type}.
Variable is_NONE : V -> bool.
Notation par := (parameter V).
Notation sig := (plain_signature V).
Implicit Types (p q : par) (ps po pk vp ko vk : list par) (kwargs : dict pystr V) (s : sig).

Ltac blocks_of s po pk vp ko vk B G :=
  let H := fresh in
  match goal with
  | Hs : built_plain is_NONE s |- _ =>
      pose proof (built_blocks Hs) as H;
      destruct H as (po & pk & vp & ko & vk & H & B & G);
      let r := fresh "r" in
      remember (returns s) as r eqn:Er; clear Er; subst s
  end.

(** ** [merge] *)
Lemma dkeys_merge kw (k1 k2 : dict pystr V) :
  In kw (dkeys (merge k1 k2)) <-> In kw (dkeys k1) \/ In kw (dkeys k2).
Proof.
  unfold merge. revert k1. induction k2 as [|[n v] k2 IH]; intros k1; [cbn; tauto|].
  change (dkeys ((n, v) :: k2)) with (n :: dkeys k2). cbn [fold_left fst snd In].
  rewrite IH, dkeys_dset. destruct (dmem n k1) eqn:E.
  - apply dmem_In in E. split; [tauto|]. intros [H|[<-|H]]; auto.
  - rewrite in_app_iff. cbn. tauto.
Qed.

Lemma dmem_merge kw (k1 k2 : dict pystr V) : dmem kw (merge k1 k2) = dmem kw k1 || dmem kw k2.
Proof. apply bool_eq_iff. rewrite orb_true_iff, !dmem_In. apply dkeys_merge. Qed.

Lemma dget_merge kw (k1 k2 : dict pystr V) :
  legal_kwargs k2 ->
  dget kw (merge k1 k2) = match dget kw k2 with Some v => Some v | None => dget kw k1 end.
Proof.
  unfold merge, legal_kwargs. revert k1. induction k2 as [|[n v] k2 IH]; intros k1 Hnd; [easy|].
  cbn [fold_left fst snd]. cbn in Hnd. inversion Hnd as [|? ? Hn Hnd']; subst.
  rewrite IH by easy. rewrite dget_dset, dget_cons.
  destruct (eqb_reflect kw n) as [->|]; [|easy].
  now rewrite (proj2 (dget_None n k2)).
Qed.

Lemma legal_merge (k1 k2 : dict pystr V) : legal_kwargs k1 -> legal_kwargs (merge k1 k2).
Proof.
  unfold legal_kwargs, merge. revert k1. induction k2 as [|[n v] k2 IH]; intros k1 H; [easy|].
  cbn [fold_left fst snd]. apply IH. now apply NoDup_dset.
Qed.

(** ** Prefixes *)
Lemma rest_pk_incl po pk n m p : n <= m -> In p (rest_pk po pk m) -> In p (rest_pk po pk n).
Proof.
  unfold rest_pk. intros Hle H.
  replace (m - length po) with ((m - length po - (n - length po)) + (n - length po)) in H by lia.
  rewrite <- skipn_skipn in H. now apply In_skipn in H.
Qed.

Lemma expects_prefix s args more kwargs more_kwargs :
  built_plain is_NONE s ->
  plain_expects s (args ++ more) (merge kwargs more_kwargs) = true ->
  plain_expects s args kwargs = true.
Proof.
  intros Hs. blocks_of s po pk vp ko vk B G.
  rewrite !(expects_nf B), !andb_true_iff, !known_spec, app_length.
  intros [H1 H2]. split.
  - unfold fits in *. rewrite orb_true_iff, Nat.leb_le in *. destruct H1; [now left | right; lia].
  - destruct H2 as [H2|H2]; [now left | right]. intros kw Hkw.
    specialize (H2 kw). rewrite dkeys_merge in H2. specialize (H2 (or_introl Hkw)).
    rewrite in_map_iff in *. destruct H2 as (p & E & Hp). exists p. split; [easy|].
    rewrite in_app_iff in *. destruct Hp; [left | now right].
    now apply (@rest_pk_incl po pk _ (length args + length more)); [lia|].
Qed.

(** ** Completability *)
Lemma expects_completable s args kwargs :
  built_plain is_NONE s -> legal_kwargs kwargs ->
  (takes_extra_keywords (sviews s) -> ~ clash (sviews s) (length args) (dkeys kwargs)) ->
  plain_expects s args kwargs = true <-> completable (sviews s) (length args) (dkeys kwargs).
Proof.
  intros Hs Hk. blocks_of s po pk vp ko vk B G. unfold sviews. cbn [parameters]. intros Hc.
  rewrite (expects_nf B), andb_true_iff. set (n := length args) in *. split.
  - intros [Hf Hkn].
    set (missing := filter (fun p => negb (dmem (p_name p) kwargs)) (rest_pk po pk n ++ ko)).
    set (more := map (fun p => (p_name p, r)) missing).
    assert (Emore : dkeys more = map p_name missing).
    { unfold more, dkeys. now rewrite map_map. }
    assert (Eall : dkeys kwargs ++ dkeys more = dkeys (kwargs ++ more)).
    { unfold dkeys. now rewrite map_app. }
    exists (length po - n), (dkeys more).
    assert (Erest : rest_pk po pk (n + (length po - n)) = rest_pk po pk n).
    { unfold rest_pk. f_equal. lia. }
    split.
    + apply NoDup_app_iff. split; [easy|]. split.
      * rewrite Emore. unfold missing. pose proof (names_rest B n) as H.
        clear - H. induction (rest_pk po pk n ++ ko) as [|p l IH]; cbn in *; [constructor|].
        inversion H as [|? ? Hn Hnd]; subst. destruct (negb _); [|auto]. cbn. constructor; [|auto].
        rewrite in_map_iff in *. intros (q & E & Hq). apply Hn. exists q.
        apply filter_In in Hq. easy.
      * rewrite Emore. intros kw Hkw Hin. apply in_map_iff in Hin as (p & <- & Hp).
        apply filter_In in Hp as [_ Hp]. apply negb_true_iff, dmem_not_In in Hp. easy.
    + rewrite Eall. unfold accepts.
      rewrite (positionals_fit_nf B), (nothing_missing_nf B G).
      repeat split.
      * unfold fits in *. rewrite orb_true_iff, Nat.leb_le in *. destruct Hf; [now left | right; lia].
      * apply (known_keywords_fit B).
        -- intros Hx. rewrite (clash_spec B). specialize (Hc Hx). rewrite (clash_spec B) in Hc.
           intros (p & Hp & Hfp & Hn). apply Hc. exists p.
           assert (Hfp' : In p (firstn n (po ++ pk))).
           { destruct (@keyword_cases _ po pk ko n p) as [H|H]; [apply in_or_app; now left | easy |].
             exfalso. assert (H' : In p (rest_pk po pk (n + (length po - n)) ++ ko)) by now rewrite Erest.
             apply (open_keyword B) in H' as [_ H']. easy. }
           repeat split; [easy | easy |].
           rewrite <- Eall, in_app_iff in Hn. destruct Hn as [Hn|Hn]; [easy|].
           exfalso. rewrite Emore in Hn. apply in_map_iff in Hn as (q & E & Hq).
           apply filter_In in Hq as [Hq _]. apply (open_keyword B) in Hq as [Hq Hq'].
           apply Hq'. rewrite (names_unique B q p); [easy | | |easy].
           ++ rewrite in_app_iff in Hq. rewrite !in_app_iff. tauto.
           ++ rewrite !in_app_iff. tauto.
        -- rewrite known_spec in *. destruct Hkn as [Hkn|Hkn]; [now left | right].
           intros kw. rewrite <- Eall, in_app_iff, Erest. intros [H|H]; [auto|].
           rewrite Emore in H. apply in_map_iff in H as (p & <- & Hp).
           apply filter_In in Hp as [Hp _]. now apply in_map.
      * unfold supplied. rewrite andb_true_iff, !forallb_forall. split.
        -- intros p Hp. unfold rest_po in Hp. rewrite skipn_all2 in Hp; [easy | lia].
        -- rewrite Erest. intros p Hp. rewrite orb_true_iff, dmem_In, <- Eall, in_app_iff, Emore.
           right. destruct (dmem (p_name p) kwargs) eqn:E; [left; now apply dmem_In | right].
           apply in_map. apply filter_In. split; [easy | now rewrite E].
  - intros (n' & kws' & Hnd & Ha).
    assert (Eall : dkeys kwargs ++ kws' = dkeys (kwargs ++ map (fun kw => (kw, r)) kws')).
    { unfold dkeys. rewrite map_app, map_map. cbn. now rewrite map_id. }
    rewrite Eall in Ha. destruct Ha as (H1 & H2 & _).
    apply (positionals_fit_nf B) in H1. apply (keywords_fit_known B) in H2. split.
    + unfold fits in *. rewrite orb_true_iff, Nat.leb_le in *. destruct H1; [now left | right; lia].
    + rewrite known_spec in *. destruct H2 as [H2|H2]; [now left | right].
      intros kw Hkw. rewrite <- Eall in H2. specialize (H2 kw (in_or_app _ _ _ (or_introl Hkw))).
      rewrite in_map_iff in *. destruct H2 as (p & E & Hp). exists p. split; [easy|].
      rewrite in_app_iff in *. destruct Hp; [left | now right].
      now apply (@rest_pk_incl po pk _ (n + n')); [lia|].
Qed.

(** ** Two steps *)
Section Steps.
Variables po pk vp ko vk : list par.
Hypothesis B : blocks po pk vp ko vk.
Hypothesis G : Forall (good_parameter is_NONE) (po ++ pk ++ vp ++ ko ++ vk).
Variables (n1 n2 : nat) (k1 k2 : dict pystr V).
Hypothesis F1 : fits po pk vp n1 = true.
Hypothesis R1 : no_repeat po pk n1 k1 = true.
Hypothesis K1 : known po pk ko vk n1 k1 = true.

Let po1 := rest_po po n1.
Let pk1 := kept po pk n1 k1.
Let vp1 := vp_left po pk vp n1 k1.
Let tu1 := turned po pk n1 k1.
Let ko1 := map (conv is_NONE k1) (tu1 ++ ko).
Let k12 := merge k1 k2.

Lemma po_two : rest_po po1 n2 = rest_po po (n1 + n2).
Proof. unfold po1, rest_po. rewrite skipn_skipn. f_equal. lia. Qed.

Lemma pk_two : rest_pk po1 (rest_pk po pk n1) n2 = rest_pk po pk (n1 + n2).
Proof. unfold rest_pk, po1, rest_po. rewrite skipn_length, skipn_skipn. f_equal. lia. Qed.

(** the second step leaves the keyword-only part of the first alone *)
Definition in_range : bool := is_nil tu1 || (n2 <=? length po1 + length pk1).

Lemma rest_kept : in_range = true ->
  rest_pk po pk (n1 + n2) = rest_pk po1 pk1 n2 ++ tu1.
Proof.
  unfold in_range. rewrite orb_true_iff, is_nil_true, Nat.leb_le. intros H.
  rewrite <- pk_two. rewrite <- (kept_turned po pk n1 k1). fold pk1 tu1.
  unfold rest_pk. rewrite skipn_app. f_equal. destruct H as [->|H]; [now rewrite skipn_nil|].
  replace (n2 - length po1 - length pk1) with 0 by lia. easy.
Qed.

Lemma kept_unbound p : In p pk1 -> dmem (p_name p) k1 = false.
Proof.
  intros Hp. pose proof (take_while_forall (unbound k1) (rest_pk po pk n1)) as F.
  rewrite Forall_forall in F. specialize (F p Hp). now apply negb_true_iff in F.
Qed.

Lemma rest_unbound p : In p (rest_pk po1 pk1 n2) -> dmem (p_name p) k1 = false.
Proof. intros Hp. apply In_rest_pk in Hp. now apply kept_unbound. Qed.

Lemma turned_head p l : tu1 = p :: l -> dmem (p_name p) k1 = true.
Proof. intros E. apply drop_while_head in E. now apply negb_false_iff in E. Qed.

(** the parameter that blocks further positionals *)
Lemma out_of_range : in_range = false ->
  exists p, In p pk /\ In p (firstn (n1 + n2) (po ++ pk)) /\ dmem (p_name p) k1 = true.
Proof.
  unfold in_range. rewrite orb_false_iff, Nat.leb_gt. intros [Ht Hn].
  destruct tu1 as [|p l] eqn:Et; [easy|]. exists p. split; [|split].
  - assert (H : In p tu1) by (rewrite Et; now left). apply In_turned, In_rest_pk in H. easy.
  - assert (E : skipn n1 (po ++ pk) = (po1 ++ pk1) ++ p :: l).
    { rewrite rest_split. fold po1. rewrite <- (kept_turned po pk n1 k1). fold pk1 tu1.
      rewrite Et. now rewrite app_assoc. }
    rewrite <- (firstn_skipn n1 (po ++ pk)), E.
    assert (Hlen : length (firstn n1 (po ++ pk)) <= n1) by (rewrite firstn_length; lia).
    rewrite firstn_app. apply in_or_app. right. rewrite firstn_app. apply in_or_app. right.
    rewrite app_length. destruct (n1 + n2 - _ - _) eqn:En; [lia | now left].
  - now apply (turned_head Et).
Qed.

Lemma fits_two : in_range = true -> fits po1 pk1 vp1 n2 = fits po pk vp (n1 + n2).
Proof.
  intros HR. apply bool_eq_iff.
  unfold fits in *. rewrite orb_true_iff, is_nil_false, Nat.leb_le in F1.
  rewrite !orb_true_iff, !is_nil_false, !Nat.leb_le.
  unfold in_range in HR. rewrite orb_true_iff, is_nil_true, Nat.leb_le in HR.
  assert (Hpo1 : length po1 = length po - n1) by (unfold po1, rest_po; now rewrite skipn_length).
  assert (Hpk1 : length pk1 + length tu1 = length pk - (n1 - length po)).
  { rewrite <- app_length. unfold pk1, tu1. rewrite kept_turned. unfold rest_pk. now rewrite skipn_length. }
  unfold vp1, vp_left. fold tu1.
  destruct tu1 as [|p l] eqn:Et; cbn [is_nil length] in *.
  - split; (intros [H|H]; [now left|]).
    + destruct F1 as [F|F]; [now left | right; lia].
    + right. lia.
  - destruct HR as [HR|HR]; [easy|]. split.
    + intros _. right. lia.
    + intros _. right. lia.
Qed.

Lemma conv_names l k : map p_name (map (conv is_NONE k) l) = map p_name l.
Proof. rewrite map_map. apply map_ext. apply conv_name. Qed.

Lemma open_two : in_range = true ->
  map p_name (rest_pk po1 pk1 n2 ++ ko1) = map p_name (rest_pk po pk (n1 + n2) ++ ko).
Proof.
  intros H. rewrite (rest_kept H). unfold ko1. rewrite !map_app, !conv_names, !app_assoc. easy.
Qed.

Lemma k1_open : in_range = true -> forall p, In p (rest_pk po pk n1 ++ ko) ->
  dmem (p_name p) k1 = true -> In p (rest_pk po pk (n1 + n2) ++ ko).
Proof.
  intros HR p Hp Hd. rewrite in_app_iff in *. destruct Hp as [Hp|Hp]; [left | now right].
  rewrite (rest_kept HR). apply in_or_app. right.
  rewrite <- (kept_turned po pk n1 k1) in Hp. apply in_app_or in Hp as [Hp|Hp]; [|easy].
  apply kept_unbound in Hp. congruence.
Qed.

Lemma known_two : in_range = true ->
  known po1 pk1 ko1 vk n2 k2 = known po pk ko vk (n1 + n2) k12.
Proof.
  intros HR. apply bool_eq_iff. rewrite !known_spec in *. rewrite (open_two HR).
  destruct K1 as [K|K]; [tauto|]. split.
  - intros [H|H]; [now left | right]. intros kw. unfold k12. rewrite dkeys_merge.
    intros [Hkw|Hkw]; [|auto].
    pose proof (K kw Hkw) as Hin. apply in_map_iff in Hin as (p & <- & Hp).
    apply in_map. apply (k1_open HR); [easy | now apply dmem_In].
  - intros [H|H]; [now left | right]. intros kw Hkw. apply H. unfold k12. rewrite dkeys_merge. now right.
Qed.

Lemma supplied_two : in_range = true ->
  supplied po1 pk1 ko1 n2 k2 = supplied po pk ko (n1 + n2) k12.
Proof.
  intros HR. unfold supplied. rewrite po_two. f_equal. rewrite (rest_kept HR).
  unfold ko1. rewrite <- app_assoc, !forallb_app. f_equal.
  - apply forallb_ext_in. intros p Hp. unfold k12. rewrite dmem_merge.
    now rewrite (rest_unbound p Hp).
  - rewrite <- forallb_app. induction (tu1 ++ ko) as [|p l IH]; cbn; [easy|]. rewrite IH.
    rewrite conv_optional, conv_name. unfold k12. rewrite dmem_merge.
    now rewrite orb_assoc.
Qed.

Definition filled_names_free : Prop :=
  vk <> [] -> forall p, In p (firstn (n1 + n2) (po ++ pk)) ->
    ~ In (p_name p) (dkeys k1) /\ ~ In (p_name p) (dkeys k2).

Lemma known_unfilled n k p :
  vk = [] -> known po pk ko vk n k = true -> In p (firstn n (po ++ pk)) -> ~ In (p_name p) (dkeys k).
Proof.
  intros Hvk H Hp Hin. apply known_spec in H as [H|H]; [easy|].
  specialize (H _ Hin). apply in_map_iff in H as (q & E & Hq).
  apply (open_keyword B) in Hq as [Hq Hq']. apply Hq'.
  rewrite (names_unique B q p); [easy | | | easy].
  - rewrite !in_app_iff in *. tauto.
  - apply In_firstn in Hp. rewrite !in_app_iff in *. tauto.
Qed.

Lemma firstn_two : in_range = true ->
  firstn n2 (po1 ++ pk1) = firstn n2 (skipn n1 (po ++ pk)).
Proof.
  unfold in_range. rewrite orb_true_iff, is_nil_true, Nat.leb_le. intros H.
  rewrite rest_split. fold po1. rewrite <- (kept_turned po pk n1 k1). fold pk1 tu1.
  rewrite app_assoc, (firstn_app _ (po1 ++ pk1)). destruct H as [->|H].
  - now rewrite firstn_nil, app_nil_r.
  - rewrite app_length. replace (n2 - (length po1 + length pk1)) with 0 by lia.
    now rewrite firstn_O, app_nil_r.
Qed.

Lemma firstn_sum {A} a b (xs : list A) : firstn (a + b) xs = firstn a xs ++ firstn b (skipn a xs).
Proof.
  revert xs. induction a as [|a IH]; intros xs; cbn; [easy|].
  destruct xs as [|x xs]; cbn; [now rewrite firstn_nil|]. now rewrite IH.
Qed.

Lemma repeat_two : in_range = true -> filled_names_free ->
  known po pk ko vk (n1 + n2) k12 = true ->
  no_repeat po1 pk1 n2 k2 = no_repeat po pk (n1 + n2) k12.
Proof.
  intros HR HF HK. unfold no_repeat in *. rewrite (firstn_two HR), firstn_sum, forallb_app.
  assert (E1 : forallb (unbound k12) (firstn n1 (po ++ pk)) = true).
  { apply forallb_forall. intros p Hp. unfold unbound. apply negb_true_iff, dmem_not_In.
    assert (Hp' : In p (firstn (n1 + n2) (po ++ pk))) by (rewrite firstn_sum; apply in_or_app; now left).
    destruct (is_nil vk) eqn:Ev.
    - apply is_nil_true in Ev. now apply (@known_unfilled (n1 + n2)).
    - unfold k12. rewrite dkeys_merge.
      destruct (HF (proj1 (is_nil_false vk) (f_equal negb Ev)) p Hp'). tauto. }
  rewrite E1. cbn. apply forallb_ext_in. intros p Hp. unfold unbound, k12. rewrite dmem_merge.
  replace (dmem (p_name p) k1) with false; [easy|]. symmetry. apply dmem_not_In.
  assert (Hp' : In p (firstn (n1 + n2) (po ++ pk))) by (rewrite firstn_sum; apply in_or_app; now right).
  destruct (is_nil vk) eqn:Ev.
  - apply is_nil_true in Ev. intros H.
    apply (@known_unfilled (n1 + n2) k12 p); auto. unfold k12. rewrite dkeys_merge. now left.
  - destruct (HF (proj1 (is_nil_false vk) (f_equal negb Ev)) p Hp'). tauto.
Qed.

Hypothesis L2 : legal_kwargs k2.
Hypothesis Disjoint : forall kw, In kw (dkeys k1) -> ~ In kw (dkeys k2).

Lemma dget_none_of kw (k : dict pystr V) : dmem kw k = false -> dget kw k = None.
Proof. unfold dmem. now destruct (dget kw k). Qed.

Lemma conv_two p : conv is_NONE k2 (conv is_NONE k1 p) = conv is_NONE k12 p.
Proof.
  assert (D : forall n, dget n k1 <> None -> dget n k2 = None).
  { intros n Hn. apply dget_None. apply Disjoint. destruct (dget n k1) eqn:E; [|easy].
    apply dmem_In. unfold dmem. now rewrite E. }
  destruct p as [a k n|a [d|] k n]; cbn; unfold k12; rewrite ?dget_merge by easy; try easy.
  - specialize (D n). destruct (dget n k1) as [v|]; cbn; [|now destruct (dget n k2)].
    rewrite D by easy. unfold stored. destruct (is_NONE v); cbn; [now rewrite ?D by easy | easy].
  - specialize (D n). destruct (dget n k1) as [v|]; cbn; [|now destruct (dget n k2)].
    rewrite D by easy. unfold stored. destruct (is_NONE v); cbn; [now rewrite ?D by easy | easy].
Qed.

Lemma conv_second p : dmem (p_name p) k1 = false -> conv is_NONE k2 p = conv is_NONE k12 p.
Proof.
  intros H. apply dget_none_of in H.
  destruct p as [a k n|a [d|] k n]; cbn in *; unfold k12; rewrite ?dget_merge by easy; try easy;
    rewrite H; now destruct (dget n k2).
Qed.

Lemma take_while_ext {A} (f g : A -> bool) xs :
  (forall x, In x xs -> f x = g x) -> take_while f xs = take_while g xs.
Proof.
  induction xs as [|x xs IH]; cbn; intros H; [easy|]. rewrite H by now left.
  destruct (g x); [|easy]. f_equal. apply IH. intros y Hy. apply H. now right.
Qed.
Lemma drop_while_ext {A} (f g : A -> bool) xs :
  (forall x, In x xs -> f x = g x) -> drop_while f xs = drop_while g xs.
Proof.
  induction xs as [|x xs IH]; cbn; intros H; [easy|]. rewrite H by now left.
  destruct (g x); [|easy]. apply IH. intros y Hy. apply H. now right.
Qed.
Lemma take_while_stop {A} (f : A -> bool) xs ys :
  match ys with [] => True | y :: _ => f y = false end ->
  take_while f (xs ++ ys) = take_while f xs.
Proof.
  intros H. induction xs as [|x xs IH]; cbn.
  - destruct ys; cbn; [easy | now rewrite H].
  - destruct (f x); [now f_equal | easy].
Qed.
Lemma drop_while_stop {A} (f : A -> bool) xs ys :
  match ys with [] => True | y :: _ => f y = false end ->
  drop_while f (xs ++ ys) = drop_while f xs ++ ys.
Proof.
  intros H. induction xs as [|x xs IH]; cbn.
  - destruct ys; cbn; [easy | now rewrite H].
  - destruct (f x); [exact IH | easy].
Qed.

Lemma tu1_stop : match tu1 with [] => True | p :: _ => unbound k12 p = false end.
Proof.
  destruct tu1 as [|p l] eqn:E; [easy|]. unfold unbound. apply negb_false_iff.
  unfold k12. rewrite dmem_merge. now rewrite (turned_head E).
Qed.

Lemma unbound_two p : In p (rest_pk po1 pk1 n2) -> unbound k12 p = unbound k2 p.
Proof. intros H. unfold unbound, k12. rewrite dmem_merge. now rewrite (rest_unbound p H). Qed.

Lemma bound_two : in_range = true ->
  bound_parameters is_NONE po1 pk1 vp1 ko1 vk n2 k2
  = bound_parameters is_NONE po pk vp ko vk (n1 + n2) k12.
Proof.
  intros HR. unfold bound_parameters. rewrite po_two. f_equal.
  assert (Ek : kept po pk (n1 + n2) k12 = kept po1 pk1 n2 k2).
  { unfold kept at 1. rewrite (rest_kept HR), take_while_stop by apply tu1_stop.
    apply take_while_ext. apply unbound_two. }
  assert (Et : turned po pk (n1 + n2) k12 = turned po1 pk1 n2 k2 ++ tu1).
  { unfold turned at 1. rewrite (rest_kept HR), drop_while_stop by apply tu1_stop.
    f_equal. apply drop_while_ext. apply unbound_two. }
  rewrite Ek. f_equal. unfold vp_left. rewrite Et. f_equal.
  - unfold vp1, vp_left. fold tu1. destruct (turned po1 pk1 n2 k2); [|easy]. easy.
  - f_equal. rewrite <- app_assoc, !(map_app _ (turned po1 pk1 n2 k2)). unfold ko1.
    rewrite map_map. f_equal.
    + apply map_ext_in. intros p Hp. apply conv_second. apply In_turned in Hp. now apply rest_unbound.
    + apply map_ext. intros p. apply conv_two.
Qed.
End Steps.

Lemma bind_Ok s args kwargs s' :
  built_plain is_NONE s -> plain_bind is_NONE s args kwargs = Ok s' ->
  exists po pk vp ko vk,
    s = mk_plain (po ++ pk ++ vp ++ ko ++ vk) (returns s) /\ blocks po pk vp ko vk
    /\ Forall (good_parameter is_NONE) (po ++ pk ++ vp ++ ko ++ vk)
    /\ fits po pk vp (length args) = true
    /\ no_repeat po pk (length args) kwargs = true
    /\ known po pk ko vk (length args) kwargs = true
    /\ s' = mk_plain (bound_parameters is_NONE po pk vp ko vk (length args) kwargs) (returns s).
Proof.
  intros Hs E. destruct (built_blocks Hs) as (po & pk & vp & ko & vk & Es & B & G).
  exists po, pk, vp, ko, vk. rewrite Es in E. rewrite (bind_nf B G) in E.
  destruct (fits _ _ _ _) eqn:E1; [|easy]. destruct (no_repeat _ _ _ _) eqn:E2; [|easy].
  destruct (known _ _ _ _ _ _) eqn:E3; [|easy]. cbn in E. inv E.
  split; [exact Es|]. split; [exact B|]. split; [exact G|]. auto.
Qed.

Lemma bind_bind s a1 a2 k1 k2 :
  built_plain is_NONE s -> legal_kwargs k2 ->
  (forall kw, In kw (dkeys k1) -> ~ In kw (dkeys k2)) ->
  (takes_extra_keywords (sviews s) ->
   ~ names_filled (sviews s) (length a1 + length a2) (dkeys k1 ++ dkeys k2)) ->
  (let* s1 := plain_bind is_NONE s a1 k1 in plain_bind is_NONE s1 a2 k2)
  = plain_bind is_NONE s (a1 ++ a2) (merge k1 k2).
Proof.
  intros Hs L2 HD. blocks_of s po pk vp ko vk B G. unfold sviews. cbn [parameters].
  rewrite (extra_keywords B), (names_filled_spec B). intros HF.
  rewrite !(bind_nf B G), app_length.
  assert (HF' : filled_names_free po pk vk (length a1) (length a2) k1 k2).
  { intros Hvk p Hp. specialize (HF Hvk). split; intros H; apply HF; exists p; rewrite in_app_iff; auto. }
  destruct (fits po pk vp (length a1)) eqn:F1; cbn [andb bind_res].
  2: { replace (fits po pk vp (length a1 + length a2)) with false; [easy|].
       symmetry. unfold fits in *. apply orb_false_iff in F1 as [E1 E2].
       rewrite E1. cbn. apply Nat.leb_gt in E2. apply Nat.leb_gt. lia. }
  destruct (no_repeat po pk (length a1) k1) eqn:R1; cbn [andb bind_res].
  2: { destruct (no_repeat po pk (length a1 + length a2) (merge k1 k2)) eqn:R2;
         [|now rewrite andb_false_r].
       exfalso. rewrite (no_repeat_spec B), (names_filled_spec B) in R2.
       assert (R1' : no_repeat po pk (length a1) k1 = true); [|congruence].
       rewrite (no_repeat_spec B), (names_filled_spec B). intros (p & Hp & Hn).
       apply R2. exists p. rewrite firstn_sum, in_app_iff, dkeys_merge. auto. }
  destruct (known po pk ko vk (length a1) k1) eqn:K1; cbn [andb bind_res].
  2: { destruct (known po pk ko vk (length a1 + length a2) (merge k1 k2)) eqn:K2;
         [|now rewrite andb_false_r].
       exfalso. assert (K1' : known po pk ko vk (length a1) k1 = true); [|congruence].
       apply known_spec in K2. apply known_spec. destruct K2 as [K2|K2]; [now left | right].
       intros kw Hkw. specialize (K2 kw). rewrite dkeys_merge in K2. specialize (K2 (or_introl Hkw)).
       rewrite in_map_iff in *. destruct K2 as (p & E & Hp). exists p. split; [easy|].
       rewrite in_app_iff in *. destruct Hp; [left | now right].
       now apply (@rest_pk_incl po pk _ (length a1 + length a2)); [lia|]. }
  unfold bound_parameters at 1.
  rewrite (bind_nf (bound_blocks is_NONE B (length a1) k1)) by (apply bound_good; exact G).
  destruct (in_range po pk (length a1) (length a2) k1) eqn:HR.
  - rewrite (fits_two po pk vp ko) by assumption.
    rewrite known_two by assumption.
    destruct (known po pk ko vk (length a1 + length a2) (merge k1 k2)) eqn:K2;
      [|now rewrite !andb_false_r].
    rewrite (@repeat_two po pk vp ko vk B) by assumption.
    rewrite bound_two by assumption. reflexivity.
  - (* a positional argument would fill a keyword-bound parameter *)
    destruct (out_of_range po pk ko _ _ _ HR) as (p & Hp & Hf & Hd).
    replace (fits (rest_po po (length a1)) (kept po pk (length a1) k1)
      (vp_left po pk vp (length a1) k1) (length a2)) with false.
    2: { symmetry. unfold in_range in HR. apply orb_false_iff in HR as [HR1 HR2].
         unfold fits, vp_left. rewrite HR1, HR2. easy. }
    replace (no_repeat po pk (length a1 + length a2) (merge k1 k2)) with false;
      [now rewrite andb_false_r|].
    symmetry. apply not_true_is_false. rewrite (no_repeat_spec B), (names_filled_spec B).
    intros H. apply H. exists p. rewrite dkeys_merge. split; [easy|]. left. now apply dmem_In.
Qed.

(** ** Residual calls *)
Lemma residual s a1 a2 k1 k2 s1 :
  built_plain is_NONE s ->
  plain_bind is_NONE s a1 k1 = Ok s1 ->
  (takes_extra_keywords (sviews s) ->
   ~ clash (sviews s) (length a1 + length a2) (dkeys k1 ++ dkeys k2)) ->
  plain_expects s1 a2 k2 = plain_expects s (a1 ++ a2) (merge k1 k2)
  /\ plain_all_set s1 a2 k2 = plain_all_set s (a1 ++ a2) (merge k1 k2).
Proof.
  intros Hs E HC.
  destruct (bind_Ok _ _ Hs E) as (po & pk & vp & ko & vk & Es & B & G & F1 & R1 & K1 & ->).
  rewrite Es in *. unfold sviews in HC. cbn [parameters] in HC.
  rewrite (extra_keywords B), (clash_spec B) in HC. clear E Hs Es.
  unfold bound_parameters. cbn [returns].
  rewrite !(expects_nf B), !(all_set_nf B), app_length.
  rewrite !(expects_nf (bound_blocks is_NONE B (length a1) k1)).
  rewrite !(all_set_nf (bound_blocks is_NONE B (length a1) k1)).
  destruct (in_range po pk (length a1) (length a2) k1) eqn:HR.
  - rewrite (fits_two po pk vp ko) by assumption.
    rewrite known_two by assumption.
    rewrite supplied_two by assumption. easy.
  - destruct (out_of_range po pk ko _ _ _ HR) as (p & Hp & Hf & Hd).
    replace (fits (rest_po po (length a1)) (kept po pk (length a1) k1)
      (vp_left po pk vp (length a1) k1) (length a2)) with false.
    2: { symmetry. unfold in_range in HR. apply orb_false_iff in HR as [HR1 HR2].
         unfold fits, vp_left. rewrite HR1, HR2. easy. }
    replace (known po pk ko vk (length a1 + length a2) (merge k1 k2)) with false;
      [now rewrite !andb_false_r|].
    symmetry. apply not_true_is_false. intros K2.
    destruct (is_nil vk) eqn:Ev.
    + apply is_nil_true in Ev.
      apply (@known_unfilled po pk vp ko vk B (length a1 + length a2) (merge k1 k2) p Ev K2 Hf).
      rewrite dkeys_merge. left. now apply dmem_In.
    + apply HC; [now apply is_nil_false; rewrite Ev|]. exists p. rewrite in_app_iff.
      repeat split; auto. left. now apply dmem_In.
Qed.

End Laws.
