(** Proofs about texts of annotations. *)
From Verif Require Import Base Models SpecCall ModelsProofs ModelsMore PyText PyExpr PyExprProofs Pretty PrettyProofs SpecText TextProofs RawProofs Annotated SpecValue AnnotatedProofs AnnotationText SpecAnnotationText.
Set Implicit Arguments.

(** ** Simple values *)
Fixpoint simple (v : value) : bool :=
  match v with
  | PClass _ | PObject _ | PBareAlias _ _ | PString _ | PNumber _ _ | PTypeVar _ _ _ _ _ _ => true
  | PAlias _ args => forallb simple args
  | PSequence TBytearray _ => false
  | PSequence _ xs => forallb simple xs
  | _ => false
  end.
Fixpoint ids (v : value) : list N :=
  match v with
  | PTypeVar i _ _ _ _ _ => [i]
  | PAlias _ args => flat_map ids args
  | PSequence _ xs => flat_map ids xs
  | _ => []
  end.
Definition arrange (o : ident) (args : list value) : list value :=
  if o == UNION then match args with [a; b] => if is_none_type a then [b; a] else [a; b] | _ => args end else args.
Fixpoint norm (v : value) : value :=
  match v with
  | PAlias o args => PAlias o (arrange o (map norm args))
  | PSequence t xs => PSequence t (map norm xs)
  | _ => v
  end.

Lemma forallb_Forall {A} (f : A -> bool) l : forallb f l = true <-> Forall (fun a => f a = true) l.
Proof. rewrite forallb_forall, Forall_forall. reflexivity. Qed.
Lemma existsb_arrange f o l : existsb f (arrange o l) = existsb f l.
Proof.
  unfold arrange. destruct (o == UNION); [|reflexivity]. destruct l as [|a [|b [|? ?]]]; try reflexivity.
  destruct (is_none_type a); [|reflexivity]. cbn. destruct (f a), (f b); reflexivity.
Qed.
Lemma forallb_arrange f o l : forallb f (arrange o l) = forallb f l.
Proof.
  unfold arrange. destruct (o == UNION); [|reflexivity]. destruct l as [|a [|b [|? ?]]]; try reflexivity.
  destruct (is_none_type a); [|reflexivity]. cbn. destruct (f a), (f b); reflexivity.
Qed.
Lemma arrange_other o l : (o == UNION) = false -> arrange o l = l.
Proof. unfold arrange. now intros ->. Qed.
Lemma existsb_map {A B} (f : B -> bool) (g : A -> B) l : existsb f (map g l) = existsb (fun a => f (g a)) l.
Proof. induction l; cbn; congruence. Qed.
Lemma forallb_map {A B} (f : B -> bool) (g : A -> B) l : forallb f (map g l) = forallb (fun a => f (g a)) l.
Proof. induction l; cbn; congruence. Qed.
Lemma existsb_ext_in {A} (f g : A -> bool) l : (forall a, In a l -> f a = g a) -> existsb f l = existsb g l.
Proof. induction l as [|a l IH]; cbn; intros H; [reflexivity|]. rewrite H, IH; auto. Qed.
Lemma forallb_ext_in {A} (f g : A -> bool) l : (forall a, In a l -> f a = g a) -> forallb f l = forallb g l.
Proof. induction l as [|a l IH]; cbn; intros H; [reflexivity|]. rewrite H, IH; auto. Qed.
Lemma all_map2_norm (f g : value -> value -> bool) xs : forall ys, (forall a b, In a xs -> In b ys -> f (norm a) (norm b) = g a b) ->
  all_map2 f (map norm xs) (map norm ys) = all_map2 g xs ys.
Proof.
  induction xs as [|x xs IH]; intros ys H; [reflexivity|]. destruct ys as [|y ys]; [reflexivity|]. cbn [map all_map2].
  rewrite H, IH; auto; [|now left|now left]. intros a b Ha Hb. apply H; now right.
Qed.
Lemma type_tag_norm v : type_tag (norm v) = type_tag v.
Proof. destruct v; try reflexivity; now destruct ty. Qed.
Lemma same_nan_simple a b : simple a = true -> same_nan a b = false.
Proof. now destruct a. Qed.

Lemma py_eq_norm x : forall y, simple x = true -> simple y = true -> py_eq (norm x) (norm y) = py_eq x y.
Proof.
  induction x as [i|i|i o|o args IH|o args IH|args IH|t xs IH|s|s|t z|i|i n b c d cs _ _|i n b c d _|o _|o _|i n s _] using value_ind';
    intros y Sx Sy; try discriminate Sx; try (destruct y as [?|?|? ?|? ?|? ?|?|[] ?|?|?|? ?|?|? ? ? ? ? ?|? ? ? ? ?|?|?|? ? ?]; try discriminate Sy; reflexivity).
  - destruct y as [?|?|? ?|o' args'|? ?|?|[] ?|?|?|? ?|?|? ? ? ? ? ?|? ? ? ? ?|?|?|? ? ?]; try discriminate Sy; try reflexivity.
    cbn [simple] in Sx, Sy. rewrite forallb_forall in Sx, Sy. rewrite Forall_forall in IH.
    assert (E : forall a b, In a args -> In b args' -> (same_nan (norm a) (norm b) || py_eq (norm a) (norm b)) = (same_nan a b || py_eq a b)).
    { intros a b Ha Hb. rewrite (same_nan_simple _ b (Sx a Ha)).
      assert (S : same_nan (norm a) (norm b) = false) by (destruct a; try reflexivity; now specialize (Sx _ Ha)).
      rewrite S. cbn. now apply IH; auto. }
    cbn [norm py_eq]. destruct (eqb_reflect o o') as [<-|]; [|reflexivity]. cbn [andb].
    destruct (o == UNION) eqn:U.
    + rewrite !forallb_arrange, !forallb_map. f_equal; apply forallb_ext_in; intros a Ha; rewrite existsb_arrange, existsb_map; apply existsb_ext_in; intros b Hb; now apply E.
    + rewrite !arrange_other by exact U. destruct (o == LITERAL).
      * rewrite !forallb_map. f_equal; apply forallb_ext_in; intros a Ha; rewrite existsb_map; apply existsb_ext_in; intros b Hb;
          unfold same_type; rewrite !type_tag_norm; f_equal; now apply E.
      * rewrite !map_length. f_equal. apply all_map2_norm. intros a b Ha Hb. now apply E.
  - destruct y as [?|?|? ?|o' args'|? ?|?|t' ys|?|?|? ?|?|? ? ? ? ? ?|? ? ? ? ?|?|?|? ? ?]; try (destruct t; discriminate Sx || reflexivity); try discriminate Sy.
    assert (Sx' : forallb simple xs = true) by (destruct t; [exact Sx|exact Sx|discriminate Sx]).
    assert (Sy' : forallb simple ys = true) by (destruct t'; [exact Sy|exact Sy|discriminate Sy]).
    rewrite forallb_forall in Sx', Sy'. rewrite Forall_forall in IH.
    assert (E : forall a b, In a xs -> In b ys -> (same_nan (norm a) (norm b) || py_eq (norm a) (norm b)) = (same_nan a b || py_eq a b)).
    { intros a b Ha Hb. rewrite (same_nan_simple _ b (Sx' a Ha)).
      assert (S : same_nan (norm a) (norm b) = false) by (destruct a; try reflexivity; now specialize (Sx' _ Ha)).
      rewrite S. cbn. now apply IH; auto. }
    cbn [norm]. destruct t, t'; try discriminate; cbn [py_eq sequence_type_eqb andb]; try reflexivity;
      rewrite !map_length; f_equal; apply all_map2_norm; intros a b Ha Hb; now apply E.
Qed.

Lemma all_map2_ids (k : N) xs : forall ys, length xs =? length ys = true ->
  (forall a b, In a xs -> In b ys -> (same_nan a b || py_eq a b) = true -> (In k (ids a) <-> In k (ids b))) ->
  all_map2 (fun a b => same_nan a b || py_eq a b) xs ys = true -> (In k (flat_map ids xs) <-> In k (flat_map ids ys)).
Proof.
  induction xs as [|x xs IH]; intros [|y ys] L H A; try discriminate L; [reflexivity|]. cbn [flat_map all_map2] in *.
  apply andb_true_iff in A. destruct A as [A1 A2]. rewrite !in_app_iff, (H x y) by (auto; now left). rewrite (IH ys); try easy.
  intros a b Ha Hb. apply H; now right.
Qed.
Lemma mutual_ids (k : N) (f : value -> value -> bool) xs ys :
  (forall a b, In a xs -> In b ys -> f a b = true -> (In k (ids a) <-> In k (ids b))) ->
  forallb (fun a => existsb (fun b => f a b) ys) xs && forallb (fun b => existsb (fun a => f a b) xs) ys = true ->
  (In k (flat_map ids xs) <-> In k (flat_map ids ys)).
Proof.
  intros H A. apply andb_true_iff in A. destruct A as [A1 A2]. rewrite forallb_forall in A1, A2. rewrite !in_flat_map. split.
  - intros (a & Ha & Hk). specialize (A1 a Ha). apply existsb_exists in A1. destruct A1 as (b & Hb & E). exists b. split; [exact Hb|]. now apply (H a b).
  - intros (b & Hb & Hk). specialize (A2 b Hb). apply existsb_exists in A2. destruct A2 as (a & Ha & E). exists a. split; [exact Ha|]. now apply (H a b).
Qed.
Lemma py_eq_ids k x : forall y, simple x = true -> simple y = true -> py_eq x y = true -> (In k (ids x) <-> In k (ids y)).
Proof.
  induction x as [i|i|i o|o args IH|o args IH|args IH|t xs IH|s|s|t z|i|i n b c d cs _ _|i n b c d _|o _|o _|i n s _] using value_ind';
    intros y Sx Sy E; try discriminate Sx;
    try (destruct y as [?|?|? ?|? ?|? ?|?|[] ?|?|?|? ?|?|? ? ? ? ? ?|? ? ? ? ?|?|?|? ? ?]; try discriminate Sy; try discriminate E; cbn; tauto).
  - destruct y as [?|?|? ?|o' args'|? ?|?|[] ?|?|?|? ?|?|? ? ? ? ? ?|? ? ? ? ?|?|?|? ? ?]; try discriminate Sy; try discriminate E.
    cbn [simple] in Sx, Sy. rewrite forallb_forall in Sx, Sy. rewrite Forall_forall in IH.
    assert (G : forall a b, In a args -> In b args' -> (same_nan a b || py_eq a b) = true -> (In k (ids a) <-> In k (ids b))).
    { intros a b Ha Hb. rewrite (same_nan_simple _ b (Sx a Ha)). cbn. intros P. apply IH; auto. }
    cbn [ids]. cbn [py_eq] in E. apply andb_true_iff in E. destruct E as [_ E]. destruct (o == UNION); [|destruct (o == LITERAL)].
    + now apply (@mutual_ids k (fun a b => same_nan a b || py_eq a b) args args').
    + apply (@mutual_ids k (fun a b => same_type a b && (same_nan a b || py_eq a b)) args args'); [|exact E].
      intros a b Ha Hb P. apply andb_true_iff in P. now apply G.
    + apply andb_true_iff in E. destruct E as [E1 E2]. now apply all_map2_ids.
  - destruct y as [?|?|? ?|o' args'|? ?|?|t' ys|?|?|? ?|?|? ? ? ? ? ?|? ? ? ? ?|?|?|? ? ?]; try (destruct t; discriminate Sx || discriminate E); try discriminate Sy.
    assert (Sx' : forallb simple xs = true) by (destruct t; [exact Sx|exact Sx|discriminate Sx]).
    assert (Sy' : forallb simple ys = true) by (destruct t'; [exact Sy|exact Sy|discriminate Sy]).
    rewrite forallb_forall in Sx', Sy'. rewrite Forall_forall in IH. cbn [ids].
    assert (E' : (length xs =? length ys) && all_map2 (fun a b => same_nan a b || py_eq a b) xs ys = true).
    { destruct t, t'; try discriminate; cbn [py_eq] in E; apply andb_true_iff in E; easy. }
    apply andb_true_iff in E'. destruct E' as [E1 E2]. apply all_map2_ids; [exact E1| |exact E2].
    intros a b Ha Hb. rewrite (same_nan_simple _ b (Sx' a Ha)). cbn. intros P. apply IH; auto.
  - destruct y as [?|?|? ?|? ?|? ?|?|[] ?|?|?|? ?|?|? ? ? ? ? ?|? ? ? ? ?|?|?|? ? ?]; try discriminate Sy; try discriminate E.
    cbn [py_eq] in E. apply eqb_to_eq in E. now subst.
Qed.

(** ** Copies: the same up to new type variables and the order of optional types *)
Definition atom (v : value) : bool :=
  match v with PClass _ | PObject _ | PBareAlias _ _ | PString _ | PNumber _ _ => true | _ => false end.
Inductive copy : value -> value -> Prop :=
| cp_atom v : atom v = true -> copy v v
| cp_list xs ys : Forall2 copy xs ys -> copy (PSequence TList xs) (PSequence TList ys)
| cp_tuple xs ys : Forall2 copy xs ys -> copy (PSequence TTuple xs) (PSequence TTuple ys)
| cp_var i j n b b' c d cs cs' : copy b b' -> Forall2 copy cs cs' -> copy (PTypeVar i n b c d cs) (PTypeVar j n b' c d cs')
| cp_alias o xs ys : Forall2 copy xs ys -> (forall x, o = UNION -> xs <> [PClass NONE_TYPE; x]) -> copy (PAlias o xs) (PAlias o ys)
| cp_optional x y : copy x y -> copy (PAlias UNION [PClass NONE_TYPE; x]) (PAlias UNION [y; PClass NONE_TYPE]).

Lemma Forall2_length {A B} (R : A -> B -> Prop) xs ys : Forall2 R xs ys -> length xs = length ys.
Proof. induction 1; cbn; congruence. Qed.
Lemma Forall2_Forall_both {A B} (R Q : A -> B -> Prop) xs ys : Forall (fun x => forall y, R x y -> Q x y) xs -> Forall2 R xs ys -> Forall2 Q xs ys.
Proof. intros H F. induction F; inversion H; subst; constructor; auto. Qed.

Lemma copy_equal x : forall y, copy x y -> are_equal x y = true.
Proof.
  induction x as [i|i|i o|o args IH|o args IH|args IH|t xs IH|s|s|t z|i|i n b c d cs IHb IH|i n b c d _|o _|o _|i n s _] using value_ind';
    intros y C; inversion C as [v Av| xs' ys F|xs' ys F|i' j n' b0 b' c' d' cs0 cs' Cb F|o' xs' ys F N|x' y' C']; subst; try discriminate Av;
    try (apply are_equal_refl; reflexivity).
  - assert (F' : Forall2 (fun a b => are_equal a b = true) args ys) by (eapply Forall2_Forall_both; eassumption || auto).
    cbn [are_equal origin_or_self to_arguments]. rewrite eqb_refl, (Forall2_length F), Nat.eqb_refl. cbn [andb].
    destruct ((o == UNION) || (o == LITERAL)).
    + apply andb_true_iff. rewrite !forallb_forall. split.
      * intros a Ha. apply existsb_exists. clear -F' Ha. induction F' as [|x y l l' H F IH]; [easy|].
        destruct Ha as [<-|Ha]; [exists y; split; [now left|exact H]|]. destruct (IH Ha) as (b & Hb & E). exists b. split; [now right|exact E].
      * intros a Ha. apply existsb_exists. clear -F' Ha. induction F' as [|x y l l' H F IH]; [easy|].
        destruct Ha as [<-|Ha]; [exists x; split; [now left|exact H]|]. destruct (IH Ha) as (b & Hb & E). exists b. split; [now right|exact E].
    + clear -F'. induction F' as [|x y l l' H F IH]; [reflexivity|]. cbn [all_map2]. now rewrite H, IH.
  - inversion IH as [|? ? _ IH']; subst. inversion IH' as [|? ? IHx _]; subst. specialize (IHx _ C').
    cbn [are_equal origin_or_self to_arguments length]. rewrite eqb_refl. cbn [andb Nat.eqb orb]. change (UNION == UNION) with true. cbn [orb].
    cbn [forallb existsb]. rewrite IHx. rewrite (are_equal_refl (PClass NONE_TYPE)) by reflexivity. rewrite !orb_true_r. reflexivity.
  - cbn [are_equal sequence_type_eqb]. rewrite (Forall2_length F), Nat.eqb_refl. cbn [andb].
    clear C. induction F as [|x y l l' H F IHF]; [reflexivity|]. inversion IH; subst. cbn [all_map2]. rewrite H2 by assumption. cbn [andb]. now apply IHF.
  - cbn [are_equal sequence_type_eqb]. rewrite (Forall2_length F), Nat.eqb_refl. cbn [andb].
    clear C. induction F as [|x y l l' H F IHF]; [reflexivity|]. inversion IH; subst. cbn [all_map2]. rewrite H2 by assumption. cbn [andb]. now apply IHF.
  - cbn [are_equal]. rewrite !eqb_refl, (IHb _ Cb), (Forall2_length F), Nat.eqb_refl. cbn [andb].
    clear C. induction F as [|x y l l' H F IHF]; [reflexivity|]. inversion IH; subst. cbn [all_map2]. rewrite H2 by assumption. cbn [andb]. now apply IHF.
Qed.
Lemma copy_tag x y : copy x y -> type_tag y = type_tag x.
Proof. intros C. now inversion C. Qed.
Lemma copy_tags xs ys : Forall2 copy xs ys -> map type_tag ys = map type_tag xs.
Proof. intros F. induction F as [|x y l l' C F IH]; cbn [map]; [reflexivity|]. now rewrite IH, (copy_tag C). Qed.
Lemma copy_norm x : forall y, copy x y -> ids y = [] -> y = norm x.
Proof.
  assert (L : forall xs ys, Forall (fun x => forall y, copy x y -> ids y = [] -> y = norm x) xs -> Forall2 copy xs ys -> flat_map ids ys = [] -> ys = map norm xs).
  { intros xs ys H F. induction F as [|a b l l' C F IH]; cbn [flat_map map]; [reflexivity|]. intros E. apply app_eq_nil in E. destruct E as [E1 E2].
    inversion H; subst. f_equal; auto. }
  induction x as [i|i|i o|o args IH|o args IH|args IH|t xs IH|s|s|t z|i|i n b c d cs _ _|i n b c d _|o _|o _|i n s _] using value_ind';
    intros y C E; inversion C as [v Av| xs' ys F|xs' ys F|i' j n' b0 b' c' d' cs0 cs' Cb F|o' xs' ys F N|x' y' C']; subst; try discriminate Av; try reflexivity; try discriminate E; cbn [ids norm] in *.
  - rewrite (L _ _ IH F E). f_equal. unfold arrange. destruct (eqb_reflect o UNION) as [->|]; [|reflexivity].
    destruct args as [|a [|b [|? ?]]]; try reflexivity. cbn [map]. destruct (is_none_type (norm a)) eqn:Na; [|reflexivity].
    destruct a; try discriminate Na; cbn in Na. apply eqb_to_eq in Na. subst. now destruct (N b).
  - inversion IH as [|? ? _ IH']; subst. inversion IH' as [|? ? IHx _]; subst. cbn [flat_map] in E. rewrite !app_nil_r in E.
    rewrite (IHx _ C' E). reflexivity.
  - now rewrite (L _ _ IH F E).
  - now rewrite (L _ _ IH F E).
Qed.
Lemma copy_simple x : forall y, copy x y -> simple y = true.
Proof.
  assert (L : forall xs ys, Forall (fun x => forall y, copy x y -> simple y = true) xs -> Forall2 copy xs ys -> forallb simple ys = true).
  { intros xs ys H F. induction F as [|a b l l' C F IH]; cbn [forallb]; [reflexivity|]. inversion H; subst. apply andb_true_iff. split; auto. }
  induction x as [i|i|i o|o args IH|o args IH|args IH|t xs IH|s|s|t z|i|i n b c d cs _ _|i n b c d _|o _|o _|i n s _] using value_ind';
    intros y C; inversion C as [v Av| xs' ys F|xs' ys F|i' j n' b0 b' c' d' cs0 cs' Cb F|o' xs' ys F N|x' y' C']; subst; try discriminate Av; try reflexivity; cbn [simple]; eauto.
  inversion IH as [|? ? _ IH']; subst. inversion IH' as [|? ? IHx _]; subst. cbn. now rewrite (IHx _ C').
Qed.
Lemma copied_simple x : forall y, copy x y -> simple x = true.
Proof.
  assert (L : forall xs ys, Forall (fun x => forall y, copy x y -> simple x = true) xs -> Forall2 copy xs ys -> forallb simple xs = true).
  { intros xs ys H F. induction F as [|a b l l' C F IH]; cbn [forallb]; [reflexivity|]. inversion H; subst. apply andb_true_iff. split; eauto. }
  induction x as [i|i|i o|o args IH|o args IH|args IH|t xs IH|s|s|t z|i|i n b c d cs _ _|i n b c d _|o _|o _|i n s _] using value_ind';
    intros y C; inversion C as [v Av| xs' ys F|xs' ys F|i' j n' b0 b' c' d' cs0 cs' Cb F|o' xs' ys F N|x' y' C']; subst; try discriminate Av; try reflexivity; cbn [simple]; eauto.
  inversion IH as [|? ? _ IH']; subst. inversion IH' as [|? ? IHx _]; subst. cbn. now rewrite (IHx _ C').
Qed.

(** Fresh copies differ where the originals do. *)
Definition between (n n' : N) (v : value) : Prop := forall k, In k (ids v) -> (n <= k < n')%N.
Lemma copies_differ x x' y y' n1 n2 n3 n4 : copy x y -> copy x' y' -> between n1 n2 y -> between n3 n4 y' -> (n2 <= n3)%N ->
  py_eq x x' = false -> py_eq y y' = false.
Proof.
  intros C C' B B' L N. destruct (py_eq y y') eqn:E; [|reflexivity]. exfalso.
  assert (I : forall k, In k (ids y) <-> In k (ids y')) by (intros k; apply py_eq_ids; eauto using copy_simple).
  assert (Ey : ids y = []).
  { destruct (ids y) as [|k l] eqn:Ey; [reflexivity|]. assert (Hk : In k (ids y)) by (rewrite Ey; now left).
    pose proof (B k Hk). rewrite <- Ey in I. apply I in Hk. pose proof (B' k Hk). lia. }
  assert (Ey' : ids y' = []).
  { destruct (ids y') as [|k l] eqn:Ey'; [reflexivity|]. assert (Hk : In k (k :: l)) by now left. apply I in Hk. rewrite Ey in Hk. destruct Hk. }
  rewrite (copy_norm C Ey), (copy_norm C' Ey'), py_eq_norm in E by eauto using copied_simple. congruence.
Qed.

Lemma distinct_id same vs : forall seen, (forall s v, In s seen -> In v vs -> same s v = false) ->
  ForallOrdPairs (fun a b => same a b = false) vs -> distinct same seen vs = vs.
Proof.
  induction vs as [|v vs IH]; intros seen H F; [reflexivity|]. inversion F as [|? ? Fv F']; subst. cbn [distinct].
  replace (existsb (fun s => same s v) seen) with false.
  2:{ symmetry. destruct (existsb (fun s => same s v) seen) eqn:E; [|reflexivity]. apply existsb_exists in E. destruct E as (s & Hs & E).
      rewrite H in E; [discriminate|exact Hs|now left]. }
  f_equal. apply IH; [|exact F']. intros s w Hs Hw. apply in_app_or in Hs. destruct Hs as [Hs|[<-|[]]]; [apply H; [exact Hs|now right]|].
  rewrite Forall_forall in Fv. now apply Fv.
Qed.

(** ** Copies keep what typing looks at *)
Lemma no_cycle o v : v <> PAlias o [v].
Proof.
  induction v using value_ind'; try discriminate. intros E. injection E as -> E. rewrite E in *.
  match goal with H : Forall _ _ |- _ => inversion H as [|? ? Hv _] end. apply Hv. now f_equal.
Qed.
Lemma convert_list xs : convert (PSequence TList xs) = option_map (PSequence TList) (convert_all xs).
Proof. reflexivity. Qed.
Lemma convert_all_each vs : convert_all vs = Some vs <-> Forall (fun v => convert v = Some v) vs.
Proof.
  induction vs as [|v vs IH]; [now split|]. cbn [convert_all]. split.
  - destruct (convert v) as [y|] eqn:E; [|discriminate]. destruct (convert_all vs) as [ys|]; [|discriminate].
    intros H. injection H as -> ->. constructor; [exact E|]. now apply IH.
  - intros F. inversion F as [|? ? Hv F']; subst. rewrite Hv. apply IH in F'. now rewrite F'.
Qed.
Lemma copy_convert x : forall y, copy x y -> convert x = Some x -> convert y = Some y.
Proof.
  induction x as [i|i|i o|o args IH|o args IH|args IH|t xs IH|s|s|t z|i|i n b c d cs IHb IH|i n b c d _|o _|o _|i n s _] using value_ind';
    intros y C; inversion C as [v Av| xs' ys F|xs' ys F|i' j n' b0 b' c' d' cs0 cs' Cb F|o' xs' ys F N|x' y' C']; subst; try discriminate Av; auto.
  - rewrite !convert_list. intros E. destruct (convert_all xs) as [zs|] eqn:Z; [|discriminate]. injection E as ->.
    replace (convert_all ys) with (Some ys); [reflexivity|]. symmetry. apply convert_all_each. apply convert_all_each in Z.
    clear C. induction F as [|a b l l' H F IHF]; [constructor|]. inversion Z; inversion IH; subst. constructor; auto.
  - discriminate.
Qed.
Lemma copies_convert xs ys : Forall2 copy xs ys -> convert_all xs = Some xs -> convert_all ys = Some ys.
Proof.
  intros F H. apply convert_all_each. apply convert_all_each in H. induction F; [constructor|]. inversion H; subst. constructor; eauto using copy_convert.
Qed.
Lemma copy_union_members x y : copy x y -> union_members x = [x] -> union_members y = [y].
Proof.
  intros C; inversion C as [v Av| xs' ys F|xs' ys F|i' j n' b0 b' c' d' cs0 cs' Cb F|o' xs' ys F N|x' y' C']; subst; auto; cbn.
  - destruct (eqb_reflect o' UNION) as [->|]; [|reflexivity]. intros E. exfalso. apply (@no_cycle UNION (PAlias UNION xs')). now f_equal.
  - discriminate.
Qed.
Lemma copy_literal_members x y : copy x y -> literal_members x = [x] -> literal_members y = [y].
Proof.
  intros C; inversion C as [v Av| xs' ys F|xs' ys F|i' j n' b0 b' c' d' cs0 cs' Cb F|o' xs' ys F N|x' y' C']; subst; auto; cbn.
  destruct (eqb_reflect o' LITERAL) as [->|]; [|reflexivity]. intros E. exfalso. apply (@no_cycle LITERAL (PAlias LITERAL xs')). now f_equal.
Qed.
Lemma members_all (f : value -> list value) xs : Forall (fun x => f x = [x]) xs -> flat_map f xs = xs.
Proof. induction 1 as [|x xs H F IH]; cbn; [reflexivity|]. now rewrite H, IH. Qed.
Lemma copies_forall (P : value -> Prop) xs ys : (forall x y, copy x y -> P x -> P y) -> Forall2 copy xs ys -> Forall P xs -> Forall P ys.
Proof. intros H F A. induction F; [constructor|]. inversion A; subst. constructor; eauto. Qed.
Lemma copy_hashable x : forall y, copy x y -> hashable y = hashable x.
Proof.
  assert (L : forall xs ys, Forall (fun x => forall y, copy x y -> hashable y = hashable x) xs -> Forall2 copy xs ys -> forallb hashable ys = forallb hashable xs).
  { intros xs ys H F. induction F as [|a b l l' C F IH]; cbn [forallb]; [reflexivity|]. inversion H; subst. f_equal; auto. }
  induction x as [i|i|i o|o args IH|o args IH|args IH|t xs IH|s|s|t z|i|i n b c d cs _ _|i n b c d _|o _|o _|i n s _] using value_ind';
    intros y C; inversion C as [v Av| xs' ys F|xs' ys F|i' j n' b0 b' c' d' cs0 cs' Cb F|o' xs' ys F N|x' y' C']; subst; try discriminate Av; try reflexivity; cbn [hashable]; auto.
  inversion IH as [|? ? _ IH']; subst. inversion IH' as [|? ? IHx _]; subst. cbn. now rewrite (IHx _ C'), andb_comm.
Qed.
Lemma copies_hashable xs ys : Forall2 copy xs ys -> forallb hashable ys = forallb hashable xs.
Proof. induction 1 as [|x y l l' C F IH]; cbn; [reflexivity|]. now rewrite IH, (copy_hashable C). Qed.
Lemma copy_tuple x y ys : copy x y -> y = PSequence TTuple ys -> exists xs, x = PSequence TTuple xs.
Proof. intros C ->. inversion C; subst; try discriminate; eauto. Qed.

(** Values made one after another *)
Inductive fresh : N -> list value -> N -> Prop :=
| fr_nil n : fresh n [] n
| fr_cons n v n1 vs n2 : between n n1 v -> (n <= n1)%N -> fresh n1 vs n2 -> fresh n (v :: vs) n2.
Lemma fresh_le n vs n' : fresh n vs n' -> (n <= n')%N.
Proof. induction 1; lia. Qed.
Lemma fresh_within n vs n' : fresh n vs n' -> Forall (between n n') vs.
Proof.
  induction 1 as [|n v n1 vs n2 B L F IH]; constructor.
  - pose proof (fresh_le F). intros k Hk. specialize (B k Hk). lia.
  - eapply Forall_impl; [|exact IH]. intros x Hx k Hk. specialize (Hx k Hk). lia.
Qed.
Lemma fresh_between n vs n' : fresh n vs n' -> forall k, In k (flat_map ids vs) -> (n <= k < n')%N.
Proof. intros F k Hk. apply in_flat_map in Hk. destruct Hk as (v & Hv & Hk). pose proof (fresh_within F) as W. rewrite Forall_forall in W. exact (W v Hv k Hk). Qed.
Lemma copies_each_differ (same : value -> value -> bool) vs vs' n n' :
  (forall x x' y y' n1 n2 n3 n4, copy x y -> copy x' y' -> between n1 n2 y -> between n3 n4 y' -> (n2 <= n3)%N -> same x x' = false -> same y y' = false) ->
  Forall2 copy vs vs' -> fresh n vs' n' -> each_differs same vs -> each_differs same vs'.
Proof.
  intros H F. revert n. induction F as [|x y l l' C F IH]; intros n Fr D; [constructor|].
  inversion Fr as [|? ? n1 ? ? B L Fr']; subst. inversion D as [|? ? Dx D']; subst. constructor; [|eapply IH; eauto].
  clear D D' IH Fr. pose proof (fresh_within Fr') as W. clear Fr'. induction F as [|x' y' l l' C' F IH]; constructor.
  - inversion W; inversion Dx; subst. eapply H; eauto. lia.
  - inversion W; inversion Dx; subst. auto.
Qed.
Lemma literal_copies_differ x x' y y' n1 n2 n3 n4 : copy x y -> copy x' y' -> between n1 n2 y -> between n3 n4 y' -> (n2 <= n3)%N ->
  same_type x x' && py_eq x x' = false -> same_type y y' && py_eq y y' = false.
Proof.
  intros C C' B B' L. unfold same_type. rewrite (copy_tag C), (copy_tag C'). destruct (type_tag x == type_tag x'); [|auto]. cbn [andb].
  now apply (copies_differ C C' B B').
Qed.

(** ** Texts *)
Section Texts.
Variable printable : N -> bool.
Variables (class_text : N -> pystr) (alias_text : ident -> option pystr) (object_text bare_alias_text : N -> pystr).
Variable python_repr : value -> pystr.
Variable namespace : path -> option value.
Variables (generic : value -> option ident) (takes : value -> list N -> bool).
Notation evaluate := (evaluate namespace generic takes).
Notation to_repr := (to_repr printable class_text alias_text object_text bare_alias_text python_repr).
Notation names := (names namespace).
Notation annotation := (annotation class_text alias_text object_text bare_alias_text namespace generic takes true).
Hypothesis standard : standard_names class_text alias_text object_text namespace.

Fixpoint evaluate_all (es : list expr) (n : N) : option (list value * N) :=
  match es with
  | [] => Some ([], n)
  | e :: r => match evaluate e n with
              | Some (v, n1) => match evaluate_all r n1 with Some (vs, n2) => Some (v :: vs, n2) | None => None end
              | None => None
              end
  end.
Fixpoint evaluate_arguments (args : list (option pystr * expr)) (n : N) : option (list (option pystr * value) * N) :=
  match args with
  | [] => Some ([], n)
  | (k, e) :: r =>
      match evaluate e n with
      | Some (v, n1) => match evaluate_arguments r n1 with Some (vs, n2) => Some ((k, v) :: vs, n2) | None => None end
      | None => None
      end
  end.
Lemma evaluate_tuple es n : evaluate (ETuple es) n = match evaluate_all es n with Some (vs, n') => Some (PSequence TTuple vs, n') | None => None end.
Proof. reflexivity. Qed.
Lemma evaluate_list es n : evaluate (EList es) n = match evaluate_all es n with Some (vs, n') => Some (PSequence TList vs, n') | None => None end.
Proof. reflexivity. Qed.
Lemma evaluate_call f args n : evaluate (ECall f args) n =
  match evaluate f n with
  | None => None
  | Some (fv, n1) =>
      match evaluate_arguments args n1 with
      | None => None
      | Some (vs, n2) =>
          if py_eq fv (PClass TYPE) then
            match vs with [(None, v)] => option_map (fun v => (v, n2)) (type_of v) | _ => None end
          else if py_eq fv (PClass TYPE_VAR) then
            option_map (fun v => (v, N.succ n2)) (type_var n2 (positional_values vs) (keyword_values vs))
          else None
      end
  end.
Proof. reflexivity. Qed.

Lemma names_shows text v : names text v -> exists e, shows printable e text /\ forall n, evaluate e n = Some (v, n).
Proof.
  intros (p & Np & I & -> & E).
  assert (G : exists e, shows printable e (join $"." p) /\ is_number e = false /\ dotted e = Some p /\ forall n, evaluate e n = match dotted e with Some p => match namespace p with Some v => Some (v, n) | None => None end | None => None end).
  { clear E. revert Np I. induction p as [|a p IH] using rev_ind; [easy|]. intros _ I. apply Forall_app in I. destruct I as [I Ia]. inversion Ia; subst.
    destruct p as [|b p]; [exists (EName a); repeat split; now constructor|].
    destruct IH as (e & S & Ne & D & _); [discriminate|exact I|]. exists (EAttribute e a). split; [|split; [reflexivity|split; [cbn; now rewrite D|reflexivity]]].
    replace (join $"." ((b :: p) ++ [a])) with (join $"." (b :: p) ++ 46%N :: a); [now constructor|].
    clear. revert b. induction p as [|c p IH]; intros b; [reflexivity|]. change (join $"." ((b :: c :: p) ++ [a])) with (b ++ $"." ++ join $"." ((c :: p) ++ [a])).
    rewrite <- IH. change (join $"." (b :: c :: p)) with (b ++ $"." ++ join $"." (c :: p)). now rewrite <- !app_assoc. }
  destruct G as (e & S & _ & D & H). exists e. split; [exact S|]. intros n. now rewrite H, D, E.
Qed.

Definition evaluates (v : value) : Prop := exists e, shows printable e (to_repr v)
  /\ forall n, exists v' n', evaluate e n = Some (v', n') /\ (n <= n')%N /\ copy v v' /\ between n n' v'.
Lemma evaluates_all vs : Forall evaluates vs -> exists es, Forall2 (entry_shows printable) (map item_of es) (map to_repr vs)
  /\ length es = length vs
  /\ forall n, exists vs' n', evaluate_all es n = Some (vs', n') /\ Forall2 copy vs vs' /\ fresh n vs' n'.
Proof.
  induction 1 as [|v vs (e & S & E) F (es & Ss & L & Es)].
  - exists []. split; [constructor|]. split; [reflexivity|]. intros n. exists [], n. repeat constructor.
  - exists (e :: es). split.
    + constructor; [|exact Ss]. exists [], (to_repr v). repeat split. now apply si_value.
    + split; [cbn; now rewrite L|]. intros n. destruct (E n) as (v' & n1 & E1 & L1 & C & B). destruct (Es n1) as (vs' & n2 & E2 & Cs & Fr).
      exists (v' :: vs'), n2. cbn [evaluate_all]. rewrite E1, E2. split; [reflexivity|]. split; [now constructor|]. econstructor; eauto.
Qed.

(** An index: one expression, or several as a tuple *)
Definition index_of (es : list expr) : expr := match es with [e] => e | _ => ETuple es end.
Lemma shows_index f head es entries : shows printable f head -> Forall2 (entry_shows printable) (map item_of es) entries -> es <> [] ->
  shows printable (ESubscript f (index_of es)) (head ++ $"[" ++ join $", " entries ++ $"]").
Proof.
  intros S F N. change ($"[" ++ ?x ++ $"]") with (91%N :: x ++ [93%N]). eapply sh_subscript with (b := 1 <? length (map item_of es)); [exact S| |].
  - rewrite <- (app_nil_r (join _ _)). apply (@shows_join printable [32%N] (map item_of es) entries eq_refl F [] []); try reflexivity.
    destruct es; [easy|discriminate].
  - unfold subscripted. destruct es as [|e [|e' es]]; [easy|reflexivity|].
    pose proof (plain_items_of (e :: e' :: es)) as P. cbn [map] in *. cbn. cbn in P. destruct (plain_items (map item_of es)) eqn:Q; [|discriminate]. cbn. cbn in P. now injection P as ->.
Qed.
Lemma shows_bracketed f head es entries : shows printable f head -> Forall2 (entry_shows printable) (map item_of es) entries ->
  shows printable (ESubscript f (index_of es)) (bracketed head entries).
Proof.
  intros S F. unfold bracketed. destruct es as [|e es].
  - inversion F; subst. cbn [is_nil index_of]. change ($"[" ++ $"()" ++ $"]") with (91%N :: ([] ++ $"()" ++ []) ++ [93%N]).
    apply (@sh_subscript printable f head [mk_item None (ETuple []) None] false); [exact S| |reflexivity]. apply si_one; try reflexivity. apply si_value.
    change ($"()") with (40%N :: [] ++ [41%N]). apply (@sh_parentheses printable [] false); [now apply si_nil|reflexivity].
  - assert (N : is_nil entries = false) by (inversion F; subst; reflexivity). rewrite N. now apply shows_index.
Qed.
Lemma evaluate_index es n vs n' : evaluate_all es n = Some (vs, n') -> (forall ts, vs <> [PSequence TTuple ts]) ->
  exists iv, evaluate (index_of es) n = Some (iv, n') /\ index_arguments iv = vs.
Proof.
  intros E N. destruct es as [|e [|e' es]].
  - exists (PSequence TTuple vs). cbn [index_of]. rewrite evaluate_tuple, E. now split.
  - cbn [evaluate_all index_of] in *. destruct (evaluate e n) as [[v n1]|] eqn:V; [|discriminate]. injection E as <- <-. exists v. split; [reflexivity|].
    destruct v as [?|?|? ?|? ?|? ?|?|[] ?|?|?|? ?|?|? ? ? ? ? ?|? ? ? ? ?|?|?|? ? ?]; try reflexivity. exfalso. eapply N. reflexivity.
  - exists (PSequence TTuple vs). cbn [index_of]. rewrite evaluate_tuple, E. now split.
Qed.
Lemma copies_not_tuple vs vs' : Forall2 copy vs vs' -> (forall ts, vs <> [PSequence TTuple ts]) -> forall ts, vs' <> [PSequence TTuple ts].
Proof.
  intros F N ts ->. inversion F as [|x ? l ? C F']; subst. inversion F'; subst. destruct (copy_tuple C eq_refl) as (xs & ->). now apply (N xs).
Qed.
Lemma converted_not_tuple vs : convert_all vs = Some vs -> forall ts, vs <> [PSequence TTuple ts].
Proof. intros E ts ->. discriminate E. Qed.

Lemma subscript_evaluates f fv es n vs n' v : evaluate f n = Some (fv, n) ->
  evaluate_all es n = Some (vs, n') -> (forall ts, vs <> [PSequence TTuple ts]) -> subscript generic takes fv vs = Some v ->
  evaluate (ESubscript f (index_of es)) n = Some (v, n').
Proof.
  intros Ef Es N Sv. destruct (evaluate_index es n Es N) as (iv & Ei & Ai). cbn [SpecAnnotationText.evaluate]. now rewrite Ef, Ei, Ai, Sv.
Qed.

Lemma py_eq_UNION : forall v, py_eq (PClass NONE_TYPE) v = false -> forall v', copy v v' -> py_eq v' (PClass NONE_TYPE) = false.
Proof.
  intros v H v' C. inversion C as [v0 Av| | | | |]; subst; try reflexivity. destruct v'; try reflexivity; try discriminate Av. cbn in *. now rewrite eqb_sym.
Qed.

Lemma special_evaluates i : special_type i -> evaluates (PClass i).
Proof.
  intros H. assert (T : exists (name : pystr) v, class_repr class_text i = $"type(" ++ name ++ $")" /\ is_identifier name = true /\ namespace [name] = Some v /\ type_of v = Some (PClass i)).
  { destruct H as [->|[->| ->]]; [exists $"None", NONE|exists $"Ellipsis", (PObject 4)|exists $"NotImplemented", (PObject 5)]; repeat split; apply standard. }
  destruct T as (name & v & T & I & Nv & Tv). exists (ECall (EName $"type") [(None, EName name)]). cbn [AnnotationText.to_repr]. rewrite T. split.
  - change ($"type(" ++ name ++ $")") with ($"type" ++ 40%N :: name ++ [41%N]).
    eapply sh_call with (its := [mk_item None (EName name) None]); [now apply sh_name| |reflexivity].
    rewrite <- (app_nil_r name) at 2. apply (@si_one printable [] (mk_item None (EName name) None) name []); try reflexivity. now apply si_value, sh_name.
  - intros n. exists (PClass i), n. rewrite evaluate_call. cbn [SpecAnnotationText.evaluate evaluate_arguments dotted]. rewrite (sn_type _ _ _ _ standard), Nv.
    change (py_eq (PClass TYPE) (PClass TYPE)) with true. cbn [option_map]. rewrite Tv. repeat split; [lia|now constructor|easy..].
Qed.
Lemma named_evaluates v : atom v = true -> names (to_repr v) v -> evaluates v.
Proof.
  intros A H. destruct (names_shows H) as (e & S & E). exists e. split; [exact S|]. intros n. exists v, n. repeat split; [apply E|lia|now constructor| |];
    destruct v; try discriminate A; easy.
Qed.

Lemma all_evaluate vs : Forall (fun v => annotation v -> evaluates v) vs -> Forall annotation vs -> Forall evaluates vs.
Proof. intros H F. induction F; constructor; inversion H; subst; auto. Qed.
Lemma evaluate_arguments_app es rest n vs n' : evaluate_all es n = Some (vs, n') ->
  evaluate_arguments (map (fun e => (None, e)) es ++ rest) n =
  match evaluate_arguments rest n' with Some (ws, n2) => Some (map (fun v => (None, v)) vs ++ ws, n2) | None => None end.
Proof.
  revert n vs. induction es as [|e es IH]; intros n vs E; cbn [evaluate_all map app evaluate_arguments] in *.
  - injection E as <- <-. now destruct (evaluate_arguments rest n) as [[? ?]|].
  - destruct (evaluate e n) as [[v n1]|]; [|discriminate]. destruct (evaluate_all es n1) as [[ws n2]|] eqn:F; [|discriminate].
    injection E as <- <-. rewrite (IH _ _ F). now destruct (evaluate_arguments rest n2) as [[? ?]|].
Qed.
Theorem annotation_evaluates v : annotation v -> evaluates v.
Proof.
  induction v as [i|i|i o|o args IH|o args IH|args IH|t xs IH|s|s|t z|i|i name b c d cs IHb IH|i n b c d _|o _|o _|i n s _] using value_ind'; intros A; inversion A; subst.
  - now apply special_evaluates.
  - destruct (N.eq_dec i NONE_TYPE) as [->|N1]; [apply special_evaluates; now left|]. destruct (N.eq_dec i ELLIPSIS_TYPE) as [->|N2]; [apply special_evaluates; right; now left|].
    destruct (N.eq_dec i NOT_IMPLEMENTED_TYPE) as [->|N3]; [apply special_evaluates; right; now right|].
    apply named_evaluates; [reflexivity|]. cbn [AnnotationText.to_repr]. unfold class_repr. apply eqb_neq in N1, N2, N3. now rewrite N1, N2, N3.
  - now apply named_evaluates.
  - now apply named_evaluates.
  - (* unions *)
    match goal with H : Forall annotation args |- _ => pose proof (all_evaluate IH H) as AE end.
    match goal with H : convert_all args = Some args |- _ => rename H into Cv end.
    match goal with H : Forall (fun a => union_members a = [a]) args |- _ => rename H into Um end.
    match goal with H : each_differs py_eq args |- _ => rename H into Df end.
    match goal with H : 2 <= length args |- _ => rename H into Ln end.
    destruct (names_shows (sn_union _ _ _ _ standard)) as (eu & Su & Eu). destruct (names_shows (sn_optional _ _ _ _ standard)) as (eo & So & Eo).
    assert (Plain : (forall x, args <> [PClass NONE_TYPE; x]) -> to_repr (PAlias UNION args) = object_text 0 ++ $"[" ++ join $", " (map to_repr args) ++ $"]" -> evaluates (PAlias UNION args)).
    { intros No T. destruct (evaluates_all AE) as (es & Ss & L & Es). exists (ESubscript eu (index_of es)). rewrite T. split.
      - apply shows_index; [exact Su|exact Ss|]. destruct es; [cbn in L; lia|discriminate].
      - intros n. destruct (Es n) as (vs & n' & E & C & Fr). exists (PAlias UNION vs), n'. split; [|split; [eapply fresh_le; eauto|split; [now constructor|exact (fresh_between Fr)]]].
        eapply subscript_evaluates; eauto using copies_not_tuple, converted_not_tuple.
        unfold subscript. change (py_eq (PObject 0) (PObject 0)) with true. cbn iota. rewrite (copies_convert C Cv).
        unfold union_of. rewrite (members_all union_members (copies_forall (P := fun a => union_members a = [a]) copy_union_members C Um)).
        rewrite distinct_id; [|easy|exact (copies_each_differ (same := py_eq) copies_differ C Fr Df)].
        rewrite (Forall2_length C) in Ln. destruct vs as [|v1 [|v2 vs]]; cbn in Ln; try lia. reflexivity. }
    assert (Opt : forall a, evaluates a -> convert a = Some a -> union_members a = [a] -> py_eq (PClass NONE_TYPE) a = false ->
      exists e, shows printable e (bracketed (object_text 3) [to_repr a])
        /\ forall n, exists v' n', evaluate e n = Some (PAlias UNION [v'; PClass NONE_TYPE], n') /\ (n <= n')%N /\ copy a v' /\ between n n' v').
    { intros a Ha Ca Ua Na. assert (Fa : Forall evaluates [a]) by now constructor. destruct (evaluates_all Fa) as (es & Ss & L & Es).
      exists (ESubscript eo (index_of es)). split; [now apply shows_bracketed|]. intros n. destruct (Es n) as (vs & n' & E & C & Fr).
      inversion C as [|? v' ? l Cv' C']; subst. inversion C'; subst. exists v', n'.
      split; [|split; [eapply fresh_le; eauto|split; [assumption|intros k Hk; apply (fresh_between Fr); cbn; rewrite app_nil_r; exact Hk]]].
      assert (Cc : convert v' = Some v') by (eapply copy_convert; eassumption).
      eapply subscript_evaluates; eauto.
      - intros ts Ets. injection Ets as ->. discriminate Cc.
      - unfold subscript, OPTIONAL. change (py_eq (PObject 3) (PObject 0)) with false. change (py_eq (PObject 3) (PObject 3)) with true. cbn iota. rewrite Cc.
        unfold union_of. cbn [flat_map]. rewrite (copy_union_members Cv' Ua). cbn [union_members app distinct existsb].
        now rewrite (py_eq_UNION Na Cv'). }
    destruct args as [|a [|b [|x args]]]; cbn in Ln; try lia.
    + inversion AE as [|? ? Ea AE']; subst. inversion AE' as [|? ? Eb _]; subst.
      apply convert_all_each in Cv. inversion Cv as [|? ? Ca Cv']; subst. inversion Cv' as [|? ? Cb _]; subst.
      inversion Um as [|? ? Ua Um']; subst. inversion Um' as [|? ? Ub _]; subst.
      inversion Df as [|? ? Da _]; subst. inversion Da as [|? ? Dab _]; subst.
      destruct (is_none_type a) eqn:Na; [|destruct (is_none_type b) eqn:Nb].
      * assert (Ea' : a = PClass NONE_TYPE) by (destruct a; try discriminate Na; cbn in Na; apply eqb_to_eq in Na; now subst). subst a.
        destruct (Opt b Eb Cb Ub Dab) as (e & S & E). exists e. split; [exact S|]. intros n. destruct (E n) as (v' & n' & E1 & L & C & B).
        exists (PAlias UNION [v'; PClass NONE_TYPE]), n'. split; [exact E1|]. split; [exact L|]. split; [now constructor|].
        intros k Hk. apply B. cbn in Hk. now rewrite app_nil_r in Hk.
      * assert (Eb' : b = PClass NONE_TYPE) by (destruct b; try discriminate Nb; cbn in Nb; apply eqb_to_eq in Nb; now subst). subst b.
        assert (Dab' : py_eq (PClass NONE_TYPE) a = false) by (destruct a; try reflexivity; cbn in *; now rewrite eqb_sym).
        destruct (Opt a Ea Ca Ua Dab') as (e & S & E). exists e. split; [cbn [AnnotationText.to_repr]; rewrite Na; exact S|]. intros n. destruct (E n) as (v' & n' & E1 & L & C & B).
        exists (PAlias UNION [v'; PClass NONE_TYPE]), n'. split; [exact E1|]. split; [exact L|]. split.
        { apply cp_alias; [repeat constructor; exact C|]. intros x _ Ex. injection Ex as ->. discriminate Na. }
        intros k Hk. apply B. cbn in Hk. now rewrite app_nil_r in Hk.
      * apply Plain; [intros x Ex; injection Ex as -> _; discriminate Na|]. cbn [AnnotationText.to_repr]. now rewrite Na, Nb.
    + apply Plain; [intros y; discriminate|reflexivity].
  - (* literals *)
    match goal with H : Forall annotation args |- _ => pose proof (all_evaluate IH H) as AE end.
    match goal with H : Forall (fun a => literal_members a = [a]) args |- _ => rename H into Lm end.
    match goal with H : forallb hashable args = true -> _ |- _ => rename H into Df end.
    match goal with H : true = true -> _ |- _ => specialize (H eq_refl); rename H into Nt end.
    destruct (names_shows (sn_literal _ _ _ _ standard)) as (el & Sl & El). destruct (evaluates_all AE) as (es & Ss & L & Es).
    exists (ESubscript el (index_of es)). split.
    { cbn [AnnotationText.to_repr]. change (LITERAL == UNION) with false. cbn iota.
      replace (match alias_text LITERAL with Some text => bracketed text (map to_repr args) | None => bracketed (origin_repr class_text object_text LITERAL) (map to_repr args) end)
        with (bracketed (alias_head class_text alias_text object_text LITERAL) (map to_repr args)) by (unfold alias_head; now destruct (alias_text LITERAL)).
      now apply shows_bracketed. }
    intros n. destruct (Es n) as (vs & n' & E & C & Fr). exists (PAlias LITERAL vs), n'.
    split; [|split; [eapply fresh_le; eauto|split; [constructor; [exact C|discriminate]|exact (fresh_between Fr)]]].
    eapply subscript_evaluates; eauto using copies_not_tuple.
    unfold subscript. change (py_eq (PObject 1) (PObject 0)) with false. change (py_eq (PObject 1) OPTIONAL) with false. change (py_eq (PObject 1) (PObject 1)) with true. cbn iota.
    unfold literal_of. rewrite (members_all literal_members (copies_forall (P := fun a => literal_members a = [a]) copy_literal_members C Lm)).
    rewrite (copies_hashable C). destruct (forallb hashable args); [|reflexivity].
    rewrite distinct_id; [reflexivity|easy|]. exact (copies_each_differ (same := fun a b => same_type a b && py_eq a b) literal_copies_differ C Fr (Df eq_refl)).
  - (* other aliases *)
    match goal with H : Forall annotation args |- _ => pose proof (all_evaluate IH H) as AE end.
    match goal with H : convert_all args = Some args |- _ => rename H into Cv end.
    match goal with H : generic _ = Some o |- _ => rename H into G end.
    match goal with H : names _ f |- _ => destruct (names_shows H) as (ef & Sf & Ef) end.
    destruct (evaluates_all AE) as (es & Ss & L & Es). exists (ESubscript ef (index_of es)). split.
    { cbn [AnnotationText.to_repr]. replace (o == UNION) with false by (symmetry; now apply eqb_neq). cbn iota.
      replace (match alias_text o with Some text => bracketed text (map to_repr args) | None => bracketed (origin_repr class_text object_text o) (map to_repr args) end)
        with (bracketed (alias_head class_text alias_text object_text o) (map to_repr args)); [now apply shows_bracketed|].
      unfold alias_head. destruct (alias_text o); [reflexivity|]. destruct o as [i|i]; [|reflexivity]. cbn [origin_repr]. unfold class_repr.
      match goal with H : forall i0, CId i = CId i0 -> _ |- _ => specialize (H i eq_refl) end. unfold special_type in *.
      replace (i == NONE_TYPE) with false by (symmetry; apply eqb_neq; tauto). replace (i == ELLIPSIS_TYPE) with false by (symmetry; apply eqb_neq; tauto).
      now replace (i == NOT_IMPLEMENTED_TYPE) with false by (symmetry; apply eqb_neq; tauto). }
    intros n. destruct (Es n) as (vs & n' & E & C & Fr). exists (PAlias o vs), n'.
    split; [|split; [eapply fresh_le; eauto|split; [constructor; [exact C|congruence]|exact (fresh_between Fr)]]].
    eapply subscript_evaluates; eauto using copies_not_tuple, converted_not_tuple.
    unfold subscript. repeat match goal with H : py_eq f _ = false |- _ => rewrite H; clear H end. cbn iota. rewrite G, (copies_convert C Cv), (copy_tags C).
    match goal with H : takes f _ = true |- _ => now rewrite H end.
  - (* lists *)
    match goal with H : Forall annotation xs |- _ => pose proof (all_evaluate IH H) as AE end.
    destruct (evaluates_all AE) as (es & Ss & L & Es). exists (EList es). split.
    { cbn [AnnotationText.to_repr]. destruct (shows_joined Ss) as [b S]. change ($"[" ++ ?x ++ $"]") with (91%N :: x ++ [93%N]).
      eapply sh_list; [exact S|]. apply plain_items_of. }
    intros n. destruct (Es n) as (vs & n' & E & C & Fr). exists (PSequence TList vs), n'. rewrite evaluate_list, E.
    split; [reflexivity|split; [eapply fresh_le; eauto|split; [now constructor|exact (fresh_between Fr)]]].
  - (* tuples *)
    match goal with H : Forall annotation xs |- _ => pose proof (all_evaluate IH H) as AE end.
    destruct (evaluates_all AE) as (es & Ss & L & Es). exists (ETuple es). split.
    { cbn [AnnotationText.to_repr]. destruct xs as [|x [|x' xs]].
      - destruct es; [|discriminate L]. apply (@sh_parentheses printable [] false); [now apply si_nil|reflexivity].
      - destruct es as [|e [|? ?]]; try discriminate L. inversion Ss as [|? ? ? ? (w & t & Et & Bw & St) _]; subst. rewrite Et.
        change ($"(" ++ (w ++ t) ++ $",)") with (40%N :: (w ++ t) ++ [44%N; 41%N]).
        replace (40%N :: (w ++ t) ++ [44%N; 41%N]) with (40%N :: (w ++ t ++ [] ++ 44%N :: []) ++ [41%N]) by (cbn; now rewrite <- !app_assoc).
        apply sh_parentheses with (its := [item_of e]) (b := true); [|reflexivity]. apply si_comma with (its := []) (b := false); auto; [reflexivity|now apply si_nil].
      - destruct es as [|e [|e' es]]; try discriminate L. change ($"(" ++ ?x ++ $")") with (40%N :: x ++ [41%N]).
        apply sh_parentheses with (its := map item_of (e :: e' :: es)) (b := true).
        + rewrite <- (app_nil_r (join _ _)). apply (@shows_join printable [32%N] _ _ eq_refl Ss [] []); try reflexivity. discriminate.
        + pose proof (plain_items_of (e :: e' :: es)) as P. unfold parenthesised. rewrite P. reflexivity. }
    intros n. destruct (Es n) as (vs & n' & E & C & Fr). exists (PSequence TTuple vs), n'. rewrite evaluate_tuple, E.
    split; [reflexivity|split; [eapply fresh_le; eauto|split; [now constructor|exact (fresh_between Fr)]]].
  - exists (EString s). split; [now apply sh_string|]. intros n. exists (PString s), n. repeat split; [lia|now constructor|easy..].
  - exists (EInt z). split; [now apply sh_int|]. intros n. exists (PNumber TInt z), n. repeat split; [lia|now constructor|easy..].
  - apply named_evaluates; [reflexivity|]. match goal with H : z = _ \/ _ |- _ => destruct H as [->| ->] end.
    + exists [$"False"]. repeat split; [discriminate|now repeat constructor|apply standard].
    + exists [$"True"]. repeat split; [discriminate|now repeat constructor|apply standard].
  - (* type variables *)
    match goal with H : Forall annotation cs |- _ => pose proof (all_evaluate IH H) as AE end.
    match goal with H : convert_all cs = Some cs |- _ => rename H into Cv end.
    match goal with H : valid_str name |- _ => rename H into Vn end.
    match goal with H : b = NONE \/ _ /\ _ |- _ => rename H into Hb end.
    match goal with H : cs = [] \/ _ |- _ => rename H into Hc end.
    destruct (names_shows (sn_type_var _ _ _ _ standard)) as (et & St & Et). destruct (evaluates_all AE) as (es & Ss & L & Es).
    assert (Bound : exists eb, (is_none b = true \/ shows printable eb (to_repr b)) /\ forall n, exists b' n',
      (if is_none b then b' = NONE /\ n' = n else evaluate eb n = Some (b', n') /\ is_none b' = false /\ convert b' = Some b') /\ (n <= n')%N /\ copy b b').
    { destruct Hb as [->|[Ab Cb]].
      - exists (EName []). split; [now left|]. intros n. exists NONE, n. repeat split; [lia|now constructor].
      - destruct (IHb Ab) as (eb & Sb & Eb). exists eb. split; [now right|]. intros n. destruct (Eb n) as (b' & n' & E & Ln & C & _).
        exists b', n'. assert (Cb' : convert b' = Some b') by (eapply copy_convert; eassumption).
        assert (Nb : forall x, convert x = Some x -> is_none x = false).
        { intros x Cx. destruct x as [?|oi|? ?|? ?|? ?|?|[] ?|?|?|? ?|?|? ? ? ? ? ?|? ? ? ? ?|?|?|? ? ?]; try reflexivity. cbn in *. destruct (oi == 2%N); [discriminate Cx|reflexivity]. }
        rewrite (Nb b Cb). repeat split; auto. }
    destruct Bound as (eb & Sb & Eb).
    set (arguments := [(None, EString name)] ++ map (fun e => (None, e)) es ++ (if is_none b then [] else [(Some $"bound", eb)])
           ++ (if c then [(Some $"contravariant", EName $"True")] else []) ++ (if d then [(Some $"covariant", EName $"True")] else []) : list (option pystr * expr)).
    exists (ECall et arguments). split.
    { cbn [AnnotationText.to_repr]. change (class_repr class_text TYPE_VAR) with (class_text TYPE_VAR). change ($"(" ++ ?x ++ $")") with (40%N :: x ++ [41%N]).
      match goal with |- context [join $", " ?ts] => assert (F : Forall2 (entry_shows printable) (map item_of_argument arguments) ts) end.
      { unfold arguments. rewrite !map_app. apply Forall2_app; [|apply Forall2_app; [|apply Forall2_app; [|apply Forall2_app]]].
        - constructor; [|constructor]. exists [], (repr_str printable name). repeat split. now apply si_value, sh_string.
        - rewrite map_map. exact Ss.
        - destruct (is_none b); [constructor|]. destruct Sb as [Sb|Sb]; [discriminate|]. constructor; [|constructor].
          exists [], ($"bound=" ++ to_repr b). repeat split. now apply (@si_keyword printable $"bound").
        - destruct c; constructor; [|constructor]. exists [], $"contravariant=True". repeat split. now apply (@si_keyword printable $"contravariant" (EName $"True") $"True"); [|apply sh_name].
        - destruct d; constructor; [|constructor]. exists [], $"covariant=True". repeat split. now apply (@si_keyword printable $"covariant" (EName $"True") $"True"); [|apply sh_name]. }
      destruct (shows_joined F) as [bb S]. eapply sh_call; [exact St|exact S|apply call_items_of]. }
    intros n. destruct (Es n) as (cs' & n1 & E & C & Fr). destruct (Eb n1) as (b' & n2 & E2 & L2 & Cb).
    exists (PTypeVar n2 name b' c d cs'), (N.succ n2). pose proof (fresh_le Fr).
    split; [|split; [lia|split; [now constructor|intros k [<-|[]]; lia]]].
    rewrite evaluate_call, Et.
    set (tail := (if is_none b then [] else [(Some $"bound", b')])
           ++ (if c then [(Some $"contravariant", PNumber TBool 1)] else []) ++ (if d then [(Some $"covariant", PNumber TBool 1)] else []) : list (option pystr * value)).
    assert (Ea : evaluate_arguments arguments n = Some ((None, PString name) :: map (fun v => (None, v)) cs' ++ tail, n2)).
    { unfold arguments. change (evaluate_arguments ([(None, EString name)] ++ ?r) n) with
        (match evaluate_arguments r n with Some (vs, n2) => Some ((None, PString name) :: vs, n2) | None => None end).
      rewrite (evaluate_arguments_app es _ n E).
      assert (Ev : forall k m, evaluate_arguments [(Some k, EName $"True")] m = Some ([(Some k, PNumber TBool 1)], m)).
      { intros k m. cbn [evaluate_arguments SpecAnnotationText.evaluate dotted]. now rewrite (sn_true _ _ _ _ standard). }
      assert (Ev2 : forall k k2 m, evaluate_arguments [(Some k, EName $"True"); (Some k2, EName $"True")] m = Some ([(Some k, PNumber TBool 1); (Some k2, PNumber TBool 1)], m)).
      { intros k k2 m. cbn [evaluate_arguments SpecAnnotationText.evaluate dotted]. now rewrite (sn_true _ _ _ _ standard). }
      unfold tail. destruct (is_none b).
      - destruct E2 as [-> ->]. destruct c, d; cbn [app]; rewrite ?Ev, ?Ev2; reflexivity.
      - destruct E2 as (E2 & _). destruct c, d; cbn [app]; cbn [evaluate_arguments SpecAnnotationText.evaluate dotted]; rewrite E2, ?(sn_true _ _ _ _ standard); reflexivity. }
    rewrite Ea. change (py_eq (PClass TYPE_VAR) (PClass TYPE)) with false. change (py_eq (PClass TYPE_VAR) (PClass TYPE_VAR)) with true. cbn iota.
    assert (Ep : positional_values ((None, PString name) :: map (fun v => (None, v)) cs' ++ tail) = PString name :: cs').
    { unfold positional_values. cbn [flat_map fst snd app]. f_equal. rewrite flat_map_app. replace (flat_map _ tail) with (@nil value) by (unfold tail; now destruct (is_none b), c, d).
      rewrite app_nil_r. clear. induction cs'; cbn; congruence. }
    assert (Ek : keyword_values ((None, PString name) :: map (fun v => (None, v)) cs' ++ tail) = keyword_values tail).
    { unfold keyword_values. cbn [flat_map fst snd app]. rewrite flat_map_app. replace (flat_map _ (map (fun v => (None, v)) cs')) with (@nil (pystr * value)); [reflexivity|].
      clear. induction cs'; cbn; auto. }
    rewrite Ep, Ek. unfold type_var. rewrite (copies_convert C Cv).
    assert (G1 : match dget $"bound" (keyword_values tail) with None => Some NONE | Some b0 => if is_none b0 then Some NONE else convert b0 end = Some b').
    { unfold tail. destruct (is_none b).
      - destruct E2 as [-> _]. now destruct c, d.
      - destruct E2 as (_ & N2 & C2). replace (dget $"bound" _) with (Some b') by now destruct c, d. now rewrite N2. }
    assert (G2 : flag (dget $"contravariant" (keyword_values tail)) = Some c) by (unfold tail; destruct (is_none b), c, d; reflexivity).
    assert (G3 : flag (dget $"covariant" (keyword_values tail)) = Some d) by (unfold tail; destruct (is_none b), c, d; reflexivity).
    rewrite G1, G2, G3. match goal with H : c && d = false |- _ => rewrite H end. cbn [orb].
    match goal with H : length cs <> 1 |- _ => rewrite <- (Forall2_length C); apply Nat.eqb_neq in H; rewrite H end. cbn [orb].
    replace (negb (is_nil cs') && negb (is_none b')) with false; [reflexivity|]. symmetry. destruct Hc as [->| ->].
    + inversion C. reflexivity.
    + cbn [is_none NONE] in E2. change (is_none (PObject 2)) with true in E2. destruct E2 as [-> _]. change (is_none NONE) with true. apply andb_false_r.
Qed.

(** The text reads as an expression whose value is equal to the annotation. *)
Theorem to_repr_round_trip v : annotation v -> exists e, reads (to_repr v) e
  /\ forall n, exists v' n', evaluate e n = Some (v', n') /\ are_equal v v' = true.
Proof.
  intros A. destruct (annotation_evaluates A) as (e & S & E). exists e. split; [eapply shows_reads; eauto|].
  intros n. destruct (E n) as (v' & n' & E1 & _ & C & _). exists v', n'. split; [exact E1|]. now apply copy_equal.
Qed.

(** A copy is written like the original. *)
Lemma copy_none_type x y : copy x y -> is_none_type y = is_none_type x.
Proof. intros C. now inversion C. Qed.
Lemma copy_none x y : copy x y -> is_none y = is_none x.
Proof. intros C. now inversion C. Qed.
Lemma copy_text x : forall y, copy x y -> to_repr y = to_repr x.
Proof.
  assert (L : forall xs ys, Forall (fun x => forall y, copy x y -> to_repr y = to_repr x) xs -> Forall2 copy xs ys -> map to_repr ys = map to_repr xs).
  { intros xs ys H F. induction F as [|a b l l' C F IH]; cbn [map]; [reflexivity|]. inversion H; subst. f_equal; auto. }
  induction x as [i|i|i o|o args IH|o args IH|args IH|t xs IH|s|s|t z|i|i n b c d cs IHb IH|i n b c d _|o _|o _|i n s _] using value_ind';
    intros y C; inversion C as [v Av| xs' ys F|xs' ys F|i' j n' b0 b' c' d' cs0 cs' Cb F|o' xs' ys F N|x' y' C']; subst; try discriminate Av; try reflexivity; cbn [AnnotationText.to_repr].
  - rewrite (L _ _ IH F). destruct (o == UNION); [|reflexivity]. destruct F as [|a a' l l' Ca F]; [reflexivity|].
    destruct F as [|b b' l l' Cb F]; [reflexivity|]. destruct F; [|reflexivity]. inversion IH as [|? ? Ha IH']; subst. inversion IH' as [|? ? Hb _]; subst.
    now rewrite (copy_none_type Ca), (copy_none_type Cb), (Ha _ Ca), (Hb _ Cb).
  - inversion IH as [|? ? _ IH']; subst. inversion IH' as [|? ? Hb _]; subst. rewrite (Hb _ C'). change (UNION == UNION) with true. cbn iota.
    change (is_none_type (PClass NONE_TYPE)) with true. cbn iota. destruct (is_none_type y') eqn:Ny; [|reflexivity].
    rewrite <- (Hb _ C'). destruct y'; try discriminate Ny. cbn in Ny. apply eqb_to_eq in Ny. now subst.
  - now rewrite (L _ _ IH F).
  - pose proof (L _ _ IH F) as E. destruct F as [|a a' l l' Ca F]; [reflexivity|]. destruct F as [|b b' l l' Cb F].
    + cbn [map] in E. injection E as ->. reflexivity.
    + now rewrite E.
  - now rewrite (L _ _ IH F), (copy_none Cb), (IHb _ Cb).
Qed.

(** ** Signatures *)
Section Signatures.
(** The sentinel for missing defaults *)
Variable sentinel : N.
Definition is_sentinel (v : value) : bool := py_eq v (PObject sentinel).
(** How many type variables were made before each expression is evaluated *)
Variable made : expr -> N.
Definition value_of (e : expr) : option value := option_map fst (evaluate e (made e)).

Inductive copied_parameter : parameter value -> parameter value -> Prop :=
| cq_required a a' k n : copy a a' -> copied_parameter (RequiredParameter a k n) (RequiredParameter a' k n)
| cq_plain a a' k n : copy a a' -> copied_parameter (OptionalParameter a None k n) (OptionalParameter a' None k n)
| cq_default a a' d d' k n : copy a a' -> copy d d' -> copied_parameter (OptionalParameter a (Some d) k n) (OptionalParameter a' (Some d') k n).
Definition copied_plain (s t : plain_signature value) : Prop :=
  Forall2 copied_parameter (parameters s) (parameters t) /\ copy (returns s) (returns t).
Lemma copy_sentinel x y : copy x y -> is_sentinel y = is_sentinel x.
Proof. intros C. now inversion C. Qed.

Definition annotated_parameter (p : parameter value) : Prop :=
  annotation (p_annotation p) /\ (forall d, p_default p = Some d -> annotation d) /\ valid_str (p_name p).
Definition annotated_plain (s : plain_signature value) : Prop :=
  Forall annotated_parameter (parameters s) /\ annotation (returns s).
Lemma annotation_copy v : annotation v -> exists v', copy v v' /\ readable printable to_repr value_of v'.
Proof.
  intros A. destruct (annotation_evaluates A) as (e & S & E). destruct (E (made e)) as (v' & n' & E1 & _ & C & _).
  exists v'. split; [exact C|]. exists e. split; [now rewrite (copy_text C)|]. unfold value_of. now rewrite E1.
Qed.
Lemma parameter_copy p : annotated_parameter p -> exists q, copied_parameter p q /\ readable_parameter printable to_repr value_of q.
Proof.
  intros (A & D & Vn). destruct (annotation_copy A) as (a' & Ca & Ra). destruct p as [a k n|a [d|] k n]; cbn [p_annotation p_default p_name] in *.
  - exists (RequiredParameter a' k n). split; [now constructor|]. repeat split; try assumption. discriminate.
  - destruct (annotation_copy (D d eq_refl)) as (d' & Cd & Rd). exists (OptionalParameter a' (Some d') k n). split; [now constructor|].
    repeat split; try assumption. cbn. intros x E. injection E as <-. exact Rd.
  - exists (OptionalParameter a' None k n). split; [now constructor|]. repeat split; try assumption. discriminate.
Qed.
Lemma plain_copy s : annotated_plain s -> exists t, copied_plain s t /\ readable_plain printable to_repr value_of t.
Proof.
  intros [P R]. destruct (annotation_copy R) as (r' & Cr & Rr).
  assert (G : exists qs, Forall2 copied_parameter (parameters s) qs /\ Forall (readable_parameter printable to_repr value_of) qs).
  { clear R r' Cr Rr. induction P as [|p ps Hp P (qs & F & Q)]; [exists []; now split; constructor|].
    destruct (parameter_copy Hp) as (q & Cq & Rq). exists (q :: qs). split; now constructor. }
  destruct G as (qs & F & Q). exists (mk_plain qs r'). now split.
Qed.
Lemma copied_parameter_text p q : copied_parameter p q -> parameter_repr to_repr (repr_str printable) q = parameter_repr to_repr (repr_str printable) p.
Proof. intros C. inversion C; subst; cbn [parameter_repr]; repeat match goal with H : copy _ _ |- _ => rewrite (copy_text H); clear H end; reflexivity. Qed.
Lemma copied_plain_text s t : copied_plain s t -> plain_repr to_repr (repr_str printable) t = plain_repr to_repr (repr_str printable) s.
Proof.
  intros [F R]. unfold plain_repr. rewrite (copy_text R).
  assert (E : map (parameter_repr to_repr (repr_str printable)) (parameters t) = map (parameter_repr to_repr (repr_str printable)) (parameters s)).
  { induction F as [|p q ps qs C F IH]; cbn [map]; [reflexivity|]. now rewrite IH, (copied_parameter_text C). }
  rewrite E. replace (is_nil (parameters t)) with (is_nil (parameters s)) by (now destruct F). reflexivity.
Qed.
Lemma copied_parameter_equal p q : copied_parameter p q -> parameter_eq are_equal p q = true.
Proof. intros C. inversion C; subst; cbn [parameter_eq]; rewrite !eqb_refl; repeat match goal with H : copy _ _ |- _ => rewrite (copy_equal H); clear H end; reflexivity. Qed.
Lemma copied_plain_equal s t : copied_plain s t -> plain_eq are_equal s t = true.
Proof.
  intros [F R]. unfold plain_eq. rewrite (copy_equal R), andb_true_r. induction F as [|p q ps qs C F IH]; cbn [tuple_eq]; [reflexivity|].
  now rewrite (copied_parameter_equal C), IH.
Qed.
Lemma copied_good p q : copied_parameter p q -> good_parameter is_sentinel p -> good_parameter is_sentinel q.
Proof. intros C. inversion C; subst; cbn [good_parameter]; auto. match goal with H : copy d d' |- _ => now rewrite (copy_sentinel H) end. Qed.
Lemma copied_good_list ps qs : Forall2 copied_parameter ps qs -> good_list ps -> good_list qs.
Proof.
  assert (Same : forall p q, copied_parameter p q -> view q = view p) by (intros p q C; now inversion C).
  intros F (A & B & O). repeat split.
  - replace (map p_name qs) with (map p_name ps); [exact A|]. clear A B O. induction F as [|p q ps qs C F IH]; cbn [map]; [reflexivity|]. rewrite IH. now inversion C.
  - clear A O. induction F as [|p q ps qs C F IH]; [constructor|]. inversion B as [|? ? Bp B']; subst. constructor; [|now apply IH].
    clear IH B B'. induction F as [|p' q' ps qs C' F IH]; constructor; inversion Bp; subst; [|now apply IH].
    inversion C; inversion C'; subst; assumption.
  - clear A B. induction F as [|p q ps qs C F IH]; [constructor|]. inversion O as [|? ? Bp B']; subst. constructor; [|now apply IH].
    clear IH O B'. induction F as [|p' q' ps qs C' F IH]; constructor; inversion Bp; subst; [|now apply IH].
    inversion C; inversion C'; subst; assumption.
Qed.
Lemma copied_built s t : copied_plain s t -> built_plain is_sentinel s -> built_plain is_sentinel t.
Proof.
  intros [F _] B. apply built_plain_spec. apply built_plain_spec in B. destruct B as [G L]. split; [|now apply (copied_good_list F)].
  clear L. induction F as [|p q ps qs C F IH]; constructor; inversion G; subst; [|now apply IH]. now apply (copied_good C).
Qed.

Theorem signature_round_trip s : built is_sentinel s -> Forall annotated_plain (flatten_signature s) ->
  exists e s', reads (signature_repr to_repr (repr_str printable) s) e /\ evaluate_signature is_sentinel value_of e = Some s'
    /\ signature_eq are_equal s s' = true.
Proof.
  intros B A.
  assert (G : exists s', built is_sentinel s' /\ Forall (readable_plain printable to_repr value_of) (flatten_signature s')
    /\ signature_repr to_repr (repr_str printable) s' = signature_repr to_repr (repr_str printable) s /\ signature_eq are_equal s s' = true).
  { destruct s as [p|ps]; cbn [flatten_signature] in A.
    - inversion A as [|? ? Ap _]; subst. destruct (plain_copy Ap) as (q & C & R). exists (Plain q). cbn [flatten_signature signature_repr signature_eq built] in *.
      split; [now apply (copied_built C)|]. split; [constructor; [exact R|constructor]|]. split; [now apply copied_plain_text|now apply copied_plain_equal].
    - assert (F : exists qs, Forall2 copied_plain ps qs /\ Forall (readable_plain printable to_repr value_of) qs).
      { clear B. induction A as [|p ps Hp A (qs & F & Q)]; [exists []; now split; constructor|]. destruct (plain_copy Hp) as (q & C & R). exists (q :: qs). split; now constructor. }
      destruct F as (qs & F & Q). exists (Overloaded qs). apply built_overloaded in B. destruct B as [B L]. split.
      { apply built_overloaded. split; [|now rewrite <- (Forall2_length F)]. clear L Q A. induction F as [|p q ps qs C F IH]; constructor; inversion B; subst; [now apply (copied_built C)|now apply IH]. }
      split; [exact Q|]. split.
      { cbn [signature_repr]. assert (E : map (plain_repr to_repr (repr_str printable)) qs = map (plain_repr to_repr (repr_str printable)) ps); [|now rewrite E].
        clear -F. induction F as [|p q ps qs C F IH]; cbn [map]; [reflexivity|]. now rewrite IH, (copied_plain_text C). }
      cbn [signature_eq]. clear -F. induction F as [|p q ps qs C F IH]; cbn [tuple_eq]; [reflexivity|]. now rewrite IH, (copied_plain_equal C). }
  destruct G as (s' & B' & R & T & E). destruct (@signature_repr_reads printable value is_sentinel to_repr value_of s' B' R) as (e & Re & Ee).
  exists e, s'. rewrite <- T. auto.
Qed.
End Signatures.
End Texts.

(** ** Values of expressions *)
Section Values.
Variables (class_text : N -> pystr) (alias_text : ident -> option pystr) (object_text bare_alias_text : N -> pystr).
Variable namespace : path -> option value.
Variables (generic : value -> option ident) (takes : value -> list N -> bool).
Notation evaluate := (evaluate namespace generic takes).
Notation evaluate_all := (evaluate_all namespace generic takes).
Notation evaluate_arguments := (evaluate_arguments namespace generic takes).
Notation names := (names namespace).
Notation annotation := (annotation class_text alias_text object_text bare_alias_text namespace generic takes).

Lemma strict_annotation v : annotation false v -> tuple_literal v = false -> annotation true v.
Proof.
  assert (L : forall vs, Forall (fun v => annotation false v -> tuple_literal v = false -> annotation true v) vs -> Forall (annotation false) vs -> existsb tuple_literal vs = false -> Forall (annotation true) vs).
  { intros vs H F. induction F as [|w vs A F IH]; cbn [existsb]; intros E; constructor; apply orb_false_iff in E; inversion H; subst; tauto. }
  induction v as [i|i|i o|o args IH|o args IH|args IH|t xs IH|s|s|t z|i|i n b c d cs IHb IH|i n b c d _|o _|o _|i n s _] using value_ind';
    intros A E; inversion A; subst; try (now constructor); cbn [tuple_literal] in E; try (apply orb_false_iff in E; destruct E as [E1 E2]).
  - apply an_union; auto.
  - apply an_literal; auto. intros _ xs ->. discriminate E1.
  - eapply an_alias; eauto.
  - constructor; auto.
  - constructor; auto.
  - constructor; auto. match goal with H : b = NONE \/ _ |- _ => destruct H as [->|[Ab Cb]]; [now left|right; split; auto] end.
Qed.

Lemma loose_annotation v : annotation true v -> annotation false v.
Proof.
  assert (L : forall vs, Forall (fun v => annotation true v -> annotation false v) vs -> Forall (annotation true) vs -> Forall (annotation false) vs).
  { intros vs H F. induction F as [|w vs A F IH]; constructor; inversion H; subst; tauto. }
  induction v as [i|i|i o|o args IH|o args IH|args IH|t xs IH|s|s|t z|i|i n b c d cs IHb IH|i n b c d _|o _|o _|i n s _] using value_ind';
    intros A; inversion A; subst; try (now constructor).
  - apply an_union; auto.
  - apply an_literal; auto.
  - eapply an_alias; eauto.
  - constructor; auto.
  - constructor; auto.
  - constructor; auto. match goal with H : b = NONE \/ _ |- _ => destruct H as [->|[Ab Cb]]; [now left|right; split; auto] end.
Qed.

(** Every name stands for an annotation, and aliases are named by what makes them. *)
Hypothesis named : forall p v, namespace p = Some v -> annotation false v.
Hypothesis generics : forall f o, generic f = Some o ->
  o <> UNION /\ o <> LITERAL /\ (forall i, o = CId i -> ~ special_type i) /\ names (alias_head class_text alias_text object_text o) f.

Lemma convert_annotation v : forall w, convert v = Some w -> annotation false v -> annotation false w /\ convert w = Some w.
Proof.
  assert (Plain : forall v w, Some v = Some w -> convert v = Some v -> annotation false v -> annotation false w /\ convert w = Some w) by (intros v0 w E C A; injection E as <-; auto).
  induction v as [i|i|i o|o args IH|o args IH|args IH|t xs IH|s|s|t z|i|i n b c d cs IHb IH|i n b c d _|o _|o _|i n s _] using value_ind';
    intros w E A; try (now apply (Plain _ _ E)); try discriminate E.
  - cbn [convert] in E. destruct (i == 2%N) eqn:Ei.
    + injection E as <-. split; [|reflexivity]. apply an_special. now left.
    + injection E as <-. split; [exact A|]. cbn [convert]. now rewrite Ei.
  - destruct t; try discriminate E. rewrite convert_list in E. destruct (convert_all xs) as [ys|] eqn:Y; [|discriminate]. injection E as <-.
    inversion A as [| | | | | | |? F| | | | |]; subst.
    enough (G : Forall (annotation false) ys /\ convert_all ys = Some ys) by (destruct G as [G1 G2]; split; [now constructor|rewrite convert_list, G2; reflexivity]).
    clear A. revert ys Y. induction F as [|x xs Ax F IHF]; intros ys Y; cbn [convert_all] in Y; [injection Y as <-; now split|].
    inversion IH as [|? ? IHx IH']; subst. destruct (convert x) as [y|] eqn:Ex; [|discriminate]. destruct (convert_all xs) as [zs|]; [|discriminate]. injection Y as <-.
    destruct (IHx _ eq_refl Ax) as [Ay Cy]. destruct (IHF IH' zs eq_refl) as [Az Cz]. split; [now constructor|]. cbn [convert_all]. now rewrite Cy, Cz.
Qed.
Lemma convert_all_annotations vs : forall ws, convert_all vs = Some ws -> Forall (annotation false) vs -> Forall (annotation false) ws /\ convert_all ws = Some ws.
Proof.
  induction vs as [|v vs IH]; intros ws E F; cbn [convert_all] in E; [injection E as <-; now split|].
  destruct (convert v) as [y|] eqn:Ex; [|discriminate]. destruct (convert_all vs) as [zs|]; [|discriminate]. injection E as <-. inversion F; subst.
  destruct (convert_annotation Ex) as [Ay Cy]; [assumption|]. destruct (IH zs eq_refl) as [Az Cz]; [assumption|]. split; [now constructor|]. cbn [convert_all]. now rewrite Cy, Cz.
Qed.

Lemma distinct_from same vs : forall seen, (forall v, In v (distinct same seen vs) -> In v vs /\ forall s, In s seen -> same s v = false)
  /\ each_differs same (distinct same seen vs).
Proof.
  induction vs as [|v vs IH]; intros seen; cbn [distinct]; [split; [easy|constructor]|].
  destruct (existsb (fun s => same s v) seen) eqn:E.
  - destruct (IH seen) as [H1 H2]. split; [|exact H2]. intros w Hw. destruct (H1 w Hw). split; [now right|assumption].
  - destruct (IH (seen ++ [v])) as [H1 H2]. split.
    + intros w [<-|Hw].
      * split; [now left|]. intros s Hs. destruct (same s v) eqn:S; [|reflexivity]. exfalso.
        assert (existsb (fun s => same s v) seen = true) by (apply existsb_exists; eauto). congruence.
      * destruct (H1 w Hw) as [I N]. split; [now right|]. intros s Hs. apply N, in_or_app. now left.
    + constructor; [|exact H2]. rewrite Forall_forall. intros w Hw. destruct (H1 w Hw) as [_ N]. apply N, in_or_app. right. now left.
Qed.
Lemma union_annotation vs v : Forall (annotation false) vs -> convert_all vs = Some vs -> union_of vs = Some v -> annotation false v.
Proof.
  intros F C U. unfold union_of in U. apply convert_all_each in C.
  assert (M : forall m, In m (flat_map union_members vs) -> annotation false m /\ convert m = Some m /\ union_members m = [m]).
  { intros m Hm. apply in_flat_map in Hm. destruct Hm as (w & Hw & Hm). rewrite Forall_forall in F, C. specialize (F w Hw). specialize (C w Hw).
    destruct w as [?|?|? ?|o args|? ?|?|[] ?|?|?|? ?|?|? ? ? ? ? ?|? ? ? ? ?|?|?|? ? ?]; try (cbn in Hm; destruct Hm as [<-|[]]; now auto); [|inversion F].
    cbn [union_members] in Hm. destruct (eqb_reflect o UNION) as [->|N].
    - inversion F as [| | | | | | | | | |args' Fa Ca Ua Da La| |]; subst; [|congruence].
      apply convert_all_each in Ca. rewrite Forall_forall in Fa, Ca, Ua. auto.
    - destruct Hm as [<-|[]]. split; [exact F|]. split; [exact C|]. cbn [union_members]. apply eqb_neq in N. now rewrite N. }
  destruct (distinct_from py_eq (flat_map union_members vs) []) as [D1 D2]. destruct (distinct py_eq [] (flat_map union_members vs)) as [|u [|u' us]] eqn:E; [discriminate| |].
  - injection U as <-. apply M. apply D1. now left.
  - injection U as <-. assert (M' : forall m, In m (u :: u' :: us) -> annotation false m /\ convert m = Some m /\ union_members m = [m]) by (intros m Hm; apply M, D1, Hm).
    apply an_union; [| | |exact D2|cbn; lia]; [|apply convert_all_each|]; rewrite Forall_forall; intros m Hm; now apply M'.
Qed.
Lemma literal_annotation vs : Forall (annotation false) vs -> annotation false (literal_of vs).
Proof.
  intros F. unfold literal_of.
  assert (M : forall m, In m (flat_map literal_members vs) -> annotation false m /\ literal_members m = [m]).
  { intros m Hm. apply in_flat_map in Hm. destruct Hm as (w & Hw & Hm). rewrite Forall_forall in F. specialize (F w Hw).
    destruct w as [?|?|? ?|o args|? ?|?|[] ?|?|?|? ?|?|? ? ? ? ? ?|? ? ? ? ?|?|?|? ? ?]; try (cbn in Hm; destruct Hm as [<-|[]]; now auto).
    cbn [literal_members] in Hm. destruct (eqb_reflect o LITERAL) as [->|N].
    - inversion F as [| | | | | | | | | | |args' Fa La Da Ta|]; subst; [|congruence]. rewrite Forall_forall in Fa, La. auto.
    - destruct Hm as [<-|[]]. split; [exact F|]. cbn [literal_members]. apply eqb_neq in N. now rewrite N. }
  assert (M1 : Forall (annotation false) (flat_map literal_members vs)) by (rewrite Forall_forall; intros m Hm; now apply M).
  assert (M2 : Forall (fun m => literal_members m = [m]) (flat_map literal_members vs)) by (rewrite Forall_forall; intros m Hm; now apply M).
  destruct (forallb hashable (flat_map literal_members vs)) eqn:H.
  - destruct (distinct_from (fun a b => same_type a b && py_eq a b) (flat_map literal_members vs) []) as [D1 D2].
    apply an_literal; [| |intros _; exact D2|discriminate]; rewrite Forall_forall in *; intros m Hm; destruct (D1 m Hm) as [I _]; auto.
  - apply an_literal; auto; [congruence|discriminate].
Qed.
Lemma subscript_annotation f args v : Forall (annotation false) args -> subscript generic takes f args = Some v -> annotation false v.
Proof.
  intros F S. unfold subscript in S. destruct (py_eq f (PObject 0)) eqn:N0.
  - destruct (convert_all args) as [vs|] eqn:C; [|discriminate]. destruct (convert_all_annotations C F) as [Fv Cv]. now apply (union_annotation Fv Cv).
  - destruct (py_eq f OPTIONAL) eqn:N1.
    + destruct args as [|a [|? ?]]; try discriminate S. destruct (convert a) as [w|] eqn:C; [|discriminate]. inversion F; subst.
      destruct (convert_annotation C) as [Aw Cw]; [assumption|]. apply (@union_annotation [w; PClass NONE_TYPE]); [| |exact S].
      * constructor; [exact Aw|]. constructor; [|constructor]. apply an_special. now left.
      * cbn [convert_all]. now rewrite Cw.
    + destruct (py_eq f (PObject 1)) eqn:N2; [injection S as <-; now apply literal_annotation|].
      destruct (generic f) as [o|] eqn:G; [|discriminate]. destruct (convert_all args) as [vs|] eqn:C; [|discriminate].
      destruct (takes f (map type_tag vs)) eqn:T; [|discriminate]. injection S as <-. destruct (convert_all_annotations C F) as [Fv Cv].
      destruct (generics G) as (U & L & Sp & Nm). eapply an_alias; eauto.
Qed.
Lemma dget_in_values {A} k (l : list (pystr * A)) v : dget k l = Some v -> In v (map snd l).
Proof.
  induction l as [|[k' a] l IH]; [discriminate|]. rewrite dget_cons. destruct (k == k'); [intros E; injection E as ->; now left|]. intros E. right. now apply IH.
Qed.
Lemma type_var_annotation n args keywords v : Forall (annotation false) args -> Forall (annotation false) (map snd keywords) ->
  type_var n args keywords = Some v -> annotation false v.
Proof.
  intros F K T. unfold type_var in T. destruct args as [|[?|?|? ?|? ?|? ?|?|[] ?|name|?|? ?|?|? ? ? ? ? ?|? ? ? ? ?|?|?|? ? ?] cs]; try discriminate T.
  inversion F as [|? ? An Fc]; subst. inversion An; subst.
  destruct (convert_all cs) as [ds|] eqn:C; [|discriminate]. destruct (convert_all_annotations C Fc) as [Fd Cd].
  set (B := match dget $"bound" keywords with Some b => if is_none b then Some NONE else convert b | None => Some NONE end) in T.
  destruct B as [b|] eqn:Eb; [|discriminate]. subst B. destruct (flag (dget $"contravariant" keywords)) as [c|]; [|discriminate]. destruct (flag (dget $"covariant" keywords)) as [d|]; [|discriminate].
  destruct (c && d || (length ds =? 1) || negb (is_nil ds) && negb (is_none b)) eqn:Bad; [discriminate|]. injection T as <-.
  apply orb_false_iff in Bad. destruct Bad as [Bad B3]. apply orb_false_iff in Bad. destruct Bad as [B1 B2].
  apply an_type_var; auto.
  - destruct (dget $"bound" keywords) as [b0|] eqn:D; [|left; congruence]. destruct (is_none b0); [left; congruence|].
    right. apply (convert_annotation Eb). rewrite Forall_forall in K. apply K. eapply dget_in_values; eauto.
  - now apply Nat.eqb_neq.
  - destruct ds; [now left|]. right. cbn in B3. apply negb_false_iff in B3. destruct b; try discriminate B3. cbn in B3. apply eqb_to_eq in B3. now subst.
Qed.

Fixpoint size (e : expr) : nat :=
  match e with
  | EAttribute e _ => S (size e)
  | ECall f args => S (size f + list_sum (map (fun a => size (snd a)) args))
  | ESubscript f i => S (size f + size i)
  | ETuple es | EList es | ESet es => S (list_sum (map size es))
  | _ => 1
  end.
Theorem value_annotation e n v n' : Forall valid_str (strings e) -> evaluate e n = Some (v, n') -> annotation false v.
Proof.
  remember (size e) as k eqn:Ek. revert e Ek n v n'. induction k as [k IH] using lt_wf_ind. intros e -> n v n' Sv E.
  assert (All : forall es n vs n', list_sum (map size es) < size e -> Forall valid_str (flat_map strings es) -> evaluate_all es n = Some (vs, n') -> Forall (annotation false) vs).
  { induction es as [|e0 es IHes]; intros m vs m' L Fs Ev; cbn [AnnotationTextProofs.evaluate_all flat_map] in Fs, Ev; [injection Ev as <- <-; constructor|].
    apply Forall_app in Fs. destruct Fs as [F0 Fs]. destruct (evaluate e0 m) as [[v0 m1]|] eqn:E0; [|discriminate].
    destruct (evaluate_all es m1) as [[ws m2]|] eqn:E1; [|discriminate]. injection Ev as <- <-. constructor.
    - change (list_sum (map size (e0 :: es))) with (size e0 + list_sum (map size es)) in L. eapply (IH (size e0)); eauto. lia.
    - change (list_sum (map size (e0 :: es))) with (size e0 + list_sum (map size es)) in L. eapply IHes; eauto. lia. }
  destruct e as [name|e name|f args|f i|s|z|x|x|bs|es|es|items|es]; try discriminate E.
  - cbn in E. destruct (namespace [name]) as [w|] eqn:Nw; [|discriminate]. injection E as <- <-. now apply (named Nw).
  - cbn [SpecAnnotationText.evaluate] in E. destruct (dotted (EAttribute e name)) as [p|]; [|discriminate].
    destruct (namespace p) as [w|] eqn:Nw; [|discriminate]. injection E as <- <-. now apply (named Nw).
  - rewrite evaluate_call in E. cbn [strings] in Sv. apply Forall_app in Sv. destruct Sv as [Sf Sa].
    destruct (evaluate f n) as [[fv n1]|] eqn:Ef; [|discriminate].
    assert (Args : forall l m vs m', (list_sum (map (fun a => size (snd a)) l) < size (ECall f args)) -> Forall valid_str (flat_map (fun a => strings (snd a)) l) ->
      evaluate_arguments l m = Some (vs, m') -> Forall (annotation false) (map snd vs)).
    { clear Sa E. induction l as [|[k0 e0] l IHl]; intros m vs m' L Fs Ev; cbn [AnnotationTextProofs.evaluate_arguments flat_map snd] in Fs, Ev; [injection Ev as <- <-; constructor|].
      apply Forall_app in Fs. destruct Fs as [F0 Fs]. destruct (evaluate e0 m) as [[v0 m1]|] eqn:E0; [|discriminate].
      destruct (evaluate_arguments l m1) as [[ws m2]|] eqn:E1; [|discriminate]. injection Ev as <- <-. constructor.
      - change (list_sum (map (fun a : option pystr * expr => size (snd a)) ((k0, e0) :: l))) with (size e0 + list_sum (map (fun a : option pystr * expr => size (snd a)) l)) in L. eapply (IH (size e0)); eauto. lia.
      - change (list_sum (map (fun a : option pystr * expr => size (snd a)) ((k0, e0) :: l))) with (size e0 + list_sum (map (fun a : option pystr * expr => size (snd a)) l)) in L. eapply IHl; eauto. lia. }
    destruct (evaluate_arguments args n1) as [[vs n2]|] eqn:Ea; [|discriminate].
    assert (Fv : Forall (annotation false) (map snd vs)) by (apply (Args args n1 vs n2); [cbn [size]; lia|exact Sa|exact Ea]).
    destruct (py_eq fv (PClass TYPE)).
    + destruct vs as [|[[k0|] w] [|? ?]]; try discriminate E. destruct (type_of w) as [u|] eqn:Tw; [|discriminate]. injection E as <- <-.
      destruct w as [?|oi|? ?|? ?|? ?|?|[] ?|?|?|? ?|?|? ? ? ? ? ?|? ? ? ? ?|?|?|? ? ?]; try discriminate Tw. cbn in Tw.
      destruct (oi == 2%N); [injection Tw as <-; apply an_special; now left|].
      destruct (oi == 4%N); [injection Tw as <-; apply an_special; right; now left|].
      destruct (oi == 5%N); [injection Tw as <-; apply an_special; right; now right|discriminate].
    + destruct (py_eq fv (PClass TYPE_VAR)); [|discriminate]. destruct (type_var n2 (positional_values vs) (keyword_values vs)) as [u|] eqn:Tv; [|discriminate]. injection E as <- <-.
      eapply type_var_annotation; [| |exact Tv].
      * rewrite Forall_forall in *. intros x Hx. apply Fv. unfold positional_values in Hx. apply in_flat_map in Hx. destruct Hx as ([[?|] y] & Hy & Hx); cbn in Hx; [easy|].
        destruct Hx as [<-|[]]. apply in_map_iff. now exists (None, y).
      * rewrite Forall_forall in *. intros x Hx. apply Fv. apply in_map_iff in Hx. destruct Hx as ([k0 x0] & <- & Hx). unfold keyword_values in Hx. apply in_flat_map in Hx. destruct Hx as ([[k1|] y] & Hy & Hx); cbn in Hx; [|easy].
        destruct Hx as [Hx|[]]. injection Hx as <- <-. apply in_map_iff. now exists (Some k1, y).
  - cbn [SpecAnnotationText.evaluate] in E. cbn [strings] in Sv. apply Forall_app in Sv. destruct Sv as [Sf Si].
    destruct (evaluate f n) as [[fv n1]|] eqn:Ef; [|discriminate]. destruct (evaluate i n1) as [[iv n2]|] eqn:Ei; [|discriminate].
    destruct (subscript generic takes fv (index_arguments iv)) as [u|] eqn:Su; [|discriminate]. injection E as <- <-.
    eapply subscript_annotation; [|exact Su]. assert (Ai : annotation false iv) by (eapply (IH (size i)); eauto; cbn [size]; lia).
    destruct iv as [?|?|? ?|? ?|? ?|?|[] ?|?|?|? ?|?|? ? ? ? ? ?|? ? ? ? ?|?|?|? ? ?]; try (cbn [index_arguments]; constructor; [exact Ai|constructor]). cbn. inversion Ai; subst; assumption.
  - cbn in E. injection E as <- <-. inversion Sv; subst. now constructor.
  - cbn in E. injection E as <- <-. constructor.
  - rewrite evaluate_tuple in E. destruct (evaluate_all es n) as [[vs n2]|] eqn:Ea; [|discriminate]. injection E as <- <-. constructor. eapply All; eauto. cbn [size]. lia.
  - rewrite evaluate_list in E. destruct (evaluate_all es n) as [[vs n2]|] eqn:Ea; [|discriminate]. injection E as <- <-. constructor. eapply All; eauto. cbn [size]. lia.
Qed.
End Values.
