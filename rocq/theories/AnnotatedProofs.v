(** Proofs about value comparison. *)
From Verif Require Import Base Models SpecCall ModelsProofs ModelsMore Annotated SpecValue.
Set Implicit Arguments.

Section Ind.
Variable P : value -> Prop.
Hypothesis HClass : forall i, P (PClass i).
Hypothesis HObject : forall i, P (PObject i).
Hypothesis HBare : forall i o, P (PBareAlias i o).
Hypothesis HAlias : forall o args, Forall P args -> P (PAlias o args).
Hypothesis HBuiltin : forall o args, Forall P args -> P (PBuiltinAlias o args).
Hypothesis HUnion : forall args, Forall P args -> P (PUnionType args).
Hypothesis HSeq : forall t xs, Forall P xs -> P (PSequence t xs).
Hypothesis HStr : forall s, P (PString s).
Hypothesis HBytes : forall s, P (PBytes s).
Hypothesis HNum : forall t z, P (PNumber t z).
Hypothesis HNaN : forall i, P (PNaN i).
Hypothesis HTV : forall i n b c d cs, P b -> Forall P cs -> P (PTypeVar i n b c d cs).
Hypothesis HPS : forall i n b c d, P b -> P (PParamSpec i n b c d).
Hypothesis HPA : forall o, P o -> P (PParamSpecArgs o).
Hypothesis HPK : forall o, P o -> P (PParamSpecKwargs o).
Hypothesis HNT : forall i n s, P s -> P (PNewType i n s).

Fixpoint value_ind' (v : value) : P v :=
  let fix go (vs : list value) : Forall P vs :=
    match vs with
    | [] => Forall_nil P
    | x :: xs => Forall_cons x (value_ind' x) (go xs)
    end in
  match v with
  | PClass i => HClass i
  | PObject i => HObject i
  | PBareAlias i o => HBare i o
  | PAlias o args => HAlias o (go args)
  | PBuiltinAlias o args => HBuiltin o (go args)
  | PUnionType args => HUnion (go args)
  | PSequence t xs => HSeq t (go xs)
  | PString s => HStr s
  | PBytes s => HBytes s
  | PNumber t z => HNum t z
  | PNaN i => HNaN i
  | PTypeVar i n b c d cs => HTV i n c d (value_ind' b) (go cs)
  | PParamSpec i n b c d => HPS i n c d (value_ind' b)
  | PParamSpecArgs o => HPA (value_ind' o)
  | PParamSpecKwargs o => HPK (value_ind' o)
  | PNewType i n s => HNT i n (value_ind' s)
  end.
End Ind.

(** ** Lists *)
Lemma zip_Forall2 {A} (f : A -> A -> bool) xs ys :
  (length xs =? length ys) && all_map2 f xs ys = true <-> Forall2 (fun x y => f x y = true) xs ys.
Proof.
  revert ys. induction xs as [|x xs IH]; intros [|y ys]; cbn [length all_map2 Nat.eqb].
  - split; [constructor | easy].
  - split; [easy | intros H; inv H].
  - split; [easy | intros H; inv H].
  - assert (E : (length xs =? length ys) && (f x y && all_map2 f xs ys)
      = f x y && ((length xs =? length ys) && all_map2 f xs ys))
      by (destruct (length xs =? length ys), (f x y), (all_map2 f xs ys); reflexivity).
    rewrite E, andb_true_iff, IH. split; [intros [H1 H2]; now constructor | intros H; now inv H].
Qed.

Lemma zip_all {A} (f : A -> A -> bool) xs :
  Forall (fun x => f x x = true) xs -> all_map2 f xs xs = true.
Proof. induction 1 as [|x xs Hx _ IH]; cbn; [easy|]. now rewrite Hx. Qed.

Lemma existsb_refl {A} (f : A -> A -> bool) xs ys :
  incl xs ys -> Forall (fun x => f x x = true) xs -> forallb (fun a => existsb (f a) ys) xs = true.
Proof.
  intros Hi Hf. apply forallb_forall. intros a Ha. apply existsb_exists. exists a.
  rewrite Forall_forall in Hf. auto.
Qed.
Lemma existsb_refl' {A} (f : A -> A -> bool) xs ys :
  incl xs ys -> Forall (fun x => f x x = true) xs ->
  forallb (fun b => existsb (fun a => f a b) ys) xs = true.
Proof.
  intros Hi Hf. apply forallb_forall. intros a Ha. apply existsb_exists. exists a.
  rewrite Forall_forall in Hf. auto.
Qed.

Lemma sequence_type_eqb_eq t t' : sequence_type_eqb t t' = true <-> t = t'.
Proof. destruct t, t'; cbn; split; congruence. Qed.

(** ** Reflexivity *)
Lemma Forall_nan (Q : value -> Prop) xs :
  Forall (fun x => without_nan x = true -> Q x) xs -> forallb without_nan xs = true -> Forall Q xs.
Proof.
  intros H F. rewrite forallb_forall in F. rewrite Forall_forall in *. auto.
Qed.

Ltac refl_lists := rewrite ?eqb_refl, ?Nat.eqb_refl; cbn [andb].

Lemma py_eq_refl v : without_nan v = true -> py_eq v v = true.
Proof.
  induction v as [i|i|i o|o args IH|o args IH|args IH|t xs IH|s|s|t z|i|i n b c d cs IHb IHc
    |i n b c d IH|o IH|o IH|i n s IH] using value_ind'; cbn [without_nan]; intros H;
    try (cbn; apply eqb_refl); try discriminate H; try (cbn; now apply IH).
  - apply (Forall_nan _ IH) in H.
    assert (H' : Forall (fun x => same_nan x x || py_eq x x = true) args)
      by (revert H; apply Forall_impl; intros x ->; apply orb_true_r).
    cbn. refl_lists. destruct (o == UNION); [|destruct (o == LITERAL)].
    + apply andb_true_iff. split; [now apply existsb_refl | now apply existsb_refl'].
    + assert (H2 : Forall (fun x => same_type x x && (same_nan x x || py_eq x x) = true) args)
        by (revert H'; apply Forall_impl; intros x ->; unfold same_type; now rewrite eqb_refl).
      apply andb_true_iff. split; [now apply existsb_refl | now apply existsb_refl'].
    + now apply zip_all.
  - apply (Forall_nan _ IH) in H.
    cbn. refl_lists. apply zip_all. revert H; apply Forall_impl; intros x ->; apply orb_true_r.
  - apply (Forall_nan _ IH) in H.
    assert (H' : Forall (fun x => same_nan x x || py_eq x x = true) args)
      by (revert H; apply Forall_impl; intros x ->; apply orb_true_r).
    cbn. apply andb_true_iff. split; [now apply existsb_refl | now apply existsb_refl'].
  - apply (Forall_nan _ IH) in H. destruct t; cbn; refl_lists;
    apply zip_all; revert H; apply Forall_impl; intros x ->; apply orb_true_r.
Qed.

Lemma are_equal_refl v : without_nan v = true -> are_equal v v = true.
Proof.
  induction v as [i|i|i o|o args IH|o args IH|args IH|t xs IH|s|s|t z|i|i n b c d cs IHb IHc
    |i n b c d IH|o IH|o IH|i n s IH] using value_ind'; intros H;
    try (lazymatch type of H with without_nan ?v = true => exact (@py_eq_refl v H) end);
    cbn [without_nan] in H; try (cbn; now apply IH).
  - cbn. now rewrite eqb_refl.
  - apply (Forall_nan _ IH) in H. cbn. refl_lists. destruct (_ || _).
    + apply andb_true_iff. split; [now apply existsb_refl | now apply existsb_refl'].
    + now apply zip_all.
  - apply (Forall_nan _ IH) in H. cbn. refl_lists. now apply zip_all.
  - apply (Forall_nan _ IH) in H. cbn. rewrite (proj2 (sequence_type_eqb_eq t t) eq_refl). refl_lists.
    now apply zip_all.
  - apply andb_true_iff in H as [H1 H2]. apply (Forall_nan _ IHc) in H2. cbn.
    rewrite (IHb H1). refl_lists. now apply zip_all.
  - cbn. rewrite (IH H). now refl_lists.
  - cbn. rewrite (IH H). now refl_lists.
Qed.

(** ** The first branch: classes, aliases, unions *)
Definition head (v : value) : option (ident * list value) :=
  match v with
  | PClass i => Some (CId i, [])
  | PAlias o args => Some (o, args)
  | PUnionType args => Some (UNION_TYPE, args)
  | _ => None
  end.

Definition set_like (o : ident) : bool := (o == UNION) || (o == LITERAL).

Definition mutual (eq : value -> value -> bool) (xs ys : list value) : Prop :=
  (forall a, In a xs -> exists b, In b ys /\ eq a b = true)
  /\ (forall b, In b ys -> exists a, In a xs /\ eq a b = true).

Definition args_equal (eq : value -> value -> bool) (o : ident) (xs ys : list value) : Prop :=
  length xs = length ys
  /\ if set_like o then mutual eq xs ys else Forall2 (fun a b => eq a b = true) xs ys.

Lemma mutual_spec eq xs ys :
  forallb (fun a => existsb (fun b => eq a b) ys) xs
  && forallb (fun b => existsb (fun a => eq a b) xs) ys = true <-> mutual eq xs ys.
Proof.
  unfold mutual. rewrite andb_true_iff, !forallb_forall.
  split; intros [H1 H2]; (split; intros a Ha; [specialize (H1 a Ha) | specialize (H2 a Ha)]).
  all: rewrite existsb_exists in *; easy.
Qed.

Lemma head_equal l r o xs :
  head l = Some (o, xs) -> tame l = true -> tame r = true ->
  are_equal l r = true <-> exists ys, head r = Some (o, ys) /\ args_equal are_equal o xs ys.
Proof.
  intros Hl Tl Tr.
  assert (Hr : forall o' , origin_or_self r = Some o' ->
    head r = Some (o', to_arguments r) \/ head r = None /\ to_arguments r = [] /\ exists i, o' = OId i).
  { intros o' E. destruct r; cbn in E; try discriminate; injection E as <-; cbn; eauto; discriminate Tr. }
  assert (Hr' : forall o' ys, head r = Some (o', ys) -> origin_or_self r = Some o' /\ to_arguments r = ys).
  { intros o' ys E. destruct r; cbn in E; try discriminate; injection E as <- <-; easy. }
  assert (Main : are_equal l r = true <->
    exists o', origin_or_self r = Some o' /\ o = o' /\ args_equal are_equal o xs (to_arguments r)).
  { unfold args_equal. destruct l; cbn in Hl; try discriminate; injection Hl as <- <-; cbn [are_equal];
      (destruct (origin_or_self r) as [o'|]; [|split; [easy | intros (? & ? & _); easy]]).
    - change (set_like (CId id)) with false. rewrite andb_true_iff, eqb_eq, Nat.eqb_eq. split.
      + intros [-> E]. exists o'. repeat split; auto. destruct (to_arguments r); [constructor | easy].
      + intros (? & E1 & E2 & E3 & _). injection E1 as <-. split; auto.
    - unfold set_like. rewrite !andb_true_iff, eqb_eq. split.
      + intros [[-> E] H]. exists o'. apply Nat.eqb_eq in E. repeat split; auto.
        destruct (_ || _); [now apply mutual_spec | apply zip_Forall2; now rewrite E, Nat.eqb_refl].
      + intros (? & E1 & E2 & E3 & H). injection E1 as <-. rewrite Nat.eqb_eq. repeat split; auto.
        destruct (_ || _); [now apply mutual_spec | apply zip_Forall2 in H; now apply andb_true_iff in H].
    - change (set_like UNION_TYPE) with false. rewrite !andb_true_iff, eqb_eq. split.
      + intros [[<- E] H]. exists UNION_TYPE. apply Nat.eqb_eq in E. repeat split; auto.
        apply zip_Forall2; now rewrite E, Nat.eqb_refl.
      + intros (? & E1 & E2 & E3 & H). injection E1 as <-. rewrite Nat.eqb_eq. repeat split; auto.
        apply zip_Forall2 in H; now apply andb_true_iff in H. }
  rewrite Main. split.
  - intros (o' & E & <- & H). destruct (Hr _ E) as [E'|(E1 & E2 & i & ->)].
    + eauto.
    + exfalso. destruct H as [H _]. rewrite E2 in H. destruct xs; [|easy].
      destruct l; cbn in Hl; try discriminate; injection Hl as -> ->; try discriminate.
  - intros (ys & E & H). destruct (Hr' _ _ E) as [E1 E2]. exists o. rewrite E2. auto.
Qed.

(** ** Symmetry *)
Definition tame_all (xs : list value) : Forall (fun x => tame x = true) xs <-> forallb tame xs = true.
Proof. rewrite Forall_forall, forallb_forall. tauto. Qed.

Lemma head_tame v o xs : head v = Some (o, xs) -> tame v = true -> Forall (fun x => tame x = true) xs.
Proof.
  intros E T. destruct v; cbn in E; try discriminate; injection E as <- <-; cbn in T.
  - constructor.
  - apply andb_true_iff in T as [T _]. now apply tame_all.
  - now apply tame_all.
Qed.

Lemma Forall2_sym_on (xs ys : list value) :
  Forall (fun u => forall v, tame u = true -> tame v = true -> are_equal u v = true -> are_equal v u = true) xs ->
  Forall (fun x => tame x = true) xs -> Forall (fun x => tame x = true) ys ->
  Forall2 (fun a b => are_equal a b = true) xs ys -> Forall2 (fun a b => are_equal a b = true) ys xs.
Proof.
  intros IH Tx Ty F. induction F as [|x y xs ys H F IHF]; [constructor|].
  inv IH. inv Tx. inv Ty. constructor; auto.
Qed.

Lemma args_sym_on o xs ys :
  Forall (fun u => forall v, tame u = true -> tame v = true -> are_equal u v = true -> are_equal v u = true) xs ->
  Forall (fun x => tame x = true) xs -> Forall (fun x => tame x = true) ys ->
  args_equal are_equal o xs ys -> args_equal are_equal o ys xs.
Proof.
  intros IH Tx Ty [E H]. split; [easy|]. destruct (set_like o).
  - rewrite Forall_forall in *. destruct H as [H1 H2]. split; intros a Ha.
    + destruct (H2 a Ha) as (b & Hb & Hab). exists b. auto.
    + destruct (H1 a Ha) as (b & Hb & Hab). exists b. auto.
  - now apply Forall2_sym_on.
Qed.

Lemma sequence_inv t xs r : are_equal (PSequence t xs) r = true ->
  exists ys, r = PSequence t ys /\ Forall2 (fun a b => are_equal a b = true) xs ys.
Proof.
  cbn. destruct r as [| | | | | |t' ys| | | | | | | | |]; try discriminate.
  rewrite !andb_true_iff. intros [[H1 H2] H3]. apply sequence_type_eqb_eq in H1 as ->.
  exists ys. split; [easy|]. apply zip_Forall2. now rewrite H2.
Qed.
Lemma sequence_equal t xs ys : Forall2 (fun a b => are_equal a b = true) xs ys ->
  are_equal (PSequence t xs) (PSequence t ys) = true.
Proof.
  intros H. apply zip_Forall2 in H. cbn.
  rewrite (proj2 (sequence_type_eqb_eq t t) eq_refl). exact H.
Qed.

Lemma tame_sequence t xs : tame (PSequence t xs) = true -> Forall (fun x => tame x = true) xs.
Proof. intros H. apply tame_all. destruct t; [exact H | exact H | discriminate H]. Qed.

Lemma typevar_inv i n b c d cs r : are_equal (PTypeVar i n b c d cs) r = true ->
  exists i' b' cs', r = PTypeVar i' n b' c d cs' /\ are_equal b b' = true
    /\ Forall2 (fun a b => are_equal a b = true) cs cs'.
Proof.
  cbn. destruct r as [| | | | | | | | | | |i' n' b' c' d' cs'| | | |]; try discriminate.
  rewrite !andb_true_iff. intros [[[[[H1 H2] H3] H4] H5] H6].
  apply eqb_to_eq in H1, H3, H4. subst. exists i', b', cs'. repeat split; auto.
  apply zip_Forall2. now rewrite H5.
Qed.
Lemma typevar_equal i i' n b b' c d cs cs' : are_equal b b' = true ->
  Forall2 (fun a b => are_equal a b = true) cs cs' ->
  are_equal (PTypeVar i n b c d cs) (PTypeVar i' n b' c d cs') = true.
Proof.
  intros H F. apply zip_Forall2, andb_true_iff in F as [F1 F2]. cbn.
  now rewrite H, F1, F2, !eqb_refl.
Qed.

Lemma are_equal_sym u : forall v,
  tame u = true -> tame v = true -> are_equal u v = true -> are_equal v u = true.
Proof.
  induction u as [i|i|i o|o args IH|o args IH|args IH|t xs IH|s|s|t z|i|i n b c d cs IHb IHc
    |i n b c d IH|o IH|o IH|i n s IH] using value_ind'; intros v Tu Tv E; try discriminate Tu.
  - assert (Hh : head (PClass i) = Some (CId i, [])) by reflexivity.
    apply (head_equal _ _ Hh Tu Tv) in E as (ys & Hv & A).
    apply (head_equal _ _ Hv Tv Tu). eexists. split; [exact Hh|].
    apply args_sym_on; auto. now apply (head_tame _ Hv).
  - cbn in E. destruct v; try discriminate. cbn. now rewrite eqb_sym.
  - assert (Hh : head (PAlias o args) = Some (o, args)) by reflexivity.
    apply (head_equal _ _ Hh Tu Tv) in E as (ys & Hv & A).
    apply (head_equal _ _ Hv Tv Tu). eexists. split; [exact Hh|].
    apply args_sym_on; auto; [now apply (head_tame _ Hh) | now apply (head_tame _ Hv)].
  - assert (Hh : head (PUnionType args) = Some (UNION_TYPE, args)) by reflexivity.
    apply (head_equal _ _ Hh Tu Tv) in E as (ys & Hv & A).
    apply (head_equal _ _ Hv Tv Tu). eexists. split; [exact Hh|].
    apply args_sym_on; auto; [now apply (head_tame _ Hh) | now apply (head_tame _ Hv)].
  - apply sequence_inv in E as (ys & -> & F). apply sequence_equal.
    apply Forall2_sym_on; auto; eapply tame_sequence; eauto.
  - cbn in E. destruct v; try discriminate. cbn. now rewrite eqb_sym.
  - cbn in E. destruct v as [| | | | | |[] ?| | | | | | | | |]; try discriminate. cbn. now rewrite eqb_sym.
  - cbn in E. destruct v; try discriminate. cbn. now rewrite eqb_sym.
  - apply typevar_inv in E as (i' & b' & cs' & -> & Eb & F). cbn in Tu, Tv.
    apply andb_true_iff in Tu as [Tu1 Tu2], Tv as [Tv1 Tv2].
    apply typevar_equal; [now apply IHb|]. apply Forall2_sym_on; auto; now apply tame_all.
  - cbn in E. destruct v as [| | | | | | | | | | | |i' n' b' c' d'| | |]; try discriminate.
    rewrite !andb_true_iff in E. destruct E as [[[E1 E2] E3] E4]. cbn in Tu, Tv. cbn.
    rewrite (IH _ Tu Tv E2), (eqb_sym n'), (eqb_sym c'), (eqb_sym d'), E1, E3, E4. easy.
  - cbn in E. destruct v; try discriminate. cbn in *. now apply IH.
  - cbn in E. destruct v; try discriminate. cbn in *. now apply IH.
  - cbn in E. destruct v; try discriminate. cbn in *. apply andb_true_iff in E as [E1 E2].
    rewrite (eqb_sym qualname), E1. now apply IH.
Qed.

(** ** Transitivity *)
Definition trans_at (u : value) : Prop := forall v w,
  tame u = true -> tame v = true -> tame w = true ->
  are_equal u v = true -> are_equal v w = true -> are_equal u w = true.

Lemma Forall2_trans_on (xs ys zs : list value) :
  Forall trans_at xs ->
  Forall (fun x => tame x = true) xs -> Forall (fun x => tame x = true) ys ->
  Forall (fun x => tame x = true) zs ->
  Forall2 (fun a b => are_equal a b = true) xs ys ->
  Forall2 (fun a b => are_equal a b = true) ys zs ->
  Forall2 (fun a b => are_equal a b = true) xs zs.
Proof.
  intros IH Tx Ty Tz F. revert zs Tz. induction F as [|x y xs ys H F IHF]; intros zs Tz G; inv G; [constructor|].
  inv IH. inv Tx. inv Ty. inv Tz. constructor; [eauto|]. now apply IHF.
Qed.

Lemma args_trans_on o xs ys zs :
  Forall trans_at xs ->
  Forall (fun x => tame x = true) xs -> Forall (fun x => tame x = true) ys ->
  Forall (fun x => tame x = true) zs ->
  args_equal are_equal o xs ys -> args_equal are_equal o ys zs -> args_equal are_equal o xs zs.
Proof.
  intros IH Tx Ty Tz [E1 H1] [E2 H2]. split; [congruence|]. destruct (set_like o).
  - rewrite Forall_forall in *. destruct H1 as [H1 H1'], H2 as [H2 H2']. split; intros a Ha.
    + destruct (H1 a Ha) as (b & Hb & Hab). destruct (H2 b Hb) as (c & Hc & Hbc).
      exists c. split; [easy|]. apply (IH a Ha b c); auto.
    + destruct (H2' a Ha) as (b & Hb & Hab). destruct (H1' b Hb) as (c & Hc & Hbc).
      exists c. split; [easy|]. apply (IH c Hc b a); auto.
  - now apply (@Forall2_trans_on xs ys zs).
Qed.

Lemma head_trans u o xs : head u = Some (o, xs) -> Forall trans_at xs -> trans_at u.
Proof.
  intros Hu IH v w Tu Tv Tw E1 E2.
  apply (head_equal _ _ Hu Tu Tv) in E1 as (ys & Hv & A1).
  apply (head_equal _ _ Hv Tv Tw) in E2 as (zs & Hw & A2).
  apply (head_equal _ _ Hu Tu Tw). exists zs. split; [easy|].
  apply (@args_trans_on o xs ys zs); auto;
    [now apply (head_tame _ Hu) | now apply (head_tame _ Hv) | now apply (head_tame _ Hw)].
Qed.

Lemma are_equal_trans u : trans_at u.
Proof.
  induction u as [i|i|i o|o args IH|o args IH|args IH|t xs IH|s|s|t z|i|i n b c d cs IHb IHc
    |i n b c d IH|o IH|o IH|i n s IH] using value_ind'; try (intros v w Tu; discriminate Tu).
  - eapply head_trans; [reflexivity | constructor].
  - intros v w _ _ _ E1 E2. cbn in E1. destruct v; try discriminate. apply eqb_to_eq in E1. now subst.
  - eapply head_trans; [reflexivity | assumption].
  - eapply head_trans; [reflexivity | assumption].
  - intros v w Tu Tv Tw E1 E2. apply sequence_inv in E1 as (ys & -> & F1).
    apply sequence_inv in E2 as (zs & -> & F2). apply sequence_equal.
    apply (@Forall2_trans_on xs ys zs); auto; eapply tame_sequence; eauto.
  - intros v w _ _ _ E1 E2. cbn in E1. destruct v; try discriminate. apply eqb_to_eq in E1. now subst.
  - intros v w _ Tv _ E1 E2. cbn in E1. destruct v as [| | | | | |[] ?| | | | | | | | |]; try discriminate.
    apply eqb_to_eq in E1. now subst.
  - intros v w _ _ _ E1 E2. cbn in E1. destruct v; try discriminate. apply eqb_to_eq in E1. subst.
    exact E2.
  - intros v w Tu Tv Tw E1 E2. apply typevar_inv in E1 as (i1 & b1 & cs1 & -> & Eb1 & F1).
    apply typevar_inv in E2 as (i2 & b2 & cs2 & -> & Eb2 & F2). cbn in Tu, Tv, Tw.
    apply andb_true_iff in Tu as [Tu1 Tu2], Tv as [Tv1 Tv2], Tw as [Tw1 Tw2].
    apply typevar_equal; [now apply (IHb b1 b2)|].
    apply (@Forall2_trans_on cs cs1 cs2); auto; now apply tame_all.
  - intros v w Tu Tv Tw E1 E2. cbn in E1, E2.
    destruct v as [| | | | | | | | | | | |i1 n1 b1 c1 d1| | |]; try discriminate.
    cbn in E2. destruct w as [| | | | | | | | | | | |i2 n2 b2 c2 d2| | |]; try discriminate.
    rewrite !andb_true_iff in *. destruct E1 as [[[E1 F1] G1] H1], E2 as [[[E2 F2] G2] H2].
    apply eqb_to_eq in E1, E2, G1, G2, H1, H2. subst. cbn in *.
    rewrite (IH b1 b2), !eqb_refl by easy. easy.
  - intros v w Tu Tv Tw E1 E2. cbn in E1. destruct v; try discriminate. cbn in E2.
    destruct w; try discriminate. cbn in *. eauto.
  - intros v w Tu Tv Tw E1 E2. cbn in E1. destruct v; try discriminate. cbn in E2.
    destruct w; try discriminate. cbn in *. eauto.
  - intros v w Tu Tv Tw E1 E2. cbn in E1. destruct v; try discriminate. cbn in E2.
    destruct w; try discriminate. cbn in *. rewrite andb_true_iff in *.
    destruct E1 as [E1 F1], E2 as [E2 F2]. apply eqb_to_eq in E1, E2. subst.
    split; [apply eqb_refl | eauto].
Qed.

(** ** Comparison implies Python's [==] on plain values *)
Lemma plain_tame v : plain_value v = true -> tame v = true.
Proof.
  induction v as [i|i|i o|o args IH|o args IH|args IH|t xs IH|s|s|t z|i|i n b c d cs IHb IHc
    |i n b c d IH|o IH|o IH|i n s IH] using value_ind'; cbn [plain_value tame]; try easy.
  - rewrite !andb_true_iff. intros [[_ Hn] H]. split.
    + apply forallb_forall. rewrite forallb_forall in H. rewrite Forall_forall in IH. auto.
    + destruct o, args; easy.
  - rewrite !andb_true_iff. intros [_ H]. apply forallb_forall. rewrite forallb_forall in H.
    rewrite Forall_forall in IH. auto.
  - destruct t; intros H; try easy; apply forallb_forall; rewrite forallb_forall in H;
    rewrite Forall_forall in IH; auto.
Qed.

Definition implies_at (u : value) : Prop := forall v,
  plain_value u = true -> plain_value v = true -> are_equal u v = true -> py_eq u v = true.

Lemma Forall2_implies xs ys :
  Forall implies_at xs -> forallb plain_value xs = true -> forallb plain_value ys = true ->
  Forall2 (fun a b => are_equal a b = true) xs ys ->
  Forall2 (fun a b => same_nan a b || py_eq a b = true) xs ys.
Proof.
  intros IH Px Py F. induction F as [|x y xs ys H F IHF]; [constructor|].
  inv IH. cbn in Px, Py. apply andb_true_iff in Px as [Px1 Px2], Py as [Py1 Py2].
  constructor; [|auto]. rewrite H2; auto. apply orb_true_r.
Qed.

Lemma mutual_implies xs ys :
  Forall implies_at xs -> forallb plain_value xs = true -> forallb plain_value ys = true ->
  mutual are_equal xs ys -> mutual (fun a b => same_nan a b || py_eq a b) xs ys.
Proof.
  intros IH Px Py [H1 H2]. rewrite Forall_forall in IH. rewrite forallb_forall in *.
  split; intros a Ha.
  - destruct (H1 a Ha) as (b & Hb & E). exists b. split; [easy|].
    rewrite (IH a Ha b); auto. apply orb_true_r.
  - destruct (H2 a Ha) as (b & Hb & E). exists b. split; [easy|].
    rewrite (IH b Hb a); auto. apply orb_true_r.
Qed.

Lemma Forall2_mutual (R : value -> value -> bool) xs ys :
  Forall2 (fun a b => R a b = true) xs ys -> mutual R xs ys.
Proof.
  intros F. induction F as [|x y xs ys H F [IH1 IH2]]; [split; easy|].
  split; intros a [<-|Ha].
  - exists y. split; [now left | easy].
  - destruct (IH1 a Ha) as (b & Hb & E). exists b. split; [now right | easy].
  - exists x. split; [now left | easy].
  - destruct (IH2 a Ha) as (b & Hb & E). exists b. split; [now right | easy].
Qed.

Lemma plain_head v o xs : head v = Some (o, xs) -> plain_value v = true ->
  v = PClass match o with CId i => i | OId i => i end /\ xs = []
  \/ v = PAlias o xs /\ o <> LITERAL /\ o <> UNION_TYPE /\ xs <> [] /\ forallb plain_value xs = true
  \/ v = PUnionType xs /\ o = UNION_TYPE /\ xs <> [] /\ forallb plain_value xs = true.
Proof.
  intros E P. destruct v; cbn in E; try discriminate; injection E as <- <-; cbn [plain_value] in P.
  - now left.
  - right. left. rewrite !andb_true_iff, !negb_true_iff in P. destruct P as [[[H1 H2] H3] H4].
    apply eqb_neq in H1, H2. repeat split; auto. now intros ->.
  - right. right. rewrite !andb_true_iff, !negb_true_iff in P. destruct P as [H3 H4].
    repeat split; auto. now intros ->.
Qed.

Lemma head_implies u o xs : head u = Some (o, xs) -> Forall implies_at xs -> implies_at u.
Proof.
  intros Hu IH v Pu Pv E.
  apply (head_equal _ _ Hu (plain_tame _ Pu) (plain_tame _ Pv)) in E as (ys & Hv & El & A).
  destruct (plain_head _ Hu Pu) as [[-> ->]|[(-> & L1 & L1' & N1 & P1)|(-> & L1 & N1 & P1)]],
           (plain_head _ Hv Pv) as [[-> ->]|[(-> & L2 & L2' & N2 & P2)|(-> & L2 & N2 & P2)]];
    try (destruct xs; [congruence | discriminate El]);
    try (destruct ys; [congruence | discriminate El]); try congruence.
  - cbn. apply eqb_refl.
  - cbn [py_eq]. rewrite eqb_refl. rewrite andb_true_l. unfold set_like in A.
    destruct (o == LITERAL) eqn:EL; [apply eqb_to_eq in EL; congruence|].
    destruct (o == UNION) eqn:EU.
    + apply mutual_spec. apply mutual_implies; auto.
    + cbn [orb] in A. apply zip_Forall2. apply Forall2_implies; auto.
  - subst o. cbn [py_eq]. cbn in A. apply mutual_spec, Forall2_mutual. apply Forall2_implies; auto.
Qed.

Lemma are_equal_implies u : implies_at u.
Proof.
  induction u as [i|i|i o|o args IH|o args IH|args IH|t xs IH|s|s|t z|i|i n b c d cs IHb IHc
    |i n b c d IH|o IH|o IH|i n s IH] using value_ind'; try (intros v Pu; discriminate Pu);
    try (intros v _ _ E; exact E).
  - eapply head_implies; [reflexivity | constructor].
  - eapply head_implies; [reflexivity | assumption].
  - eapply head_implies; [reflexivity | assumption].
  - intros v Pu Pv E. apply sequence_inv in E as (ys & -> & F). 
    destruct t; try discriminate Pu; cbn [py_eq sequence_type_eqb andb]; apply zip_Forall2;
    now apply Forall2_implies.
Qed.

(** ** Lifting to parameters and signatures *)
Section Lift.
Context {V : Type}.
Implicit Types (eq : V -> V -> bool) (good : V -> bool).

Lemma tuple_eq_ext {A} (eq1 eq2 : A -> A -> bool) xs ys :
  (forall x y, In x xs -> In y ys -> eq1 x y = eq2 x y) -> tuple_eq eq1 xs ys = tuple_eq eq2 xs ys.
Proof.
  revert ys. induction xs as [|x xs IH]; intros [|y ys] H; cbn; try easy.
  rewrite H by now left. rewrite IH; [easy|]. intros; apply H; now right.
Qed.

Lemma parameter_eq_ext eq1 eq2 (p q : parameter V) :
  (forall v w, In v (parameter_values p) -> In w (parameter_values q) -> eq1 v w = eq2 v w) ->
  parameter_eq eq1 p q = parameter_eq eq2 p q.
Proof.
  intros H.
  destruct p as [a k n|a [d|] k n], q as [a' k' n'|a' [d'|] k' n']; cbn in *; try easy;
    rewrite (H a a') by auto; try easy. rewrite (H d d') by auto. easy.
Qed.

Lemma plain_eq_ext eq1 eq2 (s t : plain_signature V) :
  (forall v w, In v (plain_values s) -> In w (plain_values t) -> eq1 v w = eq2 v w) ->
  plain_eq eq1 s t = plain_eq eq2 s t.
Proof.
  intros H. unfold plain_eq, plain_values in *. f_equal.
  - apply tuple_eq_ext. intros p q Hp Hq. apply parameter_eq_ext. intros v w Hv Hw.
    apply H; rewrite in_app_iff, in_flat_map; eauto.
  - apply H; rewrite in_app_iff; right; now left.
Qed.

Lemma signature_eq_ext eq1 eq2 (s t : signature V) :
  (forall v w, In v (signature_values s) -> In w (signature_values t) -> eq1 v w = eq2 v w) ->
  signature_eq eq1 s t = signature_eq eq2 s t.
Proof.
  destruct s as [s|ss], t as [t|ts]; cbn; intros H; try easy; [now apply plain_eq_ext|].
  apply tuple_eq_ext. intros p q Hp Hq. apply plain_eq_ext. intros v w Hv Hw.
  apply H; rewrite in_flat_map; eauto.
Qed.

(** [eq] where both sides are good, and otherwise something harmless *)
Definition restricted good eq (v w : V) : bool :=
  if good v then good w && eq v w else negb (good w).

Variables (good : V -> bool) (eq : V -> V -> bool).
Hypothesis good_refl : forall v, good v = true -> eq v v = true.
Hypothesis good_sym : forall v w, good v = true -> good w = true -> eq v w = true -> eq w v = true.
Hypothesis good_trans : forall u v w, good u = true -> good v = true -> good w = true ->
  eq u v = true -> eq v w = true -> eq u w = true.

Lemma restricted_refl v : restricted good eq v v = true.
Proof. unfold restricted. destruct (good v) eqn:E; cbn; auto. Qed.
Lemma restricted_sym v w : restricted good eq v w = restricted good eq w v.
Proof.
  unfold restricted. destruct (good v) eqn:E, (good w) eqn:E'; cbn; auto.
  apply eq_true_iff_eq. split; auto.
Qed.
Lemma restricted_trans u v w :
  restricted good eq u v = true -> restricted good eq v w = true -> restricted good eq u w = true.
Proof.
  unfold restricted. destruct (good u) eqn:E1, (good v) eqn:E2, (good w) eqn:E3; cbn; try easy. eauto.
Qed.

Lemma restricted_signature (s t : signature V) :
  Forall (fun v => good v = true) (signature_values s) -> Forall (fun v => good v = true) (signature_values t) ->
  signature_eq (restricted good eq) s t = signature_eq eq s t.
Proof.
  rewrite !Forall_forall. intros Hs Ht. apply signature_eq_ext. intros v w Hv Hw.
  unfold restricted. now rewrite (Hs v Hv), (Ht w Hw).
Qed.
Lemma restricted_parameter (s t : parameter V) :
  Forall (fun v => good v = true) (parameter_values s) -> Forall (fun v => good v = true) (parameter_values t) ->
  parameter_eq (restricted good eq) s t = parameter_eq eq s t.
Proof.
  rewrite !Forall_forall. intros Hs Ht. apply parameter_eq_ext. intros v w Hv Hw.
  unfold restricted. now rewrite (Hs v Hv), (Ht w Hw).
Qed.

Lemma good_signature_refl (s : signature V) :
  Forall (fun v => good v = true) (signature_values s) -> signature_eq eq s s = true.
Proof.
  intros H. rewrite <- restricted_signature by auto. apply signature_eq_refl, restricted_refl.
Qed.
Lemma good_signature_sym (s t : signature V) :
  Forall (fun v => good v = true) (signature_values s) -> Forall (fun v => good v = true) (signature_values t) ->
  signature_eq eq s t = signature_eq eq t s.
Proof.
  intros Hs Ht. rewrite <- !restricted_signature by auto. apply signature_eq_sym, restricted_sym.
Qed.
Lemma good_signature_trans (r s t : signature V) :
  Forall (fun v => good v = true) (signature_values r) ->
  Forall (fun v => good v = true) (signature_values s) -> Forall (fun v => good v = true) (signature_values t) ->
  signature_eq eq r s = true -> signature_eq eq s t = true -> signature_eq eq r t = true.
Proof.
  intros Hr Hs Ht. rewrite <- !restricted_signature by auto. apply (signature_eq_trans good). exact restricted_trans.
Qed.
Lemma good_parameter_refl (s : parameter V) :
  Forall (fun v => good v = true) (parameter_values s) -> parameter_eq eq s s = true.
Proof.
  intros H. rewrite <- restricted_parameter by auto. apply parameter_eq_refl, restricted_refl.
Qed.
Lemma good_parameter_sym (s t : parameter V) :
  Forall (fun v => good v = true) (parameter_values s) -> Forall (fun v => good v = true) (parameter_values t) ->
  parameter_eq eq s t = parameter_eq eq t s.
Proof.
  intros Hs Ht. rewrite <- !restricted_parameter by auto. apply parameter_eq_sym, restricted_sym.
Qed.
Lemma good_parameter_trans (r s t : parameter V) :
  Forall (fun v => good v = true) (parameter_values r) ->
  Forall (fun v => good v = true) (parameter_values s) -> Forall (fun v => good v = true) (parameter_values t) ->
  parameter_eq eq r s = true -> parameter_eq eq s t = true -> parameter_eq eq r t = true.
Proof.
  intros Hr Hs Ht. rewrite <- !restricted_parameter by auto. apply (parameter_eq_trans good). exact restricted_trans.
Qed.

Variables (hv : V -> option Z) (hs : pystr -> Z) (hk : kind -> Z) (ht : list Z -> Z).
Hypothesis good_hash : forall v w h h', good v = true -> good w = true -> eq v w = true ->
  hv v = Some h -> hv w = Some h' -> h = h'.

Let both v w := good v && (good w && eq v w).
Let both_hash v w h h' : both v w = true -> hv v = Some h -> hv w = Some h' -> h = h'.
Proof. unfold both. rewrite !andb_true_iff. intros (H1 & H2 & H3). now apply good_hash. Qed.

Lemma good_signature_hash (s t : signature V) h h' :
  Forall (fun v => good v = true) (signature_values s) -> Forall (fun v => good v = true) (signature_values t) ->
  signature_eq eq s t = true ->
  signature_hash hv hs hk ht s = Some h -> signature_hash hv hs hk ht t = Some h' -> h = h'.
Proof.
  intros Hs Ht E. apply (signature_hash_consistent both _ _ _ _ both_hash).
  rewrite <- E. rewrite !Forall_forall in *. apply signature_eq_ext. intros v w Hv Hw.
  unfold both. now rewrite (Hs v Hv), (Ht w Hw).
Qed.
Lemma good_parameter_hash (s t : parameter V) h h' :
  Forall (fun v => good v = true) (parameter_values s) -> Forall (fun v => good v = true) (parameter_values t) ->
  parameter_eq eq s t = true ->
  parameter_hash hv hs hk ht s = Some h -> parameter_hash hv hs hk ht t = Some h' -> h = h'.
Proof.
  intros Hs Ht E. apply (parameter_hash_consistent both _ _ _ _ both_hash).
  rewrite <- E. rewrite !Forall_forall in *. apply parameter_eq_ext. intros v w Hv Hw.
  unfold both. now rewrite (Hs v Hv), (Ht w Hw).
Qed.
End Lift.

(** ** The theorems for annotation values *)
Definition all_good (good : value -> bool) (vs : list value) : Prop := Forall (fun v => good v = true) vs.

Lemma tame_without_nan v : tame v = true -> without_nan v = true.
Proof.
  induction v as [i|i|i o|o args IH|o args IH|args IH|t xs IH|s|s|t z|i|i n b c d cs IHb IHc
    |i n b c d IH|o IH|o IH|i n s IH] using value_ind'; cbn [tame without_nan]; try easy.
  - rewrite andb_true_iff, !forallb_forall. rewrite Forall_forall in IH. intuition.
  - rewrite !forallb_forall. rewrite Forall_forall in IH. intuition.
  - destruct t; intros H; try discriminate H; rewrite forallb_forall in *; rewrite Forall_forall in IH; auto.
  - rewrite !andb_true_iff, !forallb_forall. rewrite Forall_forall in IHc. intuition.
Qed.

Lemma signature_values_refl (s : signature value) :
  all_good without_nan (signature_values s) -> signature_eq are_equal s s = true.
Proof.
  intros H. rewrite (@signature_eq_ext _ are_equal (fun v w => restricted without_nan
    (fun v w => are_equal v w) v w)).
  - apply signature_eq_refl. intros v. unfold restricted. destruct (without_nan v) eqn:E; cbn; [|easy].
    now apply are_equal_refl.
  - unfold all_good in H. rewrite Forall_forall in H. intros v w Hv Hw. unfold restricted.
    now rewrite (H v Hv), (H w Hw).
Qed.
Lemma signature_values_sym (s t : signature value) :
  all_good tame (signature_values s) -> all_good tame (signature_values t) ->
  signature_eq are_equal s t = signature_eq are_equal t s.
Proof. apply good_signature_sym. intros v w; apply are_equal_sym. Qed.
Lemma signature_values_trans (r s t : signature value) :
  all_good tame (signature_values r) -> all_good tame (signature_values s) -> all_good tame (signature_values t) ->
  signature_eq are_equal r s = true -> signature_eq are_equal s t = true -> signature_eq are_equal r t = true.
Proof. apply good_signature_trans. intros u v w; apply are_equal_trans. Qed.

Lemma parameter_values_refl (s : parameter value) :
  all_good without_nan (parameter_values s) -> parameter_eq are_equal s s = true.
Proof.
  intros H. rewrite (@parameter_eq_ext _ are_equal (fun v w => restricted without_nan
    (fun v w => are_equal v w) v w)).
  - apply parameter_eq_refl. intros v. unfold restricted. destruct (without_nan v) eqn:E; cbn; [|easy].
    now apply are_equal_refl.
  - unfold all_good in H. rewrite Forall_forall in H. intros v w Hv Hw. unfold restricted.
    now rewrite (H v Hv), (H w Hw).
Qed.
Lemma parameter_values_sym (s t : parameter value) :
  all_good tame (parameter_values s) -> all_good tame (parameter_values t) ->
  parameter_eq are_equal s t = parameter_eq are_equal t s.
Proof. apply good_parameter_sym. intros v w; apply are_equal_sym. Qed.
Lemma parameter_values_trans (r s t : parameter value) :
  all_good tame (parameter_values r) -> all_good tame (parameter_values s) -> all_good tame (parameter_values t) ->
  parameter_eq are_equal r s = true -> parameter_eq are_equal s t = true -> parameter_eq are_equal r t = true.
Proof. apply good_parameter_trans. intros u v w; apply are_equal_trans. Qed.

Lemma signature_values_hash hv hs hk ht (s t : signature value) h h' :
  python_hash hv ->
  all_good plain_value (signature_values s) -> all_good plain_value (signature_values t) ->
  signature_eq are_equal s t = true ->
  signature_hash hv hs hk ht s = Some h -> signature_hash hv hs hk ht t = Some h' -> h = h'.
Proof.
  intros Hh. apply good_signature_hash. intros v w k k' H1 H2 H3. apply Hh. now apply are_equal_implies.
Qed.
Lemma parameter_values_hash hv hs hk ht (s t : parameter value) h h' :
  python_hash hv ->
  all_good plain_value (parameter_values s) -> all_good plain_value (parameter_values t) ->
  parameter_eq are_equal s t = true ->
  parameter_hash hv hs hk ht s = Some h -> parameter_hash hv hs hk ht t = Some h' -> h = h'.
Proof.
  intros Hh. apply good_parameter_hash. intros v w k k' H1 H2 H3. apply Hh. now apply are_equal_implies.
Qed.

(** ** Unions and literals are compared as sets *)
Lemma union_permutation o xs ys :
  set_like o = true -> Permutation xs ys -> Forall (fun v => without_nan v = true) xs ->
  are_equal (PAlias o xs) (PAlias o ys) = true.
Proof.
  intros Ho P H. cbn. rewrite eqb_refl, (proj2 (Nat.eqb_eq _ _) (Permutation_length P)).
  unfold set_like in Ho. rewrite Ho. cbn [andb]. apply mutual_spec.
  rewrite Forall_forall in H. split; intros a Ha.
  - exists a. split; [now apply (Permutation_in a P) | now apply are_equal_refl, H].
  - apply (Permutation_in a (Permutation_sym P)) in Ha. exists a.
    split; [easy | now apply are_equal_refl, H].
Qed.
Lemma union_members o xs ys :
  set_like o = true ->
  are_equal (PAlias o xs) (PAlias o ys) = true ->
  length xs = length ys
  /\ (forall x, In x xs -> exists y, In y ys /\ are_equal x y = true)
  /\ (forall y, In y ys -> exists x, In x xs /\ are_equal x y = true).
Proof.
  unfold set_like. intros Ho. cbn. rewrite Ho, !andb_true_iff, Nat.eqb_eq.
  intros [[_ E] H]. rewrite <- andb_true_iff in H. apply mutual_spec in H as [H1 H2]. auto.
Qed.
Lemma alias_members o xs ys :
  set_like o = false ->
  are_equal (PAlias o xs) (PAlias o ys) = true <-> Forall2 (fun a b => are_equal a b = true) xs ys.
Proof.
  unfold set_like. intros Ho. cbn. rewrite Ho, eqb_refl. cbn [andb]. apply zip_Forall2.
Qed.
