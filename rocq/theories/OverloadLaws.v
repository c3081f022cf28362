(** When [expects] guarantees [bind]; two-step binding of overloads; Python's
    verdict on a call of a bound signature. *)
From Verif Require Import Base Models SpecCall ModelsProofs CallProofs CallTheorems BindLaws ModelsMore.
Set Implicit Arguments.

Section Overloads.
Context {V : Type}.
Variable is_NONE : V -> bool.
Notation sig := (plain_signature V).
Implicit Types (p q : sig) (kwargs k : dict pystr V) (s t : signature V).

Lemma expects_bind p args kwargs :
  built_plain is_NONE p ->
  (takes_extra_keywords (sviews p) -> ~ names_filled (sviews p) (length args) (dkeys kwargs)) ->
  plain_expects p args kwargs = true -> exists q, plain_bind is_NONE p args kwargs = Ok q.
Proof.
  intros Hp HN HE. apply (bind_exact args kwargs Hp). split; [easy|]. intros HF.
  assert (Hvk : ~ takes_extra_keywords (sviews p)) by tauto. clear HN.
  destruct (built_blocks Hp) as (po & pk & vp & ko & vk & Es & B & G).
  rewrite Es in HE, HF, Hvk. unfold sviews in *. cbn [parameters] in *.
  rewrite (extra_keywords B) in Hvk. rewrite (expects_nf B), andb_true_iff in HE.
  apply (names_filled_spec B) in HF as (x & Hx & Hn). destruct HE as [_ K].
  assert (Ev : vk = []) by (destruct vk; [easy|]; exfalso; now apply Hvk).
  exact (known_unfilled B (length args) kwargs x Ev K Hx Hn).
Qed.

(** The bound versions of those that can be bound *)
Definition survivors args kwargs (ps : list sig) : list sig :=
  flat_map (fun p => match plain_bind is_NONE p args kwargs with Ok q => [q] | Err _ => [] end) ps.
Definition of_survivors (ps : list sig) : res (signature V) :=
  match ps with [] => Err TypeError | _ => combined ps end.

Lemma map_m_survivors args kwargs (ps : list sig) :
  Forall (built_plain is_NONE) ps ->
  (forall p, In p ps -> plain_expects p args kwargs = true ->
     exists q, plain_bind is_NONE p args kwargs = Ok q) ->
  map_m (fun p => plain_bind is_NONE p args kwargs)
    (filter (fun p => plain_expects p args kwargs) ps) = Ok (survivors args kwargs ps).
Proof.
  intros Hb H. induction ps as [|p ps IH]; [easy|]. inversion Hb as [|? ? Hp Hps]; subst.
  specialize (IH Hps (fun q Hq => H q (or_intror Hq))). cbn [filter survivors flat_map].
  fold (survivors args kwargs ps).
  destruct (plain_expects p args kwargs) eqn:E.
  - cbn [map_m]. destruct (H p (or_introl eq_refl) E) as [q Eq]. rewrite Eq. cbn [bind_res app].
    now rewrite IH.
  - destruct (plain_bind is_NONE p args kwargs) as [q|e] eqn:Eq; [|exact IH].
    assert (X : plain_expects p args kwargs = true) by (apply (bind_exact args kwargs Hp); eauto).
    congruence.
Qed.

Lemma bind_survivors s args kwargs :
  built is_NONE s ->
  (forall p, In p (flatten_signature s) -> plain_expects p args kwargs = true ->
     exists q, plain_bind is_NONE p args kwargs = Ok q) ->
  bind is_NONE s args kwargs = of_survivors (survivors args kwargs (flatten_signature s)).
Proof.
  intros Hb H. pose proof (built_flatten _ _ Hb) as Hf. destruct s as [p|ps].
  - cbn [bind flatten_signature survivors flat_map].
    destruct (bind_total args kwargs Hb) as [(q & -> & _)| ->]; easy.
  - cbn [bind flatten_signature] in *. rewrite map_m_survivors by easy. cbn [bind_res].
    unfold of_survivors. destruct (survivors args kwargs ps) as [|q qs]; [easy|].
    now rewrite from_signatures_combined, flat_map_Plain.
Qed.

Lemma names_clash (ps : list pview) n kws : clash ps n kws -> names_filled ps n kws.
Proof. intros (p & H & _ & H'). now exists p. Qed.

Lemma names_filled_mono (ps : list pview) n m kws kws' :
  n <= m -> incl kws kws' -> names_filled ps n kws -> names_filled ps m kws'.
Proof.
  intros Hn Hi (p & H & H'). exists p. split; [|auto]. unfold filled in *.
  replace m with (n + (m - n)) by lia. rewrite firstn_sum. apply in_or_app. now left.
Qed.

Lemma overloaded_bind_bind s a1 a2 k1 k2 :
  built is_NONE s -> legal_kwargs k2 ->
  (forall kw, In kw (dkeys k1) -> ~ In kw (dkeys k2)) ->
  (forall p, In p (flatten_signature s) -> takes_extra_keywords (sviews p) ->
   ~ names_filled (sviews p) (length a1 + length a2) (dkeys k1 ++ dkeys k2)) ->
  (let* s1 := bind is_NONE s a1 k1 in bind is_NONE s1 a2 k2)
  = bind is_NONE s (a1 ++ a2) (merge k1 k2).
Proof.
  intros Hb L2 HD HN. pose proof (built_flatten _ _ Hb) as Hf. rewrite Forall_forall in Hf.
  assert (H1 : forall p, In p (flatten_signature s) -> plain_expects p a1 k1 = true ->
     exists q, plain_bind is_NONE p a1 k1 = Ok q).
  { intros p Hp. apply expects_bind; [auto|]. intros Hvk H. apply (HN p Hp Hvk).
    revert H. apply names_filled_mono; [lia|]. apply incl_appl, incl_refl. }
  assert (H12 : forall p, In p (flatten_signature s) ->
     plain_expects p (a1 ++ a2) (merge k1 k2) = true ->
     exists q, plain_bind is_NONE p (a1 ++ a2) (merge k1 k2) = Ok q).
  { intros p Hp. apply expects_bind; [auto|]. intros Hvk H. apply (HN p Hp Hvk).
    rewrite app_length in H. revert H. apply names_filled_mono; [lia|].
    intros kw Hkw. apply in_or_app. now apply dkeys_merge. }
  rewrite (@bind_survivors s _ _ Hb H12), (@bind_survivors s _ _ Hb H1).
  assert (HBB : forall p, In p (flatten_signature s) ->
    (let* q1 := plain_bind is_NONE p a1 k1 in plain_bind is_NONE q1 a2 k2)
     = plain_bind is_NONE p (a1 ++ a2) (merge k1 k2)).
  { intros p Hp. apply bind_bind; auto. }
  assert (E : survivors (a1 ++ a2) (merge k1 k2) (flatten_signature s)
    = survivors a2 k2 (survivors a1 k1 (flatten_signature s))).
  { clear - HBB. induction (flatten_signature s) as [|p ps IH]; [easy|].
    cbn [survivors flat_map]. fold (survivors (a1 ++ a2) (merge k1 k2) ps) (survivors a1 k1 ps).
    rewrite IH by (intros q Hq; apply HBB; now right).
    unfold survivors at 3. rewrite flat_map_app. fold (survivors a2 k2 (survivors a1 k1 ps)). f_equal.
    rewrite <- (HBB p) by now left. destruct (plain_bind is_NONE p a1 k1) as [q|e]; [|easy].
    cbn [bind_res flat_map]. now rewrite app_nil_r. }
  rewrite E. unfold of_survivors at 1.
  destruct (survivors a1 k1 (flatten_signature s)) as [|q qs] eqn:Es; [easy|]. rewrite <- Es.
  destruct (combined (survivors a1 k1 (flatten_signature s))) as [s1|e] eqn:Ec.
  2: { rewrite Es in Ec. now destruct qs. }
  cbn [bind_res]. assert (Ef := combined_flatten _ Ec).
  assert (Hb1 : built is_NONE s1).
  { assert (X : bind is_NONE s a1 k1 = Ok s1)
      by (rewrite (@bind_survivors s _ _ Hb H1); unfold of_survivors; rewrite Es in *; exact Ec).
    destruct (overloaded_bind_total _ _ a1 k1 Hb) as [(t & E' & Ht)|E']; congruence. }
  rewrite bind_survivors; [now rewrite Ef | exact Hb1 |].
  intros q' Hq' HE. rewrite Ef in Hq'. unfold survivors in Hq'. apply in_flat_map in Hq' as (p & Hp & Hq').
  destruct (plain_bind is_NONE p a1 k1) as [q1|] eqn:Eq; [|easy]. destruct Hq' as [->|[]].
  specialize (HBB p Hp). rewrite Eq in HBB. cbn [bind_res] in HBB. rewrite HBB.
  apply (H12 p Hp). rewrite <- HE. symmetry.
  eapply residual; [apply Hf; exact Hp | exact Eq |].
  intros Hvk HC. apply (HN p Hp Hvk). now apply names_clash.
Qed.

Lemma overloaded_expects_bind s args kwargs :
  built is_NONE s ->
  (forall p, In p (flatten_signature s) -> takes_extra_keywords (sviews p) ->
     ~ names_filled (sviews p) (length args) (dkeys kwargs)) ->
  expects s args kwargs = true -> exists t, bind is_NONE s args kwargs = Ok t.
Proof.
  intros Hb HN HE. pose proof (built_flatten _ _ Hb) as Hf. rewrite Forall_forall in Hf.
  assert (H1 : forall p, In p (flatten_signature s) -> plain_expects p args kwargs = true ->
     exists q, plain_bind is_NONE p args kwargs = Ok q).
  { intros p Hp. apply expects_bind; auto. }
  rewrite (@bind_survivors s _ _ Hb H1). rewrite expects_union, existsb_exists in HE.
  destruct HE as (p & Hp & HE). destruct (H1 p Hp HE) as [q Eq].
  assert (Hin : In q (survivors args kwargs (flatten_signature s))).
  { unfold survivors. apply in_flat_map. exists p. split; [easy|]. rewrite Eq. now left. }
  destruct (survivors args kwargs (flatten_signature s)) as [|x [|y l]]; [easy| |]; cbn; eauto.
Qed.

Lemma overloaded_bind_exact (s : signature V) args kwargs :
  built is_NONE s ->
  (exists t, bind is_NONE s args kwargs = Ok t) <->
  expects s args kwargs = true
  /\ forall p, In p (flatten_signature s) -> plain_expects p args kwargs = true ->
       ~ names_filled (sviews p) (length args) (dkeys kwargs).
Proof.
  intros Hb. pose proof (built_flatten _ _ Hb) as Hf. rewrite Forall_forall in Hf. split.
  - intros [t E]. pose proof (overloaded_bind_flatten _ _ _ _ Hb E) as F. split.
    + rewrite expects_union, existsb_exists.
      destruct (filter (fun p => plain_expects p args kwargs) (flatten_signature s)) as [|p l] eqn:Ef.
      * inversion F as [Ht|]. destruct s as [p|ps].
        -- cbn [bind] in E. destruct (plain_bind is_NONE p args kwargs) eqn:Ep; [|easy].
           cbn in E. injection E as <-. easy.
        -- cbn [flatten_signature] in Ef. cbn [bind] in E. rewrite Ef in E. easy.
      * assert (X : In p (p :: l)) by now left. rewrite <- Ef in X. apply filter_In in X. eauto.
    + intros p Hp HE. assert (X : In p (filter (fun p => plain_expects p args kwargs) (flatten_signature s)))
        by (now apply filter_In).
      clear - F X Hf Hp. specialize (Hf p Hp). induction F as [|x y l l' Hx F IH]; [easy|].
      destruct X as [->|X]; [|auto]. apply (bind_exact args kwargs Hf). eauto.
  - intros [HE H].
    assert (H1 : forall p, In p (flatten_signature s) -> plain_expects p args kwargs = true ->
       exists q, plain_bind is_NONE p args kwargs = Ok q).
    { intros p Hp Hpe. apply (bind_exact args kwargs (Hf p Hp)). auto. }
    rewrite (@bind_survivors s _ _ Hb H1). rewrite expects_union, existsb_exists in HE.
    destruct HE as (p & Hp & HE). destruct (H1 p Hp HE) as [q Eq].
    assert (Hin : In q (survivors args kwargs (flatten_signature s))).
    { unfold survivors. apply in_flat_map. exists p. split; [easy|]. rewrite Eq. now left. }
    destruct (survivors args kwargs (flatten_signature s)) as [|x [|y l]]; [easy| |]; cbn; eauto.
Qed.

(** Python's verdict *)
Lemma clash_after p a1 k1 q n2 kws2 :
  built_plain is_NONE p -> plain_bind is_NONE p a1 k1 = Ok q ->
  clash (sviews q) n2 kws2 -> clash (sviews p) (length a1 + n2) (dkeys k1 ++ kws2).
Proof.
  intros Hp E. destruct (bind_Ok _ _ Hp E) as (po & pk & vp & ko & vk & Es & B & G & F1 & R1 & K1 & ->).
  rewrite Es. unfold sviews. cbn [parameters]. unfold bound_parameters.
  rewrite (clash_spec (bound_blocks is_NONE B (length a1) k1)), (clash_spec B).
  intros (x & Hx & Hf & Hn). exists x. repeat split.
  - apply In_kept in Hx. now apply In_rest_pk in Hx.
  - rewrite firstn_sum, rest_split, <- (kept_turned po pk (length a1) k1), app_assoc.
    rewrite (firstn_app n2). rewrite !in_app_iff. tauto.
  - apply in_or_app. now right.
Qed.

Lemma extra_after p a1 k1 q :
  built_plain is_NONE p -> plain_bind is_NONE p a1 k1 = Ok q ->
  takes_extra_keywords (sviews q) <-> takes_extra_keywords (sviews p).
Proof.
  intros Hp E. destruct (bind_Ok _ _ Hp E) as (po & pk & vp & ko & vk & Es & B & G & F1 & R1 & K1 & ->).
  rewrite Es. unfold sviews. cbn [parameters]. unfold bound_parameters.
  now rewrite (extra_keywords (bound_blocks is_NONE B (length a1) k1)), (extra_keywords B).
Qed.

Lemma accepts_residual p a1 k1 q (a2 : list V) k2 :
  built_plain is_NONE p ->
  plain_bind is_NONE p a1 k1 = Ok q ->
  (takes_extra_keywords (sviews p) ->
   ~ clash (sviews p) (length a1 + length a2) (dkeys k1 ++ dkeys k2)) ->
  accepts (sviews q) (length a2) (dkeys k2)
  <-> accepts (sviews p) (length a1 + length a2) (dkeys (merge k1 k2)).
Proof.
  intros Hp E HC.
  assert (Hq : built_plain is_NONE q)
    by (destruct (bind_total a1 k1 Hp) as [(t & E' & Ht)|E']; congruence).
  rewrite <- app_length.
  rewrite <- (all_set_exact a2 k2 Hq), <- (all_set_exact (a1 ++ a2) (merge k1 k2) Hp).
  - assert (R : plain_all_set q a2 k2 = plain_all_set p (a1 ++ a2) (merge k1 k2)).
    { eapply residual; [exact Hp | exact E | exact HC]. }
    now rewrite R.
  - intros Hvk (x & H1 & H2 & H3). apply (HC Hvk). rewrite app_length in H1. exists x.
    repeat split; auto. apply in_or_app. now apply dkeys_merge.
  - intros Hvk H. apply (@extra_after _ _ _ _ Hp E) in Hvk. apply (HC Hvk).
    exact (@clash_after _ _ _ _ _ _ Hp E H).
Qed.

End Overloads.
