(** Proofs about the texts of signatures (Models.v, section Text). *)
From Verif Require Import Base Models SpecCall ModelsProofs CallProofs CallTheorems ModelsMore
  PyText PyExpr PyExprProofs Pretty PrettyProofs CachingProofs SpecText.
Set Implicit Arguments.

Ltac text_eq := cbn [join app]; repeat (rewrite <- ?app_assoc; cbn [app]); reflexivity.

Section Repr.
Variable printable : N -> bool.
Context {V : Type}.
Variable is_NONE : V -> bool.
Variable to_repr : V -> pystr.
Variable value_of : expr -> option V.

(** The own representation of the value reads back. *)
Definition readable (v : V) : Prop := exists e, shows printable e (to_repr v) /\ value_of e = Some v.
Definition readable_parameter (p : parameter V) : Prop :=
  readable (p_annotation p) /\ (forall d, p_default p = Some d -> readable d) /\ valid_str (p_name p).

Lemma shows_kind k : shows printable (EAttribute (EName $"ParameterKind") (kind_name k)) (kind_repr k).
Proof.
  change (kind_repr k) with ($"ParameterKind" ++ 46%N :: kind_name k).
  apply sh_attribute; [now constructor | now destruct k | easy].
Qed.

Lemma shows_call name its entries es :
  is_identifier name = true -> Forall2 (shows_item printable) its entries -> its <> [] ->
  call_items its = Some es -> shows printable (ECall (EName name) es) (name ++ 40%N :: join $", " entries ++ [41%N]).
Proof.
  intros Hn F N E. eapply sh_call; [now constructor | | exact E].
  rewrite <- (app_nil_r (join _ _)). change (join $", " entries ++ []) with ([] ++ join [44%N; 32%N] entries ++ []).
  eapply (@shows_join printable [32%N] its entries); try reflexivity; [|easy].
  clear - F. induction F as [|it t its ts H F IH]; constructor; [|easy]. exists [], t. easy.
Qed.

Lemma call_items_of (es : list (option pystr * expr)) :
  call_items (map (fun x => mk_item (fst x) (snd x) None) es) = Some es.
Proof. induction es as [|[k e] es IH]; cbn; [easy|]. now rewrite IH. Qed.

Lemma shows_keyword k e t : is_identifier k = true -> shows printable e t ->
  shows_item printable (mk_item (Some k) e None) (k ++ $"=" ++ t).
Proof. intros H1 H2. change (k ++ $"=" ++ t) with (k ++ 61%N :: t). now constructor. Qed.

Lemma parameter_reads_back p : readable_parameter p -> built_parameter is_NONE p ->
  exists e, shows printable e (parameter_repr to_repr (repr_str printable) p)
    /\ evaluate_parameter is_NONE value_of e = Some p.
Proof.
  intros [[ea [Ha Va]] [Hd Hn]] Hb. apply built_good in Hb. destruct p as [a k n|a d k n]; cbn [p_annotation p_default p_name] in *.
  - exists (ECall (EName $"RequiredParameter")
      [(Some $"annotation", ea); (Some $"kind", EAttribute (EName $"ParameterKind") (kind_name k)); (Some $"name", EString n)]).
    split.
    + replace (parameter_repr to_repr (repr_str printable) (RequiredParameter a k n))
        with ($"RequiredParameter" ++ 40%N :: join $", " [$"annotation" ++ $"=" ++ to_repr a; $"kind" ++ $"=" ++ kind_repr k;
                $"name" ++ $"=" ++ repr_str printable n] ++ [41%N]) by (cbn [parameter_repr]; text_eq).
      eapply shows_call; [easy | | | apply (call_items_of [_; _; _])]; [|easy].
      cbn [map fst snd]. repeat apply Forall2_cons; [..|apply Forall2_nil]; (apply shows_keyword; [easy|]);
        [exact Ha | apply shows_kind | now constructor].
    + transitivity (match value_of ea with Some a => ok (new_required a (IsKind k) n) | None => None end);
        [now destruct k|]. rewrite Va. destruct Hb. unfold new_required. destruct k; easy.
  - destruct d as [v|].
    + destruct (Hd v eq_refl) as [ed [Hsd Vd]].
      exists (ECall (EName $"OptionalParameter")
        [(Some $"annotation", ea); (Some $"default", ed); (Some $"kind", EAttribute (EName $"ParameterKind") (kind_name k)); (Some $"name", EString n)]).
      split.
      * replace (parameter_repr to_repr (repr_str printable) (OptionalParameter a (Some v) k n))
          with ($"OptionalParameter" ++ 40%N :: join $", " [$"annotation" ++ $"=" ++ to_repr a; $"default" ++ $"=" ++ to_repr v;
                  $"kind" ++ $"=" ++ kind_repr k; $"name" ++ $"=" ++ repr_str printable n] ++ [41%N]) by (cbn [parameter_repr]; text_eq).
        eapply shows_call; [easy | | | apply (call_items_of [_; _; _; _])]; [|easy].
        cbn [map fst snd]. repeat apply Forall2_cons; [..|apply Forall2_nil]; (apply shows_keyword; [easy|]);
          [exact Ha | exact Hsd | apply shows_kind | now constructor].
      * transitivity (match value_of ea with
          | Some a => match value_of ed with Some d => ok (new_optional is_NONE a (Some d) (IsKind k) n) | None => None end
          | None => None end); [now destruct k|]. rewrite Va, Vd. unfold new_optional. cbn in Hb. destruct Hb as (-> & H1 & H2). destruct k; easy.
    + exists (ECall (EName $"OptionalParameter")
        [(Some $"annotation", ea); (Some $"kind", EAttribute (EName $"ParameterKind") (kind_name k)); (Some $"name", EString n)]).
      split.
      * replace (parameter_repr to_repr (repr_str printable) (OptionalParameter a None k n))
          with ($"OptionalParameter" ++ 40%N :: join $", " [$"annotation" ++ $"=" ++ to_repr a;
                  $"kind" ++ $"=" ++ kind_repr k; $"name" ++ $"=" ++ repr_str printable n] ++ [41%N]) by (cbn [parameter_repr]; text_eq).
        eapply shows_call; [easy | | | apply (call_items_of [_; _; _])]; [|easy].
        cbn [map fst snd]. repeat apply Forall2_cons; [..|apply Forall2_nil]; (apply shows_keyword; [easy|]);
          [exact Ha | apply shows_kind | now constructor].
      * transitivity (match value_of ea with Some a => ok (new_optional is_NONE a None (IsKind k) n) | None => None end);
          [now destruct k|]. rewrite Va. destruct k; easy.
Qed.

Lemma traverse_ok {A B} (f : A -> option B) l l' : Forall2 (fun x y => f x = Some y) l l' -> traverse f l = Some l'.
Proof. induction 1 as [|x y l l' H F IH]; cbn; [easy|]. now rewrite H, IH. Qed.

Definition positional_args (es : list expr) : list (option pystr * expr) := map (fun e => (None, e)) es.
Lemma positionals_of es args : positionals (positional_args es ++ args) = es ++ positionals args.
Proof. induction es as [|e es IH]; cbn; [easy|]. f_equal. exact IH. Qed.
Lemma keyword_of k es args : keyword k (positional_args es ++ args) = keyword k args.
Proof. induction es as [|e es IH]; cbn; [easy | exact IH]. Qed.
Lemma keywords_of es args : keywords (positional_args es ++ args) = keywords args.
Proof. induction es as [|e es IH]; cbn; [easy | exact IH]. Qed.
Lemma positionals_first_of es args : positionals_first (positional_args es ++ args) = positionals_first args.
Proof. induction es as [|e es IH]; cbn; [easy | exact IH]. Qed.

Definition readable_plain (s : plain_signature V) : Prop :=
  Forall readable_parameter (parameters s) /\ readable (returns s).

Lemma join_app_cons sep (l : list pystr) x : l <> [] -> join sep l ++ sep ++ x = join sep (l ++ [x]).
Proof.
  induction l as [|a l IH]; intros H; [easy|]. destruct l as [|b l]; [reflexivity|].
  change (join sep (a :: b :: l)) with (a ++ sep ++ join sep (b :: l)).
  change (join sep ((a :: b :: l) ++ [x])) with (a ++ sep ++ join sep ((b :: l) ++ [x])).
  rewrite <- IH by easy. now rewrite <- !app_assoc.
Qed.

Lemma plain_reads_back s : built_plain is_NONE s -> readable_plain s ->
  exists e, shows printable e (plain_repr to_repr (repr_str printable) s)
    /\ evaluate_plain is_NONE value_of e = Some s.
Proof.
  intros Hb [Hp [er [Hr Vr]]]. apply built_plain_spec in Hb as [Hg Hl].
  assert (C : exists es, Forall2 (fun p e => shows printable e (parameter_repr to_repr (repr_str printable) p)
      /\ evaluate_parameter is_NONE value_of e = Some p) (parameters s) es).
  { apply Forall_choose. rewrite Forall_forall in *. intros p H. apply parameter_reads_back; [auto|].
    apply built_good. auto. }
  destruct C as [es C].
  exists (ECall (EName $"PlainSignature") (positional_args es ++ [(Some $"returns", er)])). split.
  - replace (plain_repr to_repr (repr_str printable) s) with
      ($"PlainSignature" ++ 40%N :: join $", " (map (parameter_repr to_repr (repr_str printable)) (parameters s)
                                         ++ [$"returns" ++ $"=" ++ to_repr (returns s)]) ++ [41%N]).
    + eapply shows_call; [easy | | | apply call_items_of].
      * rewrite map_app. apply Forall2_app.
        -- clear - C. induction C as [|p e ps es [H _] C IH]; cbn; constructor; [now constructor | easy].
        -- constructor; [|constructor]. now apply shows_keyword.
      * destruct es; easy.
    + unfold plain_repr. destruct (parameters s) as [|p ps]; cbn [is_nil]; [text_eq|].
      rewrite <- join_app_cons by easy. text_eq.
  - unfold evaluate_plain. rewrite positionals_of, keyword_of.
    replace (arguments_fit _ _) with true.
    + change ($"PlainSignature" == $"PlainSignature") with true. cbn [andb].
      cbn [positionals]. rewrite app_nil_r. rewrite (@traverse_ok _ _ _ es (parameters s)).
      * change (keyword $"returns" [(Some $"returns", er)]) with (Some er). cbn iota. rewrite Vr.
        assert (E : new_plain (parameters s) (returns s) = Ok s) by (apply new_plain_Ok; destruct s; easy).
        now rewrite E.
      * clear - C. induction C as [|p e ps es [_ H] C IH]; constructor; auto.
    + unfold arguments_fit. now rewrite positionals_first_of, keywords_of.
Qed.

Lemma signature_reads_back s : built is_NONE s -> Forall readable_plain (flatten_signature s) ->
  exists e, shows printable e (signature_repr to_repr (repr_str printable) s)
    /\ evaluate_signature is_NONE value_of e = Some s.
Proof.
  destruct s as [p|ps]; cbn [flatten_signature]; intros Hb Hp.
  - inv Hp. destruct (plain_reads_back Hb H1) as [e [Hs He]]. exists e. split; [exact Hs|].
    destruct e as [| |f args| | | | | | | | | |]; try discriminate He. destruct f as [c| | | | | | | | | | | |]; try discriminate He.
    unfold evaluate_signature. rewrite He.
    destruct (eqb_reflect c $"OverloadedSignature") as [->|_]; [discriminate He | reflexivity].
  - apply built_overloaded in Hb as [Hb Hl].
    assert (C : exists es, Forall2 (fun p e => shows printable e (plain_repr to_repr (repr_str printable) p)
        /\ evaluate_plain is_NONE value_of e = Some p) ps es).
    { apply Forall_choose. rewrite Forall_forall in *. intros p H. apply plain_reads_back; auto. }
    destruct C as [es C].
    exists (ECall (EName $"OverloadedSignature") (positional_args es)). split.
    + change (signature_repr to_repr (repr_str printable) (Overloaded ps))
        with ($"OverloadedSignature" ++ 40%N :: join $", " (map (plain_repr to_repr (repr_str printable)) ps) ++ [41%N]).
      eapply shows_call; [easy | | | apply call_items_of].
      * clear - C. induction C as [|p e ps es [H _] C IH]; cbn; constructor; [now constructor | easy].
      * destruct C; [cbn in Hl; lia | easy].
    + unfold evaluate_signature. change ($"OverloadedSignature" == $"OverloadedSignature") with true. cbn iota.
      pose proof (positionals_of es []) as E1. pose proof (positionals_first_of es []) as E2.
      pose proof (keywords_of es []) as E3. cbn [positionals] in E1. rewrite !app_nil_r in *.
      unfold arguments_fit. rewrite E1, E2, E3. cbn [positionals_first keywords no_repeat forallb andb].
      rewrite (@traverse_ok _ _ _ es ps).
      * rewrite new_overloaded_map. destruct (length ps <? 2) eqn:E; [apply Nat.ltb_lt in E; lia | easy].
      * clear - C. induction C as [|p e ps es [_ H] C IH]; constructor; auto.
Qed.

Theorem signature_repr_reads s : built is_NONE s -> Forall readable_plain (flatten_signature s) ->
  exists e, reads (signature_repr to_repr (repr_str printable) s) e
    /\ evaluate_signature is_NONE value_of e = Some s.
Proof.
  intros H1 H2. destruct (signature_reads_back _ H1 H2) as [e [Hs He]]. exists e. split; [eapply shows_reads, Hs | exact He].
Qed.
End Repr.

(** ** Reading [str] *)
Section Str.
Variable printable : N -> bool.
Context {V : Type}.
Variable is_NONE : V -> bool.
Variable to_repr : V -> pystr.

(** The text is an expression. *)
Definition shown (t : pystr) : Prop := exists e, shows printable e t.

Definition stars (p : parameter V) : nat :=
  match p_kind p with VARIADIC_POSITIONAL => 1 | VARIADIC_KEYWORD => 2 | _ => 0 end.
Definition raw_of (p : parameter V) : raw :=
  RParameter (stars p) (p_name p) (to_repr (p_annotation p)) (option_map to_repr (p_default p)).
Definition describe (p : parameter V) : described :=
  (p_kind p, p_name p, to_repr (p_annotation p), option_map to_repr (p_default p)).

Definition shown_parameter (p : parameter V) : Prop :=
  is_identifier (p_name p) = true /\ shown (to_repr (p_annotation p))
  /\ forall d, p_default p = Some d -> shown (to_repr d).

Lemma consumed_app t rest : consumed (t ++ rest) rest = t.
Proof.
  unfold consumed. rewrite app_length. replace (length t + length rest - length rest) with (length t) by lia.
  rewrite firstn_app, Nat.sub_diag, firstn_all. cbn. apply app_nil_r.
Qed.

Definition closes (rest : pystr) : Prop := exists c r, rest = c :: r /\ (c = 44%N \/ c = 41%N).
Lemma closes_ends rest : closes rest -> head_ok ends rest = true.
Proof. intros [c [r [-> [->| ->]]]]; reflexivity. Qed.
Lemma closes_skip rest : closes rest -> skip rest = rest.
Proof. intros [c [r [-> [->| ->]]]]; reflexivity. Qed.
Lemma skip_space s : good_start s -> skip (32%N :: s) = s.
Proof.
  intros [c [r [-> H]]]. apply starts_not_space in H. unfold skip. cbn [span].
  change (is_space 32) with true. cbn iota. rewrite H. reflexivity.
Qed.
Lemma shows_good e t rest : shows printable e t -> good_start (t ++ rest).
Proof. intros H. apply good_start_app, (proj1 (shows_start_all printable) _ _ H). Qed.

Lemma span_name n r : is_identifier n = true -> head_ok breaks r = true -> span is_ident_char (n ++ r) = (n, r).
Proof. intros H1 H2. apply span_app; [now apply identifier_chars | now apply breaks_no_ident]. Qed.

Lemma read_named_ok k n ta d rest : is_identifier n = true -> shown ta -> (forall t, d = Some t -> shown t) ->
  closes rest ->
  ev (fun m => read_named m k (n ++ $": " ++ ta ++ match d with Some t => $" = " ++ t | None => [] end ++ rest)
               = Some (RParameter k n ta d, rest)).
Proof.
  intros Hn [ea Ha] Hd Hc. destruct d as [td|].
  - destruct (Hd td eq_refl) as [ed Htd].
    destruct (@shows_read_rest printable _ _ ($" = " ++ td ++ rest) Ha eq_refl) as [n1 H1].
    destruct (@shows_read_rest printable _ _ rest Htd (closes_ends Hc)) as [n2 H2].
    exists (n1 + n2). intros m Hm. unfold read_named. rewrite span_name by easy. cbn [fst snd]. rewrite Hn.
    change (skip ($": " ++ ?x)) with (58%N :: 32%N :: x). cbn iota. change (58%N == 58%N) with true. cbn iota.
    rewrite <- app_assoc, skip_space by (eapply shows_good, Ha). rewrite H1 by lia.
    change (skip ($" = " ++ ?x)) with (61%N :: 32%N :: x). cbn iota. change (61%N == 61%N) with true. cbn iota.
    rewrite skip_space by (eapply shows_good, Htd). rewrite H2 by lia. now rewrite !consumed_app.
  - destruct (@shows_read_rest printable _ _ rest Ha (closes_ends Hc)) as [n1 H1].
    exists n1. intros m Hm. unfold read_named. rewrite span_name by easy. cbn [fst snd app]. rewrite Hn.
    change (skip ($": " ++ ?x)) with (58%N :: 32%N :: x). cbn iota. change (58%N == 58%N) with true. cbn iota.
    rewrite skip_space by (eapply shows_good, Ha). rewrite H1 by lia. rewrite (closes_skip Hc), consumed_app.
    destruct Hc as [c [r [-> [->| ->]]]]; reflexivity.
Qed.

(** Reading one entry *)
Definition entry_start (t : pystr) : Prop := exists c r, t = c :: r /\ is_space c = false /\ c <> 41%N.
Definition entry_ok (x : raw) (t : pystr) : Prop :=
  entry_start t /\ forall rest, closes rest -> ev (fun m => read_entry m (t ++ rest) = Some (x, rest)).

Lemma slash_ok : entry_ok RSlash POSITIONAL_ONLY_SEPARATOR.
Proof. split; [exists 47%N, []; easy|]. intros rest H. exists 0. reflexivity. Qed.
Lemma bare_star_ok : entry_ok RBareStar KEYWORD_ONLY_SEPARATOR.
Proof.
  split; [exists 42%N, []; easy|]. intros rest [c [r [-> [->| ->]]]]; exists 0; reflexivity.
Qed.

Lemma parameter_ok p : good_parameter is_NONE p -> shown_parameter p -> entry_ok (raw_of p) (parameter_str to_repr p).
Proof.
  intros Hg [Hn [Ha Hd]].
  assert (Hi : exists c r, p_name p = c :: r /\ is_letter c = true).
  { destruct (p_name p) as [|c r]; [easy|]. exists c, r. cbn in Hn. now apply andb_true_iff in Hn as [H _]. }
  destruct Hi as [c [r [En Hl]]].
  assert (Hl' : is_space c = false /\ c <> 41%N /\ (c == 47%N) = false /\ (c == 42%N) = false).
  { split; [apply ident_not_space; unfold is_ident_char; now rewrite Hl|].
    repeat split; [|apply eqb_neq|apply eqb_neq]; intros ->; discriminate Hl. }
  assert (T : exists pre, parameter_str to_repr p = pre ++ p_name p ++ $": " ++ to_repr (p_annotation p)
      ++ match option_map to_repr (p_default p) with Some t => $" = " ++ t | None => [] end
      /\ pre = repeat 42%N (stars p)).
  { destruct p as [a k n|a d k n]; cbn [p_name p_annotation p_default option_map parameter_str] in *.
    - exists []. split; [cbn; now rewrite app_nil_r | destruct k; cbn in Hg; try easy; tauto].
    - exists (repeat 42%N (stars (OptionalParameter a d k n))). split; [|easy].
      destruct d; destruct k; cbn [stars p_kind repeat app option_map]; 
        try (change (VARIADIC_POSITIONAL == VARIADIC_POSITIONAL) with true; change (VARIADIC_KEYWORD == VARIADIC_KEYWORD) with true);
        repeat (rewrite <- ?app_assoc; cbn [app]); reflexivity. }
  destruct T as [pre [-> ->]]. split.
  - unfold entry_start. destruct (stars p); cbn [repeat app]; rewrite En; [exists c; eexists; cbn; tauto|].
    exists 42%N; eexists; cbn; easy.
  - intros rest Hc.
    pose proof (@read_named_ok (stars p) (p_name p) (to_repr (p_annotation p)) (option_map to_repr (p_default p)) rest Hn Ha) as R.
    assert (Hd' : forall t, option_map to_repr (p_default p) = Some t -> shown t).
    { intros t. destruct (p_default p) as [v|] eqn:E; [|easy]. cbn. intros H. inv H. auto. }
    specialize (R Hd' Hc). eapply ev_impl; [exact R|]. cbn beta. intros m Hm.
    rewrite <- !app_assoc. fold (raw_of p) in Hm. rewrite <- Hm. clear Hm.
    unfold stars. destruct (p_kind p); cbn [repeat app]; unfold read_entry;
      try (rewrite En; cbn [app]; now rewrite (proj1 (proj2 (proj2 Hl'))), (proj2 (proj2 (proj2 Hl')))).
    + change (42%N == 47%N) with false. change (42%N == 42%N) with true. cbn iota. rewrite En. cbn [app].
      now rewrite (proj2 (proj2 (proj2 Hl'))), Hl.
    + change (42%N == 47%N) with false. change (42%N == 42%N) with true. reflexivity.
Qed.

Lemma read_entries_ok xs ts rest : Forall2 entry_ok xs ts -> forall w, blank w ->
  ev (fun m => read_entries m (w ++ join $", " ts ++ 41%N :: rest) = Some (xs, rest)).
Proof.
  induction 1 as [|x t xs ts [St Hx] F IH]; intros w Hw.
  - exists 1. intros [|m] Hm; [lia|]. cbn [read_entries join app]. rewrite skip_blank by easy. reflexivity.
  - destruct St as [c [r [-> [Hsp Hc]]]].
    destruct F as [|x' t' xs ts Hx' F].
    + cbn [join]. eapply ev_step; [apply (Hx (41%N :: rest)); exists 41%N, rest; auto|]. cbn beta.
      intros m Hm. cbn [read_entries]. rewrite skip_blank by (try easy; cbn; now rewrite Hsp).
      cbn [app] in *. apply eqb_neq in Hc. rewrite Hc, Hm. reflexivity.
    + set (more := join $", " (t' :: ts)) in *.
      change (join $", " ((c :: r) :: t' :: ts)) with ((c :: r) ++ $", " ++ more).
      eapply ev_step2; [apply (Hx ($", " ++ more ++ 41%N :: rest)); exists 44%N; eexists; split; [reflexivity | auto] | apply (IH [32%N]); easy|].
      cbn beta. intros m Hm Hrest. cbn [read_entries]. rewrite <- !app_assoc.
      rewrite skip_blank by (try easy; cbn; now rewrite Hsp). cbn [app] in *. apply eqb_neq in Hc. rewrite Hc, Hm.
      change (skip ($", " ++ ?x)) with (44%N :: 32%N :: x). cbn iota. change (44%N == 41%N) with false. change (44%N == 44%N) with true.
      cbn iota. now rewrite Hrest.
Qed.

(** *** Whole signatures *)
Definition raws_of (s : plain_signature V) : list raw :=
  let of k := filter (fun p => p_kind p == k) (parameters s) in
  map raw_of (of POSITIONAL_ONLY)
  ++ (if is_nil (of POSITIONAL_ONLY) then [] else [RSlash])
  ++ map raw_of (of POSITIONAL_OR_KEYWORD) ++ map raw_of (of VARIADIC_POSITIONAL)
  ++ (if negb (is_nil (of KEYWORD_ONLY)) && is_nil (of VARIADIC_POSITIONAL) then [RBareStar] else [])
  ++ map raw_of (of KEYWORD_ONLY) ++ map raw_of (of VARIADIC_KEYWORD).

Definition shown_plain (s : plain_signature V) : Prop :=
  Forall shown_parameter (parameters s) /\ shown (to_repr (returns s)).

Lemma parts_ok s : built_plain is_NONE s -> shown_plain s ->
  Forall2 entry_ok (raws_of s) (plain_str_parts to_repr s).
Proof.
  intros Hb [Hs _]. apply built_plain_spec in Hb as [Hg _].
  assert (P : forall k, Forall2 entry_ok (map raw_of (of_kind k (parameters s))) (map (parameter_str to_repr) (of_kind k (parameters s)))).
  { intros k. apply Forall2_map. unfold of_kind.
    assert (G : Forall (fun p => entry_ok (raw_of p) (parameter_str to_repr p)) (filter (fun p => p_kind p == k) (parameters s))).
    { apply Forall_forall. intros p Hp. apply filter_In in Hp as [Hp _]. rewrite Forall_forall in *.
      apply parameter_ok; auto. }
    induction G; constructor; auto. }
  unfold raws_of, plain_str_parts. cbn zeta. rewrite !at_kind_by_kind. fold (of_kind (V := V)).
  change (fun p : parameter V => p_kind p == POSITIONAL_ONLY) with (fun p : parameter V => p_kind p == POSITIONAL_ONLY).
  repeat apply Forall2_app; try apply P.
  - change (filter _ _) with (of_kind POSITIONAL_ONLY (parameters s)).
    destruct (is_nil _); constructor; [apply slash_ok | constructor].
  - change (filter (fun p => p_kind p == KEYWORD_ONLY) (parameters s)) with (of_kind KEYWORD_ONLY (parameters s)).
    change (filter (fun p => p_kind p == VARIADIC_POSITIONAL) (parameters s)) with (of_kind VARIADIC_POSITIONAL (parameters s)).
    destruct (_ && _); constructor; [apply bare_star_ok | constructor].
Qed.

Lemma read_one_ok s rest : built_plain is_NONE s -> shown_plain s -> head_ok ends rest = true ->
  ev (fun m => read_one m (plain_str to_repr s ++ rest) = Some ((raws_of s, to_repr (returns s)), rest)).
Proof.
  intros Hb Hs He. pose proof (parts_ok Hb Hs) as F. destruct Hs as [_ [er Hr]].
  destruct (@read_entries_ok _ _ ($" -> " ++ to_repr (returns s) ++ rest) F [] eq_refl) as [n1 H1].
  destruct (@shows_read_rest printable _ _ rest Hr He) as [n2 H2].
  exists (n1 + n2). intros m Hm. unfold plain_str. rewrite <- !app_assoc. change ($"(" ++ ?x) with (40%N :: x). unfold read_one.
  change (40%N == 40%N) with true. cbn iota. cbn [app] in H1.
  change ($") -> " ++ ?x) with (41%N :: $" -> " ++ x). rewrite H1 by lia.
  change (skip ($" -> " ++ ?x)) with (45%N :: 62%N :: 32%N :: x). cbn iota. change ((45%N == 45%N) && (62%N == 62%N)) with true. cbn iota.
  rewrite skip_space by (eapply shows_good, Hr). rewrite H2 by lia. now rewrite consumed_app.
Qed.

(** *** The kinds *)
Lemma stars_0 p : p_kind p = POSITIONAL_ONLY \/ p_kind p = POSITIONAL_OR_KEYWORD \/ p_kind p = KEYWORD_ONLY ->
  stars p = 0.
Proof. unfold stars. intros [->|[->| ->]]; reflexivity. Qed.
Lemma variadic_no_default p : good_parameter is_NONE p -> p_kind p = VARIADIC_POSITIONAL \/ p_kind p = VARIADIC_KEYWORD ->
  p_default p = None.
Proof. destruct p as [a k n|a [d|] k n]; cbn; [easy| |easy]. intros (_ & H1 & H2) [->| ->]; easy. Qed.

Lemma after_star_ok ko vk : all_kind KEYWORD_ONLY ko -> all_kind VARIADIC_KEYWORD vk -> length vk <= 1 ->
  Forall (good_parameter is_NONE) vk ->
  after_star (map raw_of ko ++ map raw_of vk) = Some (map describe (ko ++ vk)).
Proof.
  intros Hk Hv Hl G. induction Hk as [|p ko Hp Hk IH]; cbn [map app].
  - destruct vk as [|p [|q vk]]; cbn in Hl; [easy | | lia]. inv Hv. inv G. cbn [map]. unfold raw_of, describe, stars.
    rewrite (variadic_no_default _ H3) by auto. rewrite H1. reflexivity.
  - unfold raw_of at 1. rewrite stars_0 by auto. cbn [after_star]. rewrite IH. unfold describe at 2. now rewrite Hp.
Qed.

Lemma after_slash_ok pk vp ko vk : all_kind POSITIONAL_OR_KEYWORD pk -> all_kind VARIADIC_POSITIONAL vp ->
  all_kind KEYWORD_ONLY ko -> all_kind VARIADIC_KEYWORD vk -> length vp <= 1 -> length vk <= 1 ->
  Forall (good_parameter is_NONE) vp -> Forall (good_parameter is_NONE) vk ->
  after_slash (map raw_of pk ++ map raw_of vp ++ (if negb (is_nil ko) && is_nil vp then [RBareStar] else [])
               ++ map raw_of ko ++ map raw_of vk) = Some (map describe (pk ++ vp ++ ko ++ vk)).
Proof.
  intros Hp Hv Hk Hw Hl Hl' Gv Gw. induction Hp as [|p pk Hp Hps IH]; cbn [map app].
  - destruct vp as [|p [|q vp]]; cbn in Hl; [| |lia].
    + cbn [map app is_nil]. rewrite andb_true_r. destruct ko as [|p ko]; cbn [is_nil negb map app].
      * pose proof (@after_star_ok [] vk ltac:(constructor) Hw Hl' Gw) as A. cbn [map app] in A.
        destruct vk as [|p [|q vk]]; cbn in Hl'; [easy | | lia]. inv Hw. inv Gw. cbn [map]. unfold raw_of, describe, stars.
        rewrite (variadic_no_default _ H3) by auto. rewrite H1. reflexivity.
      * pose proof (after_star_ok Hk Hw Hl' Gw) as A. cbn [map app] in A. rewrite <- A. cbn [after_slash].
        inv Hk. unfold raw_of at 1. now rewrite stars_0 by auto.
    + cbn [map app is_nil]. rewrite andb_false_r. cbn [app]. inv Hv. inv Gv. unfold raw_of at 1. unfold stars at 1. rewrite H1.
      rewrite (variadic_no_default _ H3) by auto. cbn [option_map after_slash]. rewrite after_star_ok by assumption.
      unfold describe at 2. rewrite H1. rewrite (variadic_no_default _ H3) by auto. reflexivity.
  - unfold raw_of at 1. rewrite stars_0 by auto. cbn [after_slash]. rewrite IH. unfold describe at 2. now rewrite Hp.
Qed.

Lemma before_slash_ok po r ds : all_kind POSITIONAL_ONLY po -> after_slash r = Some ds ->
  before_slash (map raw_of po ++ RSlash :: r) = Some (map describe po ++ ds).
Proof.
  intros Hp E. induction Hp as [|p po Hp Hps IH]; cbn [map app]; [exact E|].
  unfold raw_of at 1. rewrite stars_0 by auto. cbn [before_slash]. rewrite IH. unfold describe at 2. now rewrite Hp.
Qed.

Lemma no_slash ps : existsb is_slash (map raw_of ps) = false.
Proof. induction ps; cbn; auto. Qed.

Lemma described_ok s : built_plain is_NONE s -> described_by (raws_of s) = Some (map describe (parameters s)).
Proof.
  intros Hb. pose proof Hb as Hb'. apply built_plain_spec in Hb' as [Hg _].
  destruct (built_blocks Hb) as (po & pk & vp & ko & vk & Es & B & G).
  unfold raws_of. cbn zeta. change (filter (fun p => p_kind p == ?k) (parameters s)) with (of_kind k (parameters s)).
  rewrite Es. cbn [parameters].
  rewrite (blocks_po B), (blocks_pk B), (blocks_vp B), (blocks_ko B), (blocks_vk B).
  assert (Gv : Forall (good_parameter is_NONE) vp /\ Forall (good_parameter is_NONE) vk).
  { rewrite Es in Hg. cbn [parameters] in Hg. repeat (apply Forall_app in Hg as [? Hg]). auto. }
  destruct Gv as [Gv Gw].
  pose proof (after_slash_ok (b_pk B) (b_vp B) (b_ko B) (b_vk B) (b_vp1 B) (b_vk1 B) Gv Gw) as A.
  destruct po as [|p po]; cbn [is_nil].
  - cbn [map app]. unfold described_by.
    assert (E : existsb is_slash (map raw_of pk ++ map raw_of vp ++ (if negb (is_nil ko) && is_nil vp then [RBareStar] else [])
               ++ map raw_of ko ++ map raw_of vk) = false).
    { rewrite !existsb_app, !no_slash. destruct (_ && _); reflexivity. }
    destruct (map raw_of pk ++ _) as [|x xs] eqn:Ex; [exact A|]. rewrite E. destruct x; [discriminate E | exact A | exact A].
  - pose proof (@before_slash_ok _ _ _ (b_po B) A) as Bf. unfold described_by.
    assert (E : existsb is_slash (map raw_of (p :: po) ++ [RSlash] ++ map raw_of pk ++ map raw_of vp ++ (if negb (is_nil ko) && is_nil vp then [RBareStar] else [])
               ++ map raw_of ko ++ map raw_of vk) = true).
    { rewrite existsb_app, no_slash. reflexivity. }
    rewrite E. rewrite map_app. exact Bf.
Qed.

(** *** Markers *)
Lemma count_slash s : length (filter is_slash (raws_of s))
  = if existsb (fun p => p_kind p == POSITIONAL_ONLY) (parameters s) then 1 else 0.
Proof.
  assert (N : forall ps, filter is_slash (map raw_of ps) = []) by (induction ps; cbn; auto).
  assert (E : existsb (fun p : parameter V => p_kind p == POSITIONAL_ONLY) (parameters s)
              = negb (is_nil (filter (fun p => p_kind p == POSITIONAL_ONLY) (parameters s)))).
  { induction (parameters s) as [|p ps IH]; cbn; [easy|]. destruct (p_kind p == POSITIONAL_ONLY); easy. }
  unfold raws_of. cbn zeta. rewrite !filter_app, !N, E. cbn [app].
  destruct (is_nil _), (_ && _); reflexivity.
Qed.
Lemma count_star s : length (filter is_bare_star (raws_of s))
  = if existsb (fun p => p_kind p == KEYWORD_ONLY) (parameters s)
       && negb (existsb (fun p => p_kind p == VARIADIC_POSITIONAL) (parameters s)) then 1 else 0.
Proof.
  assert (N : forall ps, filter is_bare_star (map raw_of ps) = []) by (induction ps; cbn; auto).
  assert (E : forall k, existsb (fun p : parameter V => p_kind p == k) (parameters s)
              = negb (is_nil (filter (fun p => p_kind p == k) (parameters s)))).
  { intros k. induction (parameters s) as [|p ps IH]; cbn; [easy|]. destruct (p_kind p == k); easy. }
  unfold raws_of. cbn zeta. rewrite !filter_app, !N, !E, negb_involutive. cbn [app].
  destruct (is_nil (filter (fun p => p_kind p == POSITIONAL_ONLY) (parameters s))), (_ && _); reflexivity.
Qed.

Theorem plain_str_reads s : built_plain is_NONE s -> shown_plain s ->
  exists raws n, (forall fuel, n <= fuel -> read_one fuel (plain_str to_repr s) = Some ((raws, to_repr (returns s)), []))
    /\ described_by raws = Some (map describe (parameters s))
    /\ length (filter is_slash raws) = (if existsb (fun p => p_kind p == POSITIONAL_ONLY) (parameters s) then 1 else 0)
    /\ length (filter is_bare_star raws)
       = (if existsb (fun p => p_kind p == KEYWORD_ONLY) (parameters s)
             && negb (existsb (fun p => p_kind p == VARIADIC_POSITIONAL) (parameters s)) then 1 else 0).
Proof.
  intros Hb Hs. destruct (@read_one_ok s [] Hb Hs eq_refl) as [n H]. rewrite app_nil_r in H.
  exists (raws_of s), n. split; [exact H|]. split; [now apply described_ok|]. split; [apply count_slash | apply count_star].
Qed.

Lemma legal_names s : built_plain is_NONE s -> NoDup (map d_name (map describe (parameters s))).
Proof.
  intros Hb. destruct (built_blocks Hb) as (po & pk & vp & ko & vk & Es & B & G). rewrite map_map.
  replace (map (fun x => d_name (describe x)) (parameters s)) with (map (@p_name V) (parameters s)) by (apply map_ext; reflexivity).
  rewrite Es. apply (b_names B).
Qed.

Theorem plain_str_legal s : built_plain is_NONE s ->
  (forall p, In p (parameters s) -> is_optional p = true -> is_positionable p = true -> p_default p <> None) ->
  legal_described (map describe (parameters s)).
Proof.
  intros Hb Hd. split; [now apply legal_names|]. unfold defaults_in_order. apply FOP_map.
  apply built_plain_spec in Hb as [_ (_ & Hs & _)].
  eapply FOP_impl; [|exact Hs]. intros p q Hp Hq [_ H] Kp Kq.
  assert (Pq : is_positionable q = true) by (unfold is_positionable; destruct Kq as [E|E]; cbn in E; rewrite E; easy).
  specialize (H Pq). cbn. intros Dq.
  assert (Rq : is_required q = true).
  { unfold is_required. destruct (is_optional q) eqn:O; [|easy]. exfalso. apply (Hd q Hq O Pq).
    now destruct (p_default q). }
  specialize (H Rq). destruct p; [reflexivity | discriminate H].
Qed.

(** *** Overloads *)
Theorem signature_str_reads ps : ps <> [] -> Forall (built_plain is_NONE) ps -> Forall shown_plain ps ->
  ev (fun m => read_many m (join $" | " (map (plain_str to_repr) ps))
     = Some (map (fun s => (raws_of s, to_repr (returns s))) ps)).
Proof.
  intros N Hb Hs. induction ps as [|s ps IH]; [easy|]. inv Hb. inv Hs.
  destruct ps as [|s' ps].
  - cbn [map join]. eapply ev_step; [apply (@read_one_ok s []); easy|]. cbn beta. rewrite app_nil_r. intros m Hm.
    cbn [read_many]. rewrite Hm. reflexivity.
  - change (join $" | " (map (plain_str to_repr) (s :: s' :: ps)))
      with (plain_str to_repr s ++ $" | " ++ join $" | " (map (plain_str to_repr) (s' :: ps))).
    eapply ev_step2; [apply (@read_one_ok s ($" | " ++ join $" | " (map (plain_str to_repr) (s' :: ps)))); easy
                    | apply IH; easy|].
    cbn beta. intros m Hm Hr. cbn [read_many]. rewrite Hm.
    change (skip ($" | " ++ ?x)) with (124%N :: 32%N :: x). cbn iota. change (124%N == 124%N) with true. cbn iota.
    assert (E : skip (32%N :: join $" | " (map (plain_str to_repr) (s' :: ps))) = join $" | " (map (plain_str to_repr) (s' :: ps))).
    { destruct ps; reflexivity. }
    rewrite E, Hr. reflexivity.
Qed.
End Str.
