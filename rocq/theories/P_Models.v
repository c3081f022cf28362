(** Properties C01-C17, C20, C63 of [PlainSignature], [OverloadedSignature] and
    parameters. Statements use [SpecCall] for Python's own rules. [V] is the type
    of arguments, annotations and defaults; [is_NONE] recognises the internal
    "no default" sentinel. *)
From Verif Require Import Base Models SpecCall ModelsProofs CallProofs CallTheorems BindLaws
  ModelsMore OverloadLaws.

(** ** A running example: values are numbers, 0 is the sentinel;
    [f(a, /, b, c=1, *args, d, e=2, **kw)] *)
Module Sample.
Definition none (v : nat) : bool := v =? 0.
Definition a := RequiredParameter 10 POSITIONAL_ONLY $"a".
Definition b := RequiredParameter 10 POSITIONAL_OR_KEYWORD $"b".
Definition c := OptionalParameter 10 (Some 1) POSITIONAL_OR_KEYWORD $"c".
Definition args := OptionalParameter 10 None VARIADIC_POSITIONAL $"args".
Definition d := RequiredParameter 10 KEYWORD_ONLY $"d".
Definition e := OptionalParameter 10 (Some 2) KEYWORD_ONLY $"e".
Definition kw := OptionalParameter 10 None VARIADIC_KEYWORD $"kw".
Definition f := mk_plain [a; b; c; args; d; e; kw] 20.
(** [g(x, y=1)] *)
Definition x := RequiredParameter 10 POSITIONAL_OR_KEYWORD $"x".
Definition y := OptionalParameter 10 (Some 1) POSITIONAL_OR_KEYWORD $"y".
Definition g := mk_plain [x; y] 20.
(** [h(x, /, **kw)] *)
Definition px := RequiredParameter 10 POSITIONAL_ONLY $"x".
Definition h := mk_plain [px; kw] 20.
(** [k(x, **kw)] *)
Definition k := mk_plain [x; kw] 20.

Lemma p_built p : In p [a; b; c; args; d; e; kw; x; y; px] -> built_parameter none p.
Proof.
  intros H. apply built_good. cbn in H. intuition subst; cbn; repeat split; discriminate.
Qed.
Ltac sig_built :=
  match goal with |- built_plain _ ?s =>
    let s' := eval hnf in s in
    match s' with mk_plain ?ps ?r =>
      exists ps, r; split;
      [apply Forall_forall; intros p Hp; apply p_built; cbn in *; tauto | reflexivity]
    end
  end.
Lemma f_built : built_plain none f. Proof. sig_built. Qed.
Lemma g_built : built_plain none g. Proof. sig_built. Qed.
Lemma h_built : built_plain none h. Proof. sig_built. Qed.
Lemma k_built : built_plain none k. Proof. sig_built. Qed.
Definition o := Overloaded [f; g].
Lemma o_built : built none o.
Proof. apply built_overloaded. split; [repeat constructor; auto using f_built, g_built | cbn; lia]. Qed.
End Sample.

(** ** C01 *)
Theorem C01_constructed_signatures_are_legal :
  forall (V : Type) (ps : list (parameter V)) (r : V),
    (legal_parameters (views ps) -> new_plain ps r = Ok (mk_plain ps r))
    /\ (~ legal_parameters (views ps) -> new_plain ps r = Err ValueError).
Proof. exact (fun V => @new_plain_exact V (fun _ => false)). Qed.
Print Assumptions C01_constructed_signatures_are_legal.

Example C01_legal : legal_parameters (views (parameters Sample.f)).
Proof.
  destruct (new_plain_spec (parameters Sample.f) 20) as [[H _]|[_ H]];
    [now apply good_list_legal in H | discriminate H].
Qed.
Example C01_illegal : new_plain [Sample.y; Sample.x] 20 = Err ValueError.
Proof. reflexivity. Qed.

(** ** C02 *)
Definition variadic (k : kind) : Prop := k = VARIADIC_POSITIONAL \/ k = VARIADIC_KEYWORD.

Theorem C02_required_parameter_rules :
  forall (V : Type) (annotation : V) (kd : kind_arg) (name : pystr),
    match kd with
    | NotAKind => new_required annotation kd name = Err TypeError
    | IsKind k =>
        (variadic k -> new_required annotation kd name = Err ValueError)
        /\ (~ variadic k -> exists p, new_required annotation kd name = Ok p
              /\ is_required p = true /\ p_annotation p = annotation
              /\ p_kind p = k /\ p_name p = name)
    end.
Proof.
  unfold variadic. intros V a [k|] n; [|reflexivity]. split.
  - intros [-> | ->]; reflexivity.
  - intros H. exists (RequiredParameter a k n). destruct k; try (exfalso; now auto); easy.
Qed.
Print Assumptions C02_required_parameter_rules.

Theorem C02_optional_parameter_rules :
  forall (V : Type) (is_NONE : V -> bool) (annotation : V) (default : option V)
         (kd : kind_arg) (name : pystr),
    (forall d, default = Some d -> is_NONE d = false) ->
    match kd with
    | NotAKind => new_optional is_NONE annotation default kd name = Err TypeError
    | IsKind k =>
        (variadic k /\ default <> None ->
           new_optional is_NONE annotation default kd name = Err ValueError)
        /\ (~ (variadic k /\ default <> None) ->
            exists p, new_optional is_NONE annotation default kd name = Ok p
              /\ is_optional p = true /\ p_annotation p = annotation
              /\ p_kind p = k /\ p_name p = name /\ p_default p = default)
    end.
Proof.
  unfold variadic. intros V N a [d|] [k|] n H; try reflexivity.
  - specialize (H d eq_refl). cbn. rewrite H. cbn [negb]. rewrite andb_true_r. split.
    + intros [[-> | ->] _]; reflexivity.
    + intros Hn. exists (OptionalParameter a (Some d) k n).
      destruct k; try (exfalso; apply Hn; split; [tauto | discriminate]); easy.
  - split.
    + intros [_ Hn]. now exfalso.
    + intros _. exists (OptionalParameter a None k n). cbn. rewrite andb_false_r. easy.
Qed.
Print Assumptions C02_optional_parameter_rules.

Example C02_variadic_default :
  new_optional Sample.none 10 (Some 1) (IsKind VARIADIC_KEYWORD) $"kw" = Err ValueError.
Proof. reflexivity. Qed.
Example C02_default_kept :
  new_optional Sample.none 10 (Some 1) (IsKind KEYWORD_ONLY) $"k"
  = Ok (OptionalParameter 10 (Some 1) KEYWORD_ONLY $"k").
Proof. reflexivity. Qed.

(** ** C03 *)
Theorem C03_expects_exact :
  forall (V : Type) (is_NONE : V -> bool) (s : plain_signature V) args kwargs,
    built_plain is_NONE s ->
    plain_expects s args kwargs = true <->
    positionals_fit (sviews s) (length args)
    /\ (takes_extra_keywords (sviews s)
        \/ forall kw, In kw (dkeys kwargs) ->
             exists v, In v (sviews s) /\ keyword_capable v /\ v_name v = kw
                       /\ ~ filled (sviews s) (length args) v).
Proof. exact @expects_direct. Qed.
Print Assumptions C03_expects_exact.

Theorem C03_expects_iff_completable :
  forall (V : Type) (is_NONE : V -> bool) (s : plain_signature V) args kwargs,
    built_plain is_NONE s -> legal_kwargs kwargs ->
    (takes_extra_keywords (sviews s) -> ~ clash (sviews s) (length args) (dkeys kwargs)) ->
    plain_expects s args kwargs = true <-> completable (sviews s) (length args) (dkeys kwargs).
Proof. exact @expects_completable. Qed.
Print Assumptions C03_expects_iff_completable.

Example C03_case :
  built_plain Sample.none Sample.g
  /\ legal_kwargs [($"y", 5)]
  /\ plain_expects Sample.g [7] [($"y", 5)] = true
  /\ plain_expects Sample.g [7] [($"x", 5)] = false
  /\ ~ takes_extra_keywords (sviews Sample.g).
Proof.
  repeat split; auto using Sample.g_built.
  - repeat constructor; easy.
  - intros (v & [<-|[<-|[]]] & E); discriminate E.
Qed.

(** ** C04 *)
Theorem C04_all_set_exact :
  forall (V : Type) (is_NONE : V -> bool) (s : plain_signature V) args kwargs,
    built_plain is_NONE s ->
    (takes_extra_keywords (sviews s) -> ~ clash (sviews s) (length args) (dkeys kwargs)) ->
    plain_all_set s args kwargs = true <-> accepts (sviews s) (length args) (dkeys kwargs).
Proof. exact @all_set_exact. Qed.
Print Assumptions C04_all_set_exact.

(** A call Python accepts is always reported complete, clash or not. *)
Theorem C04_all_set_complete :
  forall (V : Type) (is_NONE : V -> bool) (s : plain_signature V) args kwargs,
    built_plain is_NONE s ->
    accepts (sviews s) (length args) (dkeys kwargs) -> plain_all_set s args kwargs = true.
Proof. exact @all_set_complete. Qed.
Print Assumptions C04_all_set_complete.

(** The clash proviso cannot be dropped: [def k(x, **kw)] and the call [k(1, x=2)],
    which Python rejects. *)
Theorem C04_without_proviso_refuted :
  exists (s : plain_signature nat) args kwargs,
    built_plain Sample.none s /\ legal_kwargs kwargs
    /\ plain_all_set s args kwargs = true /\ plain_expects s args kwargs = true
    /\ ~ accepts (sviews s) (length args) (dkeys kwargs)
    /\ ~ completable (sviews s) (length args) (dkeys kwargs).
Proof.
  exists Sample.k, [1], [($"x", 2)].
  assert (Hbad : forall n kws', ~ accepts (sviews Sample.k) (1 + n) ([$"x"] ++ kws')).
  { intros n kws' (_ & H & _). destruct (H $"x" (or_introl eq_refl)) as [(v & Hin & Hk & Hn & Hf)|[_ Hno]].
    - destruct Hin as [<-|[<-|[]]]; [|destruct Hk; discriminate].
      apply Hf. unfold filled. cbn. now left.
    - apply (Hno (view Sample.x)); [now left | now left | reflexivity]. }
  repeat split; auto using Sample.k_built.
  - repeat constructor; easy.
  - intros H. exact (Hbad 0 [] H).
  - intros (n' & kws' & _ & H). exact (Hbad n' kws' H).
Qed.
Print Assumptions C04_without_proviso_refuted.

Example C04_case :
  plain_all_set Sample.f [1; 2; 3; 4] [($"d", 5); ($"z", 6)] = true
  /\ plain_all_set Sample.f [1; 2] [($"e", 5)] = false
  /\ ~ clash (sviews Sample.f) 4 [$"d"; $"z"].
Proof.
  repeat split.
  intros (p & Hf & _ & Hn). unfold filled in Hf. cbn in Hf.
  destruct Hf as [<-|[<-|[<-|[]]]]; cbn in Hn; destruct Hn as [E|[E|[]]]; discriminate E.
Qed.

(** ** C05 *)
Theorem C05_all_set_implies_expects :
  forall (V : Type) (is_NONE : V -> bool) (s : signature V) args kwargs,
    built is_NONE s -> all_set s args kwargs = true -> expects s args kwargs = true.
Proof. exact @overloaded_all_set_expects. Qed.
Print Assumptions C05_all_set_implies_expects.
Example C05_case : built Sample.none Sample.o /\ all_set Sample.o [1] [($"y", 2)] = true.
Proof. split; [exact Sample.o_built | reflexivity]. Qed.

(** ** C06 *)
Theorem C06_empty_call_is_identity :
  forall (V : Type) (is_NONE : V -> bool) (s : signature V),
    built is_NONE s -> expects s [] [] = true /\ bind is_NONE s [] [] = Ok s.
Proof. exact @overloaded_empty. Qed.
Print Assumptions C06_empty_call_is_identity.
Example C06_case : bind Sample.none Sample.o [] [] = Ok Sample.o.
Proof. reflexivity. Qed.

(** ** C07 *)
Theorem C07_bind_is_total_up_to_TypeError :
  forall (V : Type) (is_NONE : V -> bool) (s : signature V) args kwargs,
    built is_NONE s ->
    (exists t, bind is_NONE s args kwargs = Ok t /\ built is_NONE t)
    \/ bind is_NONE s args kwargs = Err TypeError.
Proof. exact @overloaded_bind_total. Qed.
Print Assumptions C07_bind_is_total_up_to_TypeError.
Example C07_case :
  bind Sample.none (Plain Sample.g) [] [($"x", 3)]
  = Ok (Plain (mk_plain [OptionalParameter 10 (Some 3) KEYWORD_ONLY $"x";
                         OptionalParameter 10 (Some 1) KEYWORD_ONLY $"y"] 20)).
Proof. reflexivity. Qed.

(** ** C08 *)
Theorem C08_bind_succeeds_exactly :
  forall (V : Type) (is_NONE : V -> bool) (s : plain_signature V) args kwargs,
    built_plain is_NONE s ->
    (exists s', plain_bind is_NONE s args kwargs = Ok s') <->
    plain_expects s args kwargs = true
    /\ ~ names_filled (sviews s) (length args) (dkeys kwargs).
Proof. exact @bind_exact. Qed.
Print Assumptions C08_bind_succeeds_exactly.

Theorem C08_bind_succeeds_exactly_for_overloads :
  forall (V : Type) (is_NONE : V -> bool) (s : signature V) args kwargs,
    built is_NONE s ->
    (exists t, bind is_NONE s args kwargs = Ok t) <->
    expects s args kwargs = true
    /\ forall p, In p (flatten_signature s) -> plain_expects p args kwargs = true ->
         ~ names_filled (sviews p) (length args) (dkeys kwargs).
Proof. exact @overloaded_bind_exact. Qed.
Print Assumptions C08_bind_succeeds_exactly_for_overloads.
Example C08_case :
  is_ok (plain_bind Sample.none Sample.f [1; 2] [($"c", 3); ($"z", 4)]) = true
  /\ plain_bind Sample.none Sample.f [1; 2] [($"a", 3)] = Err TypeError.
Proof. split; reflexivity. Qed.

(** ** C09: false in general *)
Theorem C09_expects_guarantees_bind_refuted :
  exists (s : plain_signature nat) args kwargs,
    built_plain Sample.none s /\ legal_kwargs kwargs
    /\ plain_expects s args kwargs = true
    /\ accepts (sviews s) (length args) (dkeys kwargs)
    /\ plain_bind Sample.none s args kwargs = Err TypeError.
Proof.
  (* def h(x, /, **kw): h(1, x=2) is legal Python *)
  exists Sample.h, [1], [($"x", 2)].
  repeat split; auto using Sample.h_built.
  - repeat constructor; easy.
  - left. cbn. lia.
  - intros kw [<-|[]]. right. split.
    + exists (view Sample.kw). split; [right; now left | reflexivity].
    + intros p [<-|[<-|[]]] Hk; destruct Hk; discriminate.
  - intros p [<-|[<-|[]]] Hr; [|discriminate]. left. now left.
Qed.
Print Assumptions C09_expects_guarantees_bind_refuted.

(** One overload that refuses spoils the others. *)
Theorem C09_overloads_refuted :
  exists (s : signature nat) args kwargs,
    built Sample.none s /\ legal_kwargs kwargs
    /\ (exists p, In p (flatten_signature s) /\ is_ok (plain_bind Sample.none p args kwargs) = true)
    /\ expects s args kwargs = true
    /\ bind Sample.none s args kwargs = Err TypeError.
Proof.
  exists (Overloaded [Sample.h; mk_plain [Sample.a; Sample.kw] 20]), [1], [($"x", 2)].
  split; [|split; [|split; [|split; reflexivity]]].
  - apply built_overloaded. split; [|cbn; lia]. constructor; [exact Sample.h_built|].
    constructor; [Sample.sig_built | constructor].
  - repeat constructor; easy.
  - exists (mk_plain [Sample.a; Sample.kw] 20). split; [right; now left | reflexivity].
Qed.
Print Assumptions C09_overloads_refuted.

(** Holds without [**kwargs], or when no keyword repeats a filled name. *)
Theorem C09_expects_guarantees_bind_partial :
  forall (V : Type) (is_NONE : V -> bool) (s : signature V) args kwargs,
    built is_NONE s ->
    (forall p, In p (flatten_signature s) -> takes_extra_keywords (sviews p) ->
       ~ names_filled (sviews p) (length args) (dkeys kwargs)) ->
    expects s args kwargs = true -> exists t, bind is_NONE s args kwargs = Ok t.
Proof. exact @overloaded_expects_bind. Qed.
Print Assumptions C09_expects_guarantees_bind_partial.
Example C09_case : expects (Plain Sample.g) [1] [($"y", 3)] = true
  /\ forall p, In p (flatten_signature (Plain Sample.g)) -> ~ takes_extra_keywords (sviews p).
Proof.
  split; [reflexivity|]. intros p [<-|[]] (v & [<-|[<-|[]]] & E); discriminate E.
Qed.

(** ** C10 *)
Theorem C10_shape_of_bound_signature :
  forall (V : Type) (is_NONE : V -> bool) (s : plain_signature V) args kwargs s',
    built_plain is_NONE s -> legal_kwargs kwargs ->
    plain_bind is_NONE s args kwargs = Ok s' ->
    returns s' = returns s /\
    exists gone before after after',
      parameters s = gone ++ before ++ after
      /\ length gone = Nat.min (length args) (length (positionals (sviews s)))
      /\ (forall p, In p before -> ~ bound_by_keyword kwargs p)
      /\ (forall p l, after = p :: l -> bound_by_keyword kwargs p)
      /\ parameters s' = before ++ after'
      /\ Forall2 (rebound is_NONE kwargs)
           (filter (fun p => negb (kind_eqb (p_kind p) VARIADIC_POSITIONAL)) after) after'.
Proof. exact @bind_shape. Qed.
Print Assumptions C10_shape_of_bound_signature.
Example C10_case :
  plain_bind Sample.none Sample.f [7] [($"c", 8); ($"d", 9)]
  = Ok (mk_plain
         [Sample.b; OptionalParameter 10 (Some 1) KEYWORD_ONLY $"c";
          OptionalParameter 10 (Some 9) KEYWORD_ONLY $"d"; Sample.e; Sample.kw] 20).
Proof. reflexivity. Qed.

(** ** C11: false for a parameter that already has a default (its old default stays) *)
Theorem C11_bound_value_is_default_refuted :
  exists (s s' : plain_signature nat) name value p,
    built_plain Sample.none s /\ Sample.none value = false
    /\ plain_bind Sample.none s [] [(name, value)] = Ok s'
    /\ In p (parameters s') /\ p_name p = name /\ p_default p <> Some value.
Proof.
  exists Sample.g, (mk_plain [Sample.x; OptionalParameter 10 (Some 1) KEYWORD_ONLY $"y"] 20), $"y", 5,
    (OptionalParameter 10 (Some 1) KEYWORD_ONLY $"y").
  repeat split; auto using Sample.g_built; [right; now left | discriminate].
Qed.
Print Assumptions C11_bound_value_is_default_refuted.

Theorem C11_bound_value_is_default_partial :
  forall (V : Type) (is_NONE : V -> bool) (s : plain_signature V) args kwargs s' p v,
    built_plain is_NONE s -> legal_kwargs kwargs ->
    plain_bind is_NONE s args kwargs = Ok s' ->
    In p (parameters s) -> keyword_capable (view p) -> In (p_name p, v) kwargs ->
    exists p', In p' (parameters s') /\ p_name p' = p_name p /\ p_annotation p' = p_annotation p
      /\ p_kind p' = KEYWORD_ONLY /\ is_optional p' = true
      /\ (p_default p = None -> is_NONE v = false -> p_default p' = Some v)
      /\ (forall d, p_default p = Some d -> p_default p' = Some d).
Proof. exact @bind_keyword_value. Qed.
Print Assumptions C11_bound_value_is_default_partial.
Example C11_case :
  legal_kwargs [($"x", 5)] /\ keyword_capable (view Sample.x)
  /\ plain_bind Sample.none Sample.g [] [($"x", 5)]
     = Ok (mk_plain [OptionalParameter 10 (Some 5) KEYWORD_ONLY $"x";
                     OptionalParameter 10 (Some 1) KEYWORD_ONLY $"y"] 20).
Proof. repeat split; [repeat constructor; easy | now left]. Qed.

(** ** C12 *)
Theorem C12_partial_application :
  forall (V : Type) (is_NONE : V -> bool) (s : plain_signature V) a1 a2 k1 k2 s1,
    built_plain is_NONE s ->
    plain_bind is_NONE s a1 k1 = Ok s1 ->
    (takes_extra_keywords (sviews s) ->
     ~ clash (sviews s) (length a1 + length a2) (dkeys k1 ++ dkeys k2)) ->
    plain_expects s1 a2 k2 = plain_expects s (a1 ++ a2) (merge k1 k2)
    /\ plain_all_set s1 a2 k2 = plain_all_set s (a1 ++ a2) (merge k1 k2).
Proof. exact @residual. Qed.
Print Assumptions C12_partial_application.

(** The same law in terms of Python's rules alone *)
Theorem C12_partial_application_of_python_calls :
  forall (V : Type) (is_NONE : V -> bool) (s : plain_signature V) a1 k1 s1 (a2 : list V) k2,
    built_plain is_NONE s ->
    plain_bind is_NONE s a1 k1 = Ok s1 ->
    (takes_extra_keywords (sviews s) ->
     ~ clash (sviews s) (length a1 + length a2) (dkeys k1 ++ dkeys k2)) ->
    accepts (sviews s1) (length a2) (dkeys k2)
    <-> accepts (sviews s) (length a1 + length a2) (dkeys (merge k1 k2)).
Proof. exact @accepts_residual. Qed.
Print Assumptions C12_partial_application_of_python_calls.
Example C12_case :
  ~ clash (sviews Sample.f) 2 [$"c"; $"d"]
  /\ is_ok (plain_bind Sample.none Sample.f [7] [($"c", 8)]) = true
  /\ plain_all_set Sample.f [7; 6] [($"c", 8); ($"d", 9)] = true.
Proof.
  repeat split. intros (p & Hf & _ & Hn). unfold filled in Hf. cbn in Hf.
  destruct Hf as [<-|[<-|[]]]; cbn in Hn; destruct Hn as [E|[E|[]]]; discriminate E.
Qed.

(** ** C13 *)
Theorem C13_two_step_binding :
  forall (V : Type) (is_NONE : V -> bool) (s : signature V) a1 a2 k1 k2,
    built is_NONE s -> legal_kwargs k2 ->
    (forall kw, In kw (dkeys k1) -> ~ In kw (dkeys k2)) ->
    (forall p, In p (flatten_signature s) -> takes_extra_keywords (sviews p) ->
     ~ names_filled (sviews p) (length a1 + length a2) (dkeys k1 ++ dkeys k2)) ->
    (let* s1 := bind is_NONE s a1 k1 in bind is_NONE s1 a2 k2)
    = bind is_NONE s (a1 ++ a2) (merge k1 k2).
Proof. exact @overloaded_bind_bind. Qed.
Print Assumptions C13_two_step_binding.

(** The proviso about filled names cannot be dropped. *)
Theorem C13_without_proviso_refuted :
  exists (s : plain_signature nat) a1 k2,
    built_plain Sample.none s /\ legal_kwargs k2
    /\ is_ok (let* s1 := plain_bind Sample.none s a1 [] in plain_bind Sample.none s1 [] k2) = true
    /\ plain_bind Sample.none s a1 k2 = Err TypeError.
Proof.
  exists Sample.h, [1], [($"x", 2)]. repeat split; auto using Sample.h_built.
  repeat constructor; easy.
Qed.
Print Assumptions C13_without_proviso_refuted.
Example C13_case :
  let s := Plain Sample.f in
  ~ names_filled (sviews Sample.f) 2 [$"c"; $"d"]
  /\ (let* s1 := bind Sample.none s [7] [($"c", 8)] in bind Sample.none s1 [6] [($"d", 9)])
     = bind Sample.none s [7; 6] [($"c", 8); ($"d", 9)]
  /\ is_ok (bind Sample.none s [7; 6] [($"c", 8); ($"d", 9)]) = true.
Proof.
  repeat split. intros (p & Hf & Hn). unfold filled in Hf. cbn in Hf.
  destruct Hf as [<-|[<-|[]]]; cbn in Hn; destruct Hn as [E|[E|[]]]; discriminate E.
Qed.

(** ** C14 *)
Theorem C14_expects_is_prefix_closed :
  forall (V : Type) (is_NONE : V -> bool) (s : plain_signature V) args more kwargs more_kwargs,
    built_plain is_NONE s ->
    plain_expects s (args ++ more) (merge kwargs more_kwargs) = true ->
    plain_expects s args kwargs = true.
Proof. exact @expects_prefix. Qed.
Print Assumptions C14_expects_is_prefix_closed.
Example C14_case : plain_expects Sample.g ([1] ++ []) (merge [] [($"y", 2)]) = true.
Proof. reflexivity. Qed.

(** ** C15 *)
Theorem C15_overloads_are_a_union :
  forall (V : Type) (is_NONE : V -> bool) (ss : list (plain_signature V)) args kwargs,
    (expects (Overloaded ss) args kwargs = true
       <-> exists s, In s ss /\ plain_expects s args kwargs = true)
    /\ (all_set (Overloaded ss) args kwargs = true
       <-> exists s, In s ss /\ plain_all_set s args kwargs = true)
    /\ (expects (Overloaded ss) args kwargs = false ->
          bind is_NONE (Overloaded ss) args kwargs = Err TypeError)
    /\ (forall t, bind is_NONE (Overloaded ss) args kwargs = Ok t <->
          filter (fun p => plain_expects p args kwargs) ss <> []
          /\ exists ts,
            Forall2 (fun s s' => plain_bind is_NONE s args kwargs = Ok s')
              (filter (fun p => plain_expects p args kwargs) ss) ts
            /\ t = match ts with [s'] => Plain s' | _ => Overloaded ts end).
Proof.
  intros V N ss args kwargs. split; [apply existsb_exists|]. split; [apply existsb_exists|].
  split; [exact (overloaded_unexpected N ss args kwargs) | exact (overloaded_bind_survivors N ss args kwargs)].
Qed.
Print Assumptions C15_overloads_are_a_union.
Example C15_case :
  bind Sample.none Sample.o [1] [($"y", 3); ($"z", 4)]
  = map_res Plain (plain_bind Sample.none Sample.f [1] [($"y", 3); ($"z", 4)])
  /\ bind Sample.none (Overloaded [Sample.g; mk_plain [Sample.px] 20]) [1; 2; 3] [] = Err TypeError
  /\ exists ts, bind Sample.none Sample.o [1] [] = Ok (Overloaded ts).
Proof. repeat split. eexists. reflexivity. Qed.

(** ** C16 *)
Theorem C16_partial_application_of_overloads :
  forall (V : Type) (is_NONE : V -> bool) (s t : signature V) a1 a2 k1 k2,
    built is_NONE s ->
    bind is_NONE s a1 k1 = Ok t ->
    (forall p, In p (flatten_signature s) -> takes_extra_keywords (sviews p) ->
     ~ clash (sviews p) (length a1 + length a2) (dkeys k1 ++ dkeys k2)) ->
    expects t a2 k2 = expects s (a1 ++ a2) (merge k1 k2)
    /\ all_set t a2 k2 = all_set s (a1 ++ a2) (merge k1 k2).
Proof. exact @overloaded_residual. Qed.
Print Assumptions C16_partial_application_of_overloads.
Example C16_case :
  is_ok (bind Sample.none Sample.o [7] []) = true
  /\ all_set Sample.o [7; 6] [($"d", 1)] = true
  /\ ~ clash (sviews Sample.f) 2 [$"d"].
Proof.
  repeat split. intros (p & Hf & _ & Hn). unfold filled in Hf. cbn in Hf.
  destruct Hf as [<-|[<-|[]]]; cbn in Hn; destruct Hn as [E|[]]; discriminate E.
Qed.

(** ** C17 *)
Theorem C17_combining_is_flat :
  forall (V : Type) (ss : list (signature V)),
    let overloads := flat_map (fun s => match s with Plain p => [p] | Overloaded ps => ps end) ss in
    from_signatures ss =
    match overloads with
    | [] => Err ValueError
    | [p] => Ok (Plain p)
    | _ => Ok (Overloaded overloads)
    end.
Proof. exact @from_signatures_combined. Qed.
Print Assumptions C17_combining_is_flat.
Theorem C17_combining_is_associative :
  forall (V : Type) (xs ys zs : list (signature V)) y,
    from_signatures ys = Ok y ->
    from_signatures (xs ++ y :: zs) = from_signatures (xs ++ ys ++ zs).
Proof. exact @from_signatures_assoc. Qed.
Print Assumptions C17_combining_is_associative.
Example C17_case :
  from_signatures [Plain Sample.f; Plain Sample.g] = Ok Sample.o
  /\ from_signatures [Plain Sample.h; Sample.o] = Ok (Overloaded [Sample.h; Sample.f; Sample.g]).
Proof. split; reflexivity. Qed.

(** ** C20 *)
Theorem C20_parameter_pickling :
  forall (V : Type) (is_NONE : V -> bool) (p : parameter V),
    built_parameter is_NONE p -> parameter_rebuild is_NONE (parameter_getnewargs p) = Ok p.
Proof. exact @parameter_pickle. Qed.
Print Assumptions C20_parameter_pickling.
Theorem C20_signature_pickling :
  forall (V : Type) (is_NONE : V -> bool) (s : signature V),
    built is_NONE s -> signature_rebuild (signature_getnewargs s) = Ok s.
Proof. exact @signature_pickle. Qed.
Print Assumptions C20_signature_pickling.
Example C20_case : signature_rebuild (signature_getnewargs Sample.o) = Ok Sample.o.
Proof. reflexivity. Qed.

(** ** C63: false for the keyword [self] *)
Theorem C63_any_keyword_name_refuted :
  exists (s : signature nat) kwargs,
    built Sample.none s /\ legal_kwargs kwargs
    /\ (forall p, In p (flatten_signature s) -> accepts (sviews p) 0 (dkeys kwargs))
    /\ call_all_set s [] kwargs = Err TypeError
    /\ call_expects s [] kwargs = Err TypeError
    /\ call_bind Sample.none s [] kwargs = Err TypeError.
Proof.
  (* def f(self): ...  and the call f(self=1) *)
  exists (Plain (mk_plain [RequiredParameter 10 POSITIONAL_OR_KEYWORD $"self"] 20)), [($"self", 1)].
  repeat split.
  - exists [RequiredParameter 10 POSITIONAL_OR_KEYWORD $"self"], 20. split; [|reflexivity].
    constructor; [|constructor]. left. exists 10, (IsKind POSITIONAL_OR_KEYWORD), $"self". reflexivity.
  - repeat constructor; easy.
  - left. cbn. lia.
  - destruct H as [<-|[]]. intros kw [<-|[]]. left. eexists. split; [now left|].
    repeat split; [now left | intros []].
  - destruct H as [<-|[]]. intros q [<-|[]] _. right. split; [now left | now left].
Qed.
Print Assumptions C63_any_keyword_name_refuted.
Theorem C63_any_keyword_name_partial :
  forall (V : Type) (is_NONE : V -> bool) (s : signature V) args kwargs,
    ~ In $"self" (dkeys kwargs) ->
    call_all_set s args kwargs = Ok (all_set s args kwargs)
    /\ call_expects s args kwargs = Ok (expects s args kwargs)
    /\ call_bind is_NONE s args kwargs = bind is_NONE s args kwargs.
Proof.
  intros V N s args kwargs H. apply dmem_not_In in H.
  unfold call_all_set, call_expects, call_bind, call_method. now rewrite H.
Qed.
Print Assumptions C63_any_keyword_name_partial.
Example C63_case : ~ In $"self" (dkeys [($"y", 3)]).
Proof. intros [E|[]]. discriminate E. Qed.
