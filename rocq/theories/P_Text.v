(** Properties C21, C22 of the texts of signatures. [printable] is [str.isprintable] on
    one character. *)
From Verif Require Import Base Models SpecCall ModelsProofs PyText PyExpr PyExprProofs SpecText TextProofs.

(** A small value space for the examples: classes of [builtins] and integers *)
Module Small.
Inductive value := Class (name : pystr) | Int (z : Z) | NoValue.
Definition is_NONE (v : value) : bool := match v with NoValue => true | _ => false end.
Definition to_repr (v : value) : pystr :=
  match v with
  | Class n => $"builtins." ++ n
  | Int z => repr_int z
  | NoValue => $"_NONE"
  end.
Definition value_of (e : expr) : option value :=
  match e with
  | EAttribute (EName m) n => if m == $"builtins" then Some (Class n) else None
  | EInt z => Some (Int z)
  | _ => None
  end.
Definition int := Class $"int".
Definition ascii (c : N) : bool := ((32 <=? c) && (c <=? 126))%N.
Lemma class_readable n : is_identifier n = true -> readable ascii to_repr value_of (Class n).
Proof.
  intros H. exists (EAttribute (EName $"builtins") n). split; [|reflexivity].
  apply (@sh_attribute ascii (EName $"builtins") $"builtins" n); [now constructor | exact H | reflexivity].
Qed.
Lemma int_readable z : readable ascii to_repr value_of (Int z).
Proof. exists (EInt z). split; [constructor | reflexivity]. Qed.
(** [(a: int, /, b: int = 5, *, c: int, **d: int) -> int] *)
Definition sample : plain_signature value :=
  mk_plain [RequiredParameter int POSITIONAL_ONLY $"a"; OptionalParameter int (Some (Int 5)) POSITIONAL_OR_KEYWORD $"b";
            RequiredParameter int KEYWORD_ONLY $"c"; OptionalParameter int None VARIADIC_KEYWORD $"d"] int.
Lemma sample_built : built_plain is_NONE sample.
Proof.
  exists (parameters sample), (returns sample). split; [|reflexivity].
  apply Forall_forall. intros p H. apply built_good. cbn in H. intuition subst; cbn; repeat split; discriminate.
Qed.
(** [(x: int = 5, y: int) -> int] where [y] has a default that is not known *)
Definition unknown : plain_signature value :=
  mk_plain [OptionalParameter int (Some (Int 5)) POSITIONAL_OR_KEYWORD $"x";
            OptionalParameter int None POSITIONAL_OR_KEYWORD $"y"] int.
Lemma unknown_built : built_plain is_NONE unknown.
Proof.
  exists (parameters unknown), (returns unknown). split; [|reflexivity].
  apply Forall_forall. intros p H. apply built_good. cbn in H. intuition subst; cbn; repeat split; discriminate.
Qed.
Lemma unknown_shown : shown_plain ascii to_repr unknown.
Proof.
  assert (S : exists e, shows ascii e (to_repr int)).
  { destruct (class_readable $"int" eq_refl) as [e [H _]]. now exists e. }
  split; [|exact S]. constructor; [|constructor; [|constructor]]; (split; [reflexivity|]; split; [exact S|]); intros d E; inv E.
  destruct (int_readable 5) as [e [H _]]. now exists e.
Qed.
End Small.

(** ** C21 *)
(** Whatever the values are, as long as their own texts are expressions: the text reads
    by Python's grammar, giving every parameter's name, kind, annotation text and default text in
    order, with the markers exactly where they are needed. *)
Theorem C21_str_reads_back :
  forall printable (V : Type) (is_NONE : V -> bool) (to_repr : V -> pystr) (s : plain_signature V),
    built_plain is_NONE s ->
    Forall (fun p => is_identifier (p_name p) = true
                     /\ (exists e, shows printable e (to_repr (p_annotation p)))
                     /\ forall d, p_default p = Some d -> exists e, shows printable e (to_repr d)) (parameters s)
    /\ (exists e, shows printable e (to_repr (returns s))) ->
    exists raws n,
      (forall fuel, n <= fuel -> read_one fuel (plain_str to_repr s) = Some ((raws, to_repr (returns s)), []))
      /\ described_by raws
         = Some (map (fun p => (p_kind p, p_name p, to_repr (p_annotation p), option_map to_repr (p_default p)))
                     (parameters s))
      /\ length (filter is_slash raws)
         = (if existsb (fun p => p_kind p == POSITIONAL_ONLY) (parameters s) then 1 else 0)
      /\ length (filter is_bare_star raws)
         = (if existsb (fun p => p_kind p == KEYWORD_ONLY) (parameters s)
               && negb (existsb (fun p => p_kind p == VARIADIC_POSITIONAL) (parameters s)) then 1 else 0).
Proof. exact @plain_str_reads. Qed.
Print Assumptions C21_str_reads_back.

(** The remaining rule of the grammar (no parameter without a default after one with a
    default) holds if every optional positional parameter knows its default ... *)
Theorem C21_legal_with_defaults_partial :
  forall printable (V : Type) (is_NONE : V -> bool) (to_repr : V -> pystr) (s : plain_signature V),
    built_plain is_NONE s ->
    Forall (fun p => is_identifier (p_name p) = true
                     /\ (exists e, shows printable e (to_repr (p_annotation p)))
                     /\ forall d, p_default p = Some d -> exists e, shows printable e (to_repr d)) (parameters s)
    /\ (exists e, shows printable e (to_repr (returns s))) ->
    (forall p, In p (parameters s) -> is_optional p = true -> is_positionable p = true -> p_default p <> None) ->
    exists raws n ds,
      (forall fuel, n <= fuel -> read_one fuel (plain_str to_repr s) = Some ((raws, to_repr (returns s)), []))
      /\ described_by raws = Some ds /\ legal_described ds.
Proof.
  intros printable V is_NONE to_repr s B S O.
  destruct (C21_str_reads_back printable V is_NONE to_repr s B S) as (raws & n & R & D & _).
  exists raws, n. eexists. split; [exact R|]. split; [exact D|]. now apply (@plain_str_legal V is_NONE).
Qed.
Print Assumptions C21_legal_with_defaults_partial.
(** ... and not always: [(x: int = 5, y: int) -> int] is printed for a built signature. *)
Theorem C21_legal_refuted :
  exists (s : plain_signature Small.value),
    built_plain Small.is_NONE s
    /\ plain_str Small.to_repr s = $"(x: builtins.int = 5, y: builtins.int) -> builtins.int"
    /\ exists raws n ds,
         (forall fuel, n <= fuel ->
            read_one fuel (plain_str Small.to_repr s) = Some ((raws, $"builtins.int"), []))
         /\ described_by raws = Some ds /\ ~ legal_described ds.
Proof.
  exists Small.unknown. split; [apply Small.unknown_built|]. split; [reflexivity|].
  destruct (C21_str_reads_back Small.ascii _ Small.is_NONE Small.to_repr _ Small.unknown_built Small.unknown_shown)
    as (raws & n & R & D & _).
  exists raws, n. eexists. split; [exact R|]. split; [exact D|]. intros [_ H]. cbn in H. inv H. inv H2.
  specialize (H1 (or_intror eq_refl) (or_intror eq_refl) eq_refl). discriminate H1.
Qed.
Print Assumptions C21_legal_refuted.
(** Overloads, separated by vertical bars *)
Theorem C21_overloaded_str_reads_back :
  forall printable (V : Type) (is_NONE : V -> bool) (to_repr : V -> pystr) (ps : list (plain_signature V)),
    ps <> [] -> Forall (built_plain is_NONE) ps -> Forall (shown_plain printable to_repr) ps ->
    exists n, forall fuel, n <= fuel ->
      exists rs, read_many fuel (signature_str to_repr (Overloaded ps)) = Some rs
        /\ map (fun r => described_by (fst r)) rs = map (fun s => Some (map (describe to_repr) (parameters s))) ps
        /\ map snd rs = map (fun s => to_repr (returns s)) ps.
Proof.
  intros printable V is_NONE to_repr ps N Hb Hs.
  destruct (@signature_str_reads printable V is_NONE to_repr ps N Hb Hs) as [n H]. exists n. intros fuel Hf.
  eexists. split; [exact (H fuel Hf)|]. rewrite !map_map. split; [|reflexivity].
  apply map_ext_in. intros s Hin. cbn [fst]. apply (@described_ok V is_NONE to_repr). rewrite Forall_forall in Hb. auto.
Qed.
Print Assumptions C21_overloaded_str_reads_back.
Example C21_text :
  plain_str Small.to_repr Small.sample
  = $"(a: builtins.int, /, b: builtins.int = 5, *, c: builtins.int, **d: builtins.int) -> builtins.int".
Proof. reflexivity. Qed.
Example C21_read :
  match read_one 60 (plain_str Small.to_repr Small.sample) with
  | Some ((raws, r), []) => option_map (map (fun d => (d_kind d, d_name d, d_default d))) (described_by raws)
  | _ => None
  end = Some [(POSITIONAL_ONLY, $"a", None); (POSITIONAL_OR_KEYWORD, $"b", Some $"5");
              (KEYWORD_ONLY, $"c", None); (VARIADIC_KEYWORD, $"d", None)].
Proof. vm_compute. reflexivity. Qed.

(** ** C22 *)
Theorem C22_repr_evaluates_back :
  forall printable (V : Type) (is_NONE : V -> bool) (to_repr : V -> pystr) (value_of : expr -> option V)
         (s : signature V),
    built is_NONE s ->
    Forall (fun p => Forall (fun q => readable printable to_repr value_of (p_annotation q)
                                      /\ (forall d, p_default q = Some d -> readable printable to_repr value_of d)
                                      /\ valid_str (p_name q)) (parameters p)
                     /\ readable printable to_repr value_of (returns p)) (flatten_signature s) ->
    exists e, reads (signature_repr to_repr (repr_str printable) s) e
      /\ evaluate_signature is_NONE value_of e = Some s.
Proof. exact @signature_repr_reads. Qed.
Print Assumptions C22_repr_evaluates_back.
Example C22_text :
  plain_repr Small.to_repr (repr_str Small.ascii)
    (mk_plain [OptionalParameter Small.int (Some (Small.Int (-1))) KEYWORD_ONLY $"it's"] Small.int)
  = $"PlainSignature(OptionalParameter(annotation=builtins.int, default=-1, kind=ParameterKind.KEYWORD_ONLY, name=" ++ [34%N]
    ++ $"it's" ++ [34%N] ++ $"), returns=builtins.int)".
Proof. reflexivity. Qed.
Example C22_read :
  match read 60 (plain_repr Small.to_repr (repr_str Small.ascii) Small.sample) with
  | Some (e, []) => evaluate_signature Small.is_NONE Small.value_of e
  | _ => None
  end = Some (Plain Small.sample).
Proof. vm_compute. reflexivity. Qed.
