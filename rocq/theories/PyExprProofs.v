(** The reader of [PyExpr] is exact on the texts of the grammar, and local. *)
From Verif Require Import Base PyText PyNumbers PyExpr.
Set Implicit Arguments.

Scheme shows_mind := Minimality for shows Sort Prop
  with shows_items_mind := Minimality for shows_items Sort Prop
  with shows_item_mind := Minimality for shows_item Sort Prop.
Combined Scheme shows_all_ind from shows_mind, shows_items_mind, shows_item_mind.

(** "For enough fuel" *)
Definition ev (P : nat -> Prop) : Prop := exists n, forall m, n <= m -> P m.

Lemma ev_now (P : nat -> Prop) : (forall m, P m) -> ev P.
Proof. intros H. exists 0. auto. Qed.
Lemma ev_step (P Q : nat -> Prop) : ev P -> (forall m, P m -> Q (S m)) -> ev Q.
Proof. intros [n H] HQ. exists (S n). intros [|m] Hm; [lia|]. apply HQ, H. lia. Qed.
Lemma ev_step2 (P P' Q : nat -> Prop) : ev P -> ev P' -> (forall m, P m -> P' m -> Q (S m)) -> ev Q.
Proof.
  intros [n H] [n' H'] HQ. exists (S (n + n')). intros [|m] Hm; [lia|]. apply HQ; [apply H | apply H']; lia.
Qed.
Lemma ev_impl (P Q : nat -> Prop) : ev P -> (forall m, P m -> Q m) -> ev Q.
Proof. intros [n H] HQ. exists n. auto. Qed.

Arguments ev_step {P Q}.
Arguments ev_step2 {P P' Q}.
Arguments ev_impl {P Q}.

(** ** Characters *)
Definition head_ok (f : N -> bool) (s : pystr) : bool := match s with [] => true | c :: _ => f c end.
Definition breaks (c : N) : bool := negb (is_ident_char c || (c == QUOTE) || (c == DOUBLE_QUOTE)).
(** After an expression: no identifier character, no quote, no trailer *)
Definition ends (c : N) : bool :=
  negb (is_ident_char c || (c == QUOTE) || (c == DOUBLE_QUOTE) || (c == 46%N) || (c == 40%N) || (c == 91%N)).

Lemma head_weaken (f g : N -> bool) s : (forall c, f c = true -> g c = true) ->
  head_ok f s = true -> head_ok g s = true.
Proof. destruct s; cbn; auto. Qed.
Lemma skip_blank w s : blank w -> head_ok (fun c => negb (is_space c)) s = true -> skip (w ++ s) = s.
Proof. intros Hw Hs. unfold skip. now rewrite span_app. Qed.
Lemma skip_nothing s : head_ok (fun c => negb (is_space c)) s = true -> skip s = s.
Proof. intros H. now apply (@skip_blank [] s). Qed.

Lemma space_cases c : is_space c = true -> c = 32%N \/ c = 10%N \/ c = 9%N.
Proof.
  unfold is_space, NEWLINE. rewrite !orb_true_iff. intros [[H|H]|H]; apply eqb_to_eq in H; auto.
Qed.
Lemma ident_not_space c : is_ident_char c = true -> is_space c = false.
Proof.
  intros H. destruct (is_space c) eqn:E; [|easy].
  destruct (space_cases _ E) as [->|[->| ->]]; discriminate H.
Qed.
Lemma identifier_chars n : is_identifier n = true -> forallb is_ident_char n = true.
Proof.
  destruct n as [|c r]; [easy|]. cbn. rewrite !andb_true_iff.
  intros [H1 H2]. split; [unfold is_ident_char; now rewrite H1 | easy].
Qed.
Lemma blank_head_not_ident w s : blank w -> head_ok breaks s = true -> head_ok breaks (w ++ s) = true.
Proof.
  intros Hw Hs. destruct w as [|c w]; [easy|]. cbn in *. apply andb_true_iff in Hw as [Hc _].
  destruct (space_cases _ Hc) as [->|[->| ->]]; reflexivity.
Qed.
Lemma breaks_no_ident s : head_ok breaks s = true -> match s with [] => true | c :: _ => negb (is_ident_char c) end = true.
Proof. destruct s as [|c s]; cbn; [easy|]. unfold breaks. rewrite !negb_true_iff, !orb_false_iff. tauto. Qed.
Lemma blank_head_ends w s : blank w -> head_ok ends s = true -> head_ok ends (w ++ s) = true.
Proof.
  intros Hw Hs. destruct w as [|c w]; [easy|]. cbn in *. apply andb_true_iff in Hw as [Hc _].
  destruct (space_cases _ Hc) as [->|[->| ->]]; reflexivity.
Qed.
Lemma ends_breaks s : head_ok ends s = true -> head_ok breaks s = true.
Proof.
  destruct s as [|c s]; cbn; [easy|]. unfold ends, breaks. rewrite !negb_true_iff, !orb_false_iff. tauto.
Qed.
Lemma trailers_stop fuel e s : head_ok ends s = true -> read_trailers (S fuel) e s = Some (e, s).
Proof.
  destruct s as [|c s]; cbn; [easy|]. unfold ends. rewrite negb_true_iff, !orb_false_iff.
  intros [[[[[_ _] _] ->] ->] ->]. easy.
Qed.

(** ** First characters of texts *)
Section Shows.
Variable printable : N -> bool.

(** Never a space, a closing bracket or another separator *)
Definition starts (c : N) : bool :=
  is_ident_char c || (c == QUOTE) || (c == DOUBLE_QUOTE) || (c == 45%N) || (c == 40%N) || (c == 91%N)
  || (c == 123%N).
Definition good_start (t : pystr) : Prop := exists c r, t = c :: r /\ starts c = true.

Lemma good_start_app t s : good_start t -> good_start (t ++ s).
Proof. intros (c & r & -> & H). exists c, (r ++ s). auto. Qed.

Lemma repr_int_start z : good_start (repr_int z).
Proof.
  assert (G : forall n, good_start (repr_N n)).
  { intros n. pose proof (repr_N_digits n) as H. pose proof (repr_N_nonempty n) as H'.
    destruct (repr_N n) as [|c r]; [easy|]. exists c, r. split; [easy|]. cbn in H.
    apply andb_true_iff in H as [H _]. unfold starts, is_ident_char. now rewrite H, orb_true_r. }
  destruct z; cbn [repr_int]; try apply G. eexists _, _. split; [reflexivity|]. reflexivity.
Qed.

Lemma digits_start ds t : forallb is_digit ds = true -> is_nil ds = false -> good_start (ds ++ t).
Proof.
  intros D Nn. destruct ds as [|c r]; [easy|]. exists c, (r ++ t). split; [easy|]. cbn in D. apply andb_true_iff in D as [D _].
  unfold starts, is_ident_char. now rewrite D, orb_true_r.
Qed.
Lemma decimal_start dot x t : proper_decimal x -> good_start (decimal_text dot x ++ t).
Proof. intros P. destruct (decimal_parts dot x P) as (ds & _ & _ & mid & -> & D & Nn & _). rewrite <- app_assoc. now apply digits_start. Qed.

Lemma shows_start_all :
  (forall e t, shows printable e t -> good_start t)
  /\ (forall its b body, shows_items printable its b body -> True)
  /\ (forall it t, shows_item printable it t -> good_start t).
Proof.
  apply shows_all_ind; intros; auto; try (now apply good_start_app);
    try (eexists _, _; split; [reflexivity|]; reflexivity).
  - destruct n as [|c r]; [easy|]. exists c, r. split; [easy|]. cbn in H. apply andb_true_iff in H as [H _].
    unfold starts, is_ident_char. now rewrite H.
  - destruct (@repr_quote_cases s) as [E|E]; eexists _, _; (split; [reflexivity|]); rewrite E; reflexivity.
  - apply repr_int_start.
  - rewrite <- (app_nil_r (repr_float x)). now apply decimal_start.
  - now apply decimal_start.
  - destruct k as [|c r]; [easy|]. eexists c, _. split; [reflexivity|]. cbn in H.
    apply andb_true_iff in H as [H _]. unfold starts, is_ident_char. now rewrite H.
Qed.
Definition shows_start e t := proj1 shows_start_all e t.
Definition shows_item_start it t := proj2 (proj2 shows_start_all) it t.

Lemma starts_not_space c : starts c = true -> is_space c = false.
Proof.
  intros H. destruct (is_space c) eqn:E; [|easy].
  destruct (space_cases _ E) as [->|[->| ->]]; discriminate H.
Qed.
Lemma starts_not_close c : starts c = true -> c <> 41%N /\ c <> 93%N /\ c <> 125%N.
Proof. intros H. repeat split; intros ->; discriminate H. Qed.

Definition no_equal (c : N) : bool := negb (c == 61%N).
Lemma digits_no_equal ds : forallb is_digit ds = true -> forallb no_equal ds = true.
Proof.
  rewrite !forallb_forall. intros H c Hc. apply negb_true_iff, eqb_neq. intros ->. now specialize (H _ Hc).
Qed.
Lemma decimal_chars dot x : proper_decimal x -> forallb no_equal (decimal_text dot x) = true.
Proof.
  intros P. assert (D : forallb is_digit (digits x) = true) by (destruct P as [[-> _]|[D _]]; [reflexivity|exact D]).
  unfold decimal_text. destruct (digits x) as [|c r] eqn:E; [destruct dot; reflexivity|]. rewrite <- E in *.
  assert (Dc : forallb no_equal ([c] ++ r) = true) by (cbn [app]; rewrite <- E; now apply digits_no_equal).
  rewrite forallb_app in Dc. apply andb_true_iff in Dc as [Dc Dr].
  assert (Z0 : forall n, forallb no_equal (zeros n) = true) by (intros n; apply digits_no_equal, zeros_digits).
  assert (Dd : forallb no_equal (digits x) = true) by now apply digits_no_equal.
  destruct (_ || _); [|destruct (_ <=? _)%Z; [|destruct (_ <=? _)%Z]].
  - rewrite !forallb_app, Dc. cbn [andb]. apply andb_true_iff. split; [destruct r; [reflexivity|]; cbn [is_nil]; rewrite forallb_app, Dr; reflexivity|].
    cbn [forallb andb app]. unfold exponent_text. rewrite !forallb_app. 
    rewrite (digits_no_equal _ (repr_N_digits _)). destruct (_ <? 0)%Z, (_ <? 10)%Z; reflexivity.
  - rewrite !forallb_app, Z0, Dd. reflexivity.
  - rewrite !forallb_app, Z0, Dd. destruct dot; reflexivity.
  - rewrite !forallb_app. rewrite <- (firstn_skipn (Z.to_nat (point x)) (digits x)), forallb_app in Dd. apply andb_true_iff in Dd as [-> ->]. reflexivity.
Qed.
Lemma span_no_equal t rest : forallb no_equal t = true -> head_ok (fun c => breaks c && negb (c == 61%N)) rest = true ->
  head_ok (fun c => negb (c == 61%N)) (snd (span is_ident_char (t ++ rest))) = true.
Proof.
  intros D H. induction t as [|c t IH]; cbn [app].
  - destruct rest as [|c r]; [easy|]. cbn in *. apply andb_true_iff in H as [H1 H2]. unfold breaks in H1.
    apply negb_true_iff, orb_false_iff in H1 as [H1 _]. apply orb_false_iff in H1 as [H1 _]. rewrite H1. exact H2.
  - cbn in D. apply andb_true_iff in D as [D1 D2]. cbn. destruct (is_ident_char c); [now apply IH|exact D1].
Qed.

(** A text is never mistaken for [name=...] *)
Lemma span_not_equal_all :
  (forall e t, shows printable e t -> forall rest,
     head_ok (fun c => breaks c && negb (c == 61%N)) rest = true ->
     head_ok (fun c => negb (c == 61%N)) (snd (span is_ident_char (t ++ rest))) = true)
  /\ (forall its b body, shows_items printable its b body -> True)
  /\ (forall it t, shows_item printable it t -> True).
Proof.
  assert (Q : forall c r, is_ident_char c = false -> c == 61%N = false ->
    head_ok (fun c => negb (c == 61%N)) (snd (span is_ident_char (c :: r))) = true).
  { intros c r H1 H2. cbn. rewrite H1. cbn. now rewrite H2. }
  apply shows_all_ind; intros; auto.
  - rewrite span_app.
    + cbn. destruct rest as [|c r]; [easy|]. cbn in *. now apply andb_true_iff in H0 as [_ ->].
    + now apply identifier_chars.
    + apply breaks_no_ident. revert H0. apply head_weaken. intros c Hc. now apply andb_true_iff in Hc.
  - rewrite <- app_assoc. apply H0. reflexivity.
  - rewrite <- app_assoc. apply H0. reflexivity.
  - rewrite <- app_assoc. apply H0. reflexivity.
  - unfold repr_str. destruct (@repr_quote_cases s) as [-> | ->]; now apply Q.
  - assert (D : forall n, head_ok (fun c => negb (c == 61%N)) (snd (span is_ident_char (repr_N n ++ rest))) = true).
    { intros n. rewrite span_app.
      - cbn. destruct rest as [|c r]; [easy|]. cbn in *. now apply andb_true_iff in H as [_ ->].
      - pose proof (repr_N_digits n) as Hd. rewrite forallb_forall in *. intros c Hc. unfold is_ident_char.
        now rewrite (Hd c Hc), orb_true_r.
      - apply breaks_no_ident. revert H. apply head_weaken. intros c Hc. now apply andb_true_iff in Hc. }
    destruct z; cbn [repr_int]; try apply D. reflexivity.
  - apply span_no_equal; [now apply decimal_chars|assumption].
  - apply span_no_equal; [unfold repr_imaginary; rewrite forallb_app, decimal_chars by assumption; reflexivity|assumption].
  - destruct (@read_repr_bytes bs rest H) as (q & t & -> & Hq & _). cbn [app].
    change (span is_ident_char (98%N :: ?x)) with (98%N :: fst (span is_ident_char x), snd (span is_ident_char x)).
    cbn [snd]. destruct Hq; subst; reflexivity.
Qed.

(** ** Reading back *)
Definition reads_as (e : expr) (t : pystr) : Prop :=
  forall rest x, head_ok breaks rest = true -> (is_number e = true -> head_ok (fun c => negb (c == 46%N)) rest = true) ->
    ev (fun m => read_trailers m e rest = Some x) ->
    ev (fun m => read m (t ++ rest) = Some x).
Definition items_read_as (its : list item) (b : bool) (body : pystr) : Prop :=
  forall close rest, close = 41%N \/ close = 93%N \/ close = 125%N ->
    ev (fun m => read_items m close (body ++ close :: rest) = Some ((its, b), rest)).
Definition item_reads_as (it : item) (t : pystr) : Prop :=
  forall rest, head_ok (fun c => ends c && negb (c == 61%N)) rest = true ->
    (exists d r, skip rest = d :: r /\ d <> 58%N) ->
    ev (fun m => read_item m (t ++ rest) = Some (it, rest)).

Lemma trailers_stop_ev e s : head_ok ends s = true -> ev (fun m => read_trailers m e s = Some (e, s)).
Proof. intros H. exists 1. intros [|m] Hm; [lia|]. now apply trailers_stop. Qed.

Lemma ends_not_dot s : head_ok ends s = true -> head_ok (fun c => negb (c == 46%N)) s = true.
Proof.
  destruct s as [|c s]; cbn; [easy|]. unfold ends. rewrite !negb_true_iff, !orb_false_iff. tauto.
Qed.

Lemma reads_plain e t rest : reads_as e t -> head_ok ends rest = true ->
  ev (fun m => read m (t ++ rest) = Some (e, rest)).
Proof.
  intros H He. apply H; [now apply ends_breaks | intros _; now apply ends_not_dot | now apply trailers_stop_ev].
Qed.

Lemma digit_not_quote c : is_digit c = true -> (c == QUOTE) || (c == DOUBLE_QUOTE) = false.
Proof.
  intros H. apply orb_false_iff. split; apply eqb_neq; intros ->; discriminate H.
Qed.
Lemma letter_facts c : is_letter c = true ->
  (c == QUOTE) || (c == DOUBLE_QUOTE) = false /\ is_digit c = false /\ (c == 45%N) = false.
Proof.
  intros H. repeat split.
  - apply orb_false_iff. split; apply eqb_neq; intros ->; discriminate H.
  - unfold is_digit, is_letter in *. rewrite !orb_true_iff, !andb_true_iff, !N.leb_le, N.eqb_eq in H.
    apply andb_false_iff. rewrite !N.leb_gt. lia.
  - apply eqb_neq; intros ->; discriminate H.
Qed.

Lemma after_breaks rest : head_ok breaks rest = true -> head_ok (fun c => negb (c == 46%N)) rest = true -> after rest.
Proof.
  destruct rest as [|c r]; [easy|]. cbn. unfold breaks. rewrite !negb_true_iff. intros H1 H2. unfold is_ident_char in H1.
  apply orb_false_iff in H1 as [H1 _]. apply orb_false_iff in H1 as [H1 _]. apply orb_false_iff in H1 as [H1 H3]. split; [exact H3|]. split; [now apply eqb_neq|]. split; intros ->; discriminate H1.
Qed.
Lemma read_repr_N n rest : after rest -> read_number (repr_N n ++ rest) = Some (EInt (Z.of_N n), rest).
Proof. intros H. unfold read_number. now rewrite read_repr_integer. Qed.

Lemma breaks_not_digit s : head_ok breaks s = true -> head_ok (fun c => negb (is_digit c)) s = true.
Proof.
  apply head_weaken. intros c. unfold breaks, is_ident_char. rewrite !negb_true_iff, !orb_false_iff. tauto.
Qed.

Lemma close_ends c : c = 41%N \/ c = 93%N \/ c = 125%N ->
  ends c && negb (c == 61%N) = true /\ c <> 58%N /\ is_space c = false /\ c <> 44%N /\ starts c = false.
Proof. intros [->|[->| ->]]; repeat split; easy. Qed.

Lemma reads_all :
  (forall e t, shows printable e t -> reads_as e t)
  /\ (forall its b body, shows_items printable its b body -> items_read_as its b body)
  /\ (forall it t, shows_item printable it t -> item_reads_as it t).
Proof.
  apply shows_all_ind.
  - (* name *)
    intros n Hn rest x Hb _ Ht. apply (ev_step Ht). intros m Hm.
    pose proof (identifier_chars _ Hn) as Hc. destruct n as [|c n]; [easy|].
    cbn [app read]. cbn in Hn. apply andb_true_iff in Hn as [Hl _].
    destruct (letter_facts _ Hl) as (-> & -> & ->). rewrite Hl.
    unfold read_word. change (c :: n ++ rest) with ((c :: n) ++ rest). rewrite span_app; [|easy|now apply breaks_no_ident]. cbn [fst snd].
    destruct rest as [|d rest]; [exact Hm|]. unfold breaks in Hb. cbn in Hb. apply negb_true_iff, orb_false_iff in Hb as [Hb Q2].
    apply orb_false_iff in Hb as [_ Q1]. rewrite Q1, Q2, andb_false_r. exact Hm.
  - (* attribute *)
    intros e t n Hs IH Hn Hi rest x Hb _ Ht. rewrite <- app_assoc. cbn [app].
    apply IH; [reflexivity | congruence|]. apply (ev_step Ht). intros m Hm. cbn [read_trailers].
    change (46%N == 46%N) with true. cbv iota.
    rewrite span_app; [| now apply identifier_chars | now apply breaks_no_ident]. cbn [fst snd]. now rewrite Hn, Hi.
  - (* call *)
    intros f t its b body args Hs IH Hi IHi Ha rest x Hb _ Ht. rewrite <- app_assoc. cbn [app].
    apply IH; [reflexivity | reflexivity|]. rewrite <- app_assoc. cbn [app].
    apply (ev_step2 Ht (IHi 41%N rest ltac:(auto))). intros m Hm Hit. cbn [read_trailers].
    change (40%N == 46%N) with false. change (40%N == 40%N) with true. cbv iota.
    rewrite Hit. cbn. rewrite Ha. cbn. exact Hm.
  - (* subscript *)
    intros f t its b body e Hs IH Hi IHi Ha rest x Hb _ Ht. rewrite <- app_assoc. cbn [app].
    apply IH; [reflexivity | reflexivity|]. rewrite <- app_assoc. cbn [app].
    apply (ev_step2 Ht (IHi 93%N rest ltac:(auto))). intros m Hm Hit. cbn [read_trailers].
    change (91%N == 46%N) with false. change (91%N == 40%N) with false. change (91%N == 91%N) with true. cbv iota.
    rewrite Hit. cbn. rewrite Ha. exact Hm.
  - (* string *)
    intros s Hs rest x Hb _ Ht. apply (ev_step Ht). intros m Hm.
    destruct (@read_repr_str printable s rest Hs) as (q & t & -> & Hq & Hr). cbn [app read].
    replace ((q == QUOTE) || (q == DOUBLE_QUOTE)) with true by (destruct Hq; subst; reflexivity).
    rewrite Hr. exact Hm.
  - (* integer *)
    intros z rest x Hb Hd Ht. apply (ev_step Ht). intros m Hm.
    assert (G : forall n, Z.of_N n = z -> read (S m) (repr_N n ++ rest) = Some x).
    { intros n En. pose proof (repr_N_digits n) as H1. pose proof (repr_N_nonempty n) as H2.
      pose proof (@read_repr_N n rest (after_breaks _ Hb (Hd eq_refl))) as H3.
      destruct (repr_N n) as [|c r]; [easy|]. cbn in H1. apply andb_true_iff in H1 as [H1 _].
      cbn [app read]. rewrite (digit_not_quote _ H1), H1. cbn [app] in H3. rewrite H3, En. exact Hm. }
    destruct z as [|p|p]; cbn [repr_int]; [now apply G | now apply G|].
    cbn [app read]. change ((45%N == QUOTE) || (45%N == DOUBLE_QUOTE)) with false.
    change (is_digit 45) with false. change (45%N == 45%N) with true. cbv iota.
    rewrite (read_repr_N _ _ (after_breaks _ Hb (Hd eq_refl))). cbn. exact Hm.
  - (* float *)
    intros d P rest x Hb Hd Ht. apply (ev_step Ht). intros m Hm.
    pose proof (@read_repr_float d rest P (after_breaks _ Hb (Hd eq_refl))) as R.
    destruct (decimal_parts true d P) as (ds & _ & _ & mid & E & D & Nn & _). unfold repr_float in R |- *. rewrite E in R |- *.
    destruct ds as [|c r]; [easy|]. cbn in D. apply andb_true_iff in D as [D _]. cbn [app read].
    rewrite (digit_not_quote _ D), D. unfold read_number. cbn [app] in R. rewrite R. exact Hm.
  - (* imaginary *)
    intros d P rest x Hb Hd Ht. apply (ev_step Ht). intros m Hm.
    pose proof (@read_repr_imaginary d rest P) as R.
    destruct (decimal_parts false d P) as (ds & _ & _ & mid & E & D & Nn & _). unfold repr_imaginary in R |- *. rewrite E in R |- *.
    destruct ds as [|c r]; [easy|]. cbn in D. apply andb_true_iff in D as [D _]. cbn [app read].
    rewrite (digit_not_quote _ D), D. unfold read_number. cbn [app] in R. rewrite R. exact Hm.
  - (* bytes *)
    intros bs V rest x Hb _ Ht. apply (ev_step Ht). intros m Hm.
    destruct (@read_repr_bytes bs rest V) as (q & t & -> & Hq & R). cbn [app read].
    change ((98%N == QUOTE) || (98%N == DOUBLE_QUOTE)) with false. change (is_digit 98) with false. change (98%N == 45%N) with false.
    change (is_letter 98) with true. cbv iota. unfold read_word.
    assert (S : span is_ident_char (98%N :: q :: t ++ rest) = ([98%N], q :: t ++ rest)) by (destruct Hq; subst; reflexivity).
    rewrite S. cbn [fst snd]. replace (([98%N] == $"b") && ((q == QUOTE) || (q == DOUBLE_QUOTE))) with true by (destruct Hq; subst; reflexivity).
    rewrite R. exact Hm.
  - (* parentheses *)
    intros its b body e Hi IHi Ha rest x Hb _ Ht. cbn [app]. rewrite <- app_assoc. cbn [app].
    apply (ev_step2 Ht (IHi 41%N rest ltac:(auto))). intros m Hm Hit. cbn [read].
    change ((40%N == QUOTE) || (40%N == DOUBLE_QUOTE)) with false. change (is_digit 40) with false.
    change (40%N == 45%N) with false. change (is_letter 40) with false. change (40%N == 40%N) with true. cbv iota.
    rewrite Hit. cbn. rewrite Ha. exact Hm.
  - (* list *)
    intros its b body e Hi IHi Ha rest x Hb _ Ht. cbn [app]. rewrite <- app_assoc. cbn [app].
    apply (ev_step2 Ht (IHi 93%N rest ltac:(auto))). intros m Hm Hit. cbn [read].
    change ((91%N == QUOTE) || (91%N == DOUBLE_QUOTE)) with false. change (is_digit 91) with false.
    change (91%N == 45%N) with false. change (is_letter 91) with false. change (91%N == 40%N) with false.
    change (91%N == 91%N) with true. cbv iota. rewrite Hit. cbn. rewrite Ha. exact Hm.
  - (* braces *)
    intros its b body e Hi IHi Ha rest x Hb _ Ht. cbn [app]. rewrite <- app_assoc. cbn [app].
    apply (ev_step2 Ht (IHi 125%N rest ltac:(auto))). intros m Hm Hit. cbn [read].
    change ((123%N == QUOTE) || (123%N == DOUBLE_QUOTE)) with false. change (is_digit 123) with false.
    change (123%N == 45%N) with false. change (is_letter 123) with false. change (123%N == 40%N) with false.
    change (123%N == 91%N) with false. change (123%N == 123%N) with true. cbv iota. rewrite Hit. cbn. rewrite Ha. exact Hm.
  - (* no entry *)
    intros w Hw close rest Hc. destruct (close_ends Hc) as (_ & _ & Hsp & _).
    exists 1. intros [|m] Hm; [lia|]. cbn [read_items].
    rewrite skip_blank; [| easy | cbn; now rewrite Hsp]. now rewrite eqb_refl.
  - (* one entry *)
    intros w it t w' Hw Hs IH Hw' close rest Hc. destruct (close_ends Hc) as (He & H58 & Hsp & H44 & Hst).
    destruct (shows_item_start Hs) as (c & r & -> & Hc').
    assert (Hr : head_ok (fun c => ends c && negb (c == 61%N)) (w' ++ close :: rest) = true).
    { destruct w' as [|c' w']; [exact He|]. cbn in *. apply andb_true_iff in Hw' as [H _].
      destruct (space_cases _ H) as [->|[->| ->]]; reflexivity. }
    assert (Hk : skip (w' ++ close :: rest) = close :: rest) by (apply skip_blank; [easy | cbn; now rewrite Hsp]).
    apply (ev_step (IH (w' ++ close :: rest) Hr ltac:(eauto))). intros m Hm. cbn [read_items].
    rewrite <- !app_assoc. rewrite skip_blank; [| easy | cbn; now rewrite starts_not_space].
    cbn [app] in Hm |- *. replace (c == close) with false by (symmetry; apply eqb_neq; congruence).
    rewrite Hm, Hk. now rewrite eqb_refl.
  - (* an entry and a comma *)
    intros w it t w' its b body Hw Hs IH Hw' _ IHi close rest Hc.
    destruct (close_ends Hc) as (_ & _ & Hsp & H44 & Hst).
    destruct (shows_item_start Hs) as (c & r & -> & Hc').
    set (tail := body ++ close :: rest).
    assert (Hr : head_ok (fun c => ends c && negb (c == 61%N)) (w' ++ 44%N :: tail) = true).
    { destruct w' as [|c' w']; [reflexivity|]. cbn in *. apply andb_true_iff in Hw' as [H _].
      destruct (space_cases _ H) as [->|[->| ->]]; reflexivity. }
    assert (Hk : skip (w' ++ 44%N :: tail) = 44%N :: tail) by (now apply skip_blank).
    assert (H' : exists d r, skip (w' ++ 44%N :: tail) = d :: r /\ d <> 58%N) by (rewrite Hk; eauto; now eexists _, _).
    apply (ev_step2 (IH _ Hr H') (IHi close rest Hc)). intros m Hm Hit. cbn [read_items].
    rewrite <- !app_assoc. rewrite skip_blank; [| easy | cbn; now rewrite starts_not_space].
    cbn [app] in Hm |- *. replace (c == close) with false by (symmetry; apply eqb_neq; congruence).
    change (body ++ close :: rest) with tail. rewrite Hm, Hk.
    replace (44%N == close) with false by (symmetry; apply eqb_neq; congruence).
    change (44%N == 44%N) with true. cbv iota. unfold tail. now rewrite Hit.
  - (* value *)
    intros e t Hs IH rest Hr (d & r & Hk & Hd).
    assert (He : head_ok ends rest = true) by (revert Hr; apply head_weaken; intros c; now rewrite andb_true_iff).
    assert (He' : head_ok (fun c => breaks c && negb (c == 61%N)) rest = true).
    { pose proof (ends_breaks _ He) as H. destruct rest; [easy|]. cbn in *.
      rewrite andb_true_iff in *. tauto. }
    apply (ev_step (reads_plain _ IH He)). intros m Hm. cbn [read_item].
    pose proof (proj1 span_not_equal_all e t Hs rest He') as Hn.
    assert (Hne : snd (span is_ident_char (t ++ rest)) <> []).
    { intros E. pose proof (span_eq is_ident_char (t ++ rest)) as Es. rewrite E, app_nil_r in Es.
      pose proof (span_forall is_ident_char (t ++ rest)) as Hf. rewrite <- Es in Hf.
      rewrite forallb_app in Hf. apply andb_true_iff in Hf as [_ Hf].
      destruct rest as [|c rest]; [now rewrite (@skip_nothing []) in Hk|].
      apply ends_breaks, breaks_no_ident in He. cbn in *. apply negb_true_iff in He. now rewrite He in Hf. }
    destruct (snd (span is_ident_char (t ++ rest))) as [|c q]; [easy|]. cbn in Hn.
    apply negb_true_iff in Hn as ->. rewrite andb_false_r. rewrite Hm, Hk.
    apply eqb_neq in Hd. now rewrite Hd.
  - (* keyword *)
    intros k e t Hk Hs IH rest Hr _.
    assert (He : head_ok ends rest = true) by (revert Hr; apply head_weaken; intros c; now rewrite andb_true_iff).
    apply (ev_step (reads_plain _ IH He)). intros m Hm. cbn [read_item]. rewrite <- app_assoc. cbn [app].
    rewrite span_app; [| now apply identifier_chars | reflexivity]. cbn [fst snd]. rewrite Hk.
    change (61%N == 61%N) with true. cbn [andb]. rewrite Hm. reflexivity.
  - (* pair *)
    intros e t w w' e2 t2 Hs IH Hw Hw' Hs2 IH2 rest Hr _.
    assert (He : head_ok ends rest = true) by (revert Hr; apply head_weaken; intros c; now rewrite andb_true_iff).
    set (tail := 58%N :: w' ++ t2 ++ rest).
    assert (Hc : head_ok ends (w ++ tail) = true) by (now apply blank_head_ends).
    assert (Hc' : head_ok (fun c => breaks c && negb (c == 61%N)) (w ++ tail) = true).
    { destruct w as [|c w]; [reflexivity|]. cbn in *. apply andb_true_iff in Hw as [H _].
      destruct (space_cases _ H) as [->|[->| ->]]; reflexivity. }
    apply (ev_step2 (reads_plain _ IH Hc) (reads_plain _ IH2 He)). intros m Hm Hm2. cbn [read_item].
    replace ((t ++ w ++ 58%N :: w' ++ t2) ++ rest) with (t ++ w ++ tail)
      by (unfold tail; rewrite <- !app_assoc; cbn; now rewrite <- !app_assoc).
    pose proof (proj1 span_not_equal_all e t Hs _ Hc') as Hn.
    assert (Hne : snd (span is_ident_char (t ++ w ++ tail)) <> []).
    { intros E. pose proof (span_eq is_ident_char (t ++ w ++ tail)) as Es. rewrite E, app_nil_r in Es.
      pose proof (span_forall is_ident_char (t ++ w ++ tail)) as Hf. rewrite <- Es in Hf.
      rewrite !forallb_app in Hf. apply andb_true_iff in Hf as [_ Hf]. apply andb_true_iff in Hf as [_ Hf].
      discriminate Hf. }
    destruct (snd (span is_ident_char (t ++ w ++ tail))) as [|c q]; [easy|]. cbn in Hn.
    apply negb_true_iff in Hn as ->. rewrite andb_false_r. rewrite Hm.
    rewrite (@skip_blank w tail Hw eq_refl). unfold tail at 1. change (58%N == 58%N) with true. cbv iota.
    destruct (shows_start Hs2) as (c2 & r2 & E2 & Hc2).
    rewrite skip_blank; [| easy | rewrite E2; cbn; now rewrite starts_not_space]. rewrite Hm2. reflexivity.
Qed.

Theorem shows_reads e t : shows printable e t -> reads t e.
Proof.
  intros H. apply (proj1 reads_all) in H. apply (@reads_plain e t []) in H; [|easy].
  rewrite app_nil_r in H. exact H.
Qed.
Lemma shows_read_rest e t rest : shows printable e t -> head_ok ends rest = true ->
  ev (fun m => read m (t ++ rest) = Some (e, rest)).
Proof. intros H. apply reads_plain. now apply (proj1 reads_all). Qed.
End Shows.

(** ** Locality: text after a delimited piece does not change how it is read *)
Lemma skip_local s c r more : skip s = c :: r -> skip (s ++ more) = c :: r ++ more.
Proof. unfold skip. intros H. now rewrite (span_local _ s _ _ more H). Qed.

Lemma trailers_nil fuel e x : read_trailers fuel e [] = Some x -> x = (e, []).
Proof. destruct fuel; cbn; congruence. Qed.

Lemma with_rest_some {A B} (f : A -> option B) x b r :
  with_rest f x = Some (b, r) -> exists a, x = Some (a, r) /\ f a = Some b.
Proof.
  destruct x as [[a r']|]; cbn; [|easy]. destruct (f a) eqn:E; [|easy]. intros H. inv H. eauto.
Qed.

Lemma read_number_local s e c r more :
  read_number s = Some (e, c :: r) -> read_number (s ++ more) = Some (e, c :: r ++ more).
Proof.
  unfold read_number. destruct (read_numeral s) as [[n t]|] eqn:E; [|easy]. intros H.
  assert (Et : t = c :: r) by (destruct n; now injection H). subst t. rewrite (read_numeral_local _ _ _ _ more E).
  now destruct n; injection H as <-.
Qed.
Lemma read_word_local s e c r more :
  read_word s = Some (e, c :: r) -> read_word (s ++ more) = Some (e, c :: r ++ more).
Proof.
  unfold read_word. destruct (snd (span is_ident_char s)) as [|q t] eqn:E; [easy|].
  rewrite (span_local _ s _ _ more E). cbn [fst snd]. destruct (_ && _); [|intros H; now inv H].
  intros H. apply with_rest_some in H as (a & H & Ha). apply (read_bytes_local _ _ _ _ _ more) in H. rewrite H. cbn. inv Ha. reflexivity.
Qed.

Lemma read_local fuel :
  (forall s e c r more, read fuel s = Some (e, c :: r) -> read fuel (s ++ more) = Some (e, c :: r ++ more))
  /\ (forall e s e' c r more, read_trailers fuel e s = Some (e', c :: r) ->
        read_trailers fuel e (s ++ more) = Some (e', c :: r ++ more))
  /\ (forall close s x r more, read_items fuel close s = Some (x, r) ->
        read_items fuel close (s ++ more) = Some (x, r ++ more))
  /\ (forall s it c r more, read_item fuel s = Some (it, c :: r) ->
        read_item fuel (s ++ more) = Some (it, c :: r ++ more)).
Proof.
  induction fuel as [|fuel (IHr & IHt & IHs & IHi)]; [easy|]. repeat split.
  - (* read *)
    intros s e c r more. destruct s as [|d s]; [easy|]. cbn [app read].
    destruct (if (d == QUOTE) || (d == DOUBLE_QUOTE) then _ else _) as [[e0 r0]|] eqn:E; [|easy].
    intros Ht. destruct r0 as [|c0 r0]; [apply trailers_nil in Ht; inv Ht|].
    assert (G : (if (d == QUOTE) || (d == DOUBLE_QUOTE) then
               with_rest (fun x => Some (EString x)) (read_string d Plain_char (s ++ more))
             else if is_digit d then read_number (d :: s ++ more)
             else if d == 45%N then
               with_rest (fun e => match e with EInt z => Some (EInt (- z)) | _ => None end) (read_number (s ++ more))
             else if is_letter d then read_word (d :: s ++ more)
             else if d == 40%N then
               with_rest (fun x => parenthesised (fst x) (snd x)) (read_items fuel 41 (s ++ more))
             else if d == 91%N then
               with_rest (fun x => option_map EList (plain_items (fst x))) (read_items fuel 93 (s ++ more))
             else if d == 123%N then
               with_rest (fun x => braced (fst x)) (read_items fuel 125 (s ++ more))
             else None) = Some (e0, c0 :: r0 ++ more)).
    { destruct (_ || _).
      { apply with_rest_some in E as (a & E & Ha). apply (read_string_local _ _ _ _ _ more) in E.
        rewrite E. cbn. inv Ha. reflexivity. }
      destruct (is_digit d).
      { change (d :: s ++ more) with ((d :: s) ++ more). now apply read_number_local. }
      destruct (d == 45%N).
      { apply with_rest_some in E as (a & E & Ha). rewrite (read_number_local _ more E). cbn.
        now rewrite Ha. }
      destruct (is_letter d).
      { change (d :: s ++ more) with ((d :: s) ++ more). now apply read_word_local. }
      destruct (d == 40%N).
      { apply with_rest_some in E as (a & E & Ha). rewrite (IHs _ _ _ _ more E). cbn. now rewrite Ha. }
      destruct (d == 91%N).
      { apply with_rest_some in E as (a & E & Ha). rewrite (IHs _ _ _ _ more E). cbn. now rewrite Ha. }
      destruct (d == 123%N); [|easy].
      apply with_rest_some in E as (a & E & Ha). rewrite (IHs _ _ _ _ more E). cbn. now rewrite Ha. }
    rewrite G. change (c0 :: r0 ++ more) with ((c0 :: r0) ++ more). now apply IHt.
  - (* trailers *)
    intros e s e' c r more. destruct s as [|d s]; cbn [app read_trailers]; [easy|].
    destruct (d == 46%N).
    { destruct (is_identifier _ && _) eqn:Hn; [|easy]. intros Ht.
      destruct (snd (span is_ident_char s)) as [|c0 r0] eqn:E; [apply trailers_nil in Ht; inv Ht|].
      rewrite (span_local _ s _ _ more E). cbn [fst snd]. rewrite Hn.
      change (c0 :: r0 ++ more) with ((c0 :: r0) ++ more). now apply IHt. }
    destruct (d == 40%N).
    { destruct (with_rest _ _) as [[e0 r0]|] eqn:E; [|easy]. intros Ht.
      destruct r0 as [|c0 r0]; [apply trailers_nil in Ht; inv Ht|].
      apply with_rest_some in E as (a & E & Ha). rewrite (IHs _ _ _ _ more E). cbn [with_rest]. rewrite Ha.
      now apply IHt. }
    destruct (d == 91%N).
    { destruct (with_rest _ _) as [[e0 r0]|] eqn:E; [|easy]. intros Ht.
      destruct r0 as [|c0 r0]; [apply trailers_nil in Ht; inv Ht|].
      apply with_rest_some in E as (a & E & Ha). rewrite (IHs _ _ _ _ more E). cbn [with_rest]. rewrite Ha.
      now apply IHt. }
    intros H. now inv H.
  - (* items *)
    intros close s x r more. cbn [read_items]. destruct (skip s) as [|c s'] eqn:Es; [easy|].
    rewrite (skip_local _ more Es). destruct (c == close).
    { intros H. inv H. reflexivity. }
    destruct (read_item fuel (c :: s')) as [[it r1]|] eqn:Ei; [|easy].
    destruct (skip r1) as [|d r2] eqn:E1; [easy|].
    assert (Hr1 : exists c1 r1', r1 = c1 :: r1') by (destruct r1; [discriminate E1 | eauto]).
    destruct Hr1 as (c1 & r1' & ->).
    change (c :: s' ++ more) with ((c :: s') ++ more). rewrite (IHi _ _ _ _ more Ei).
    change (c1 :: r1' ++ more) with ((c1 :: r1') ++ more). rewrite (skip_local _ more E1).
    destruct (d == close); [intros H; inv H; reflexivity|]. destruct (d == 44%N); [|easy].
    destruct (read_items fuel close r2) as [[[its b] r3]|] eqn:E2; [|easy]. intros H. inv H.
    now rewrite (IHs _ _ _ _ more E2).
  - (* item *)
    intros s it c r more. cbn [read_item]. destruct (snd (span is_ident_char s)) as [|c0 r0] eqn:E0; [easy|].
    rewrite (span_local _ s _ _ more E0). cbn [fst snd]. destruct (is_identifier _ && _).
    { intros H. apply with_rest_some in H as (a & H & Ha). rewrite (IHr _ _ _ _ more H). cbn. inv Ha. reflexivity. }
    destruct (read fuel s) as [[e1 r1]|] eqn:E1; [|easy].
    destruct (skip r1) as [|d r2] eqn:E2; [easy|].
    assert (Hr1 : exists c1 r1', r1 = c1 :: r1') by (destruct r1; [discriminate E2 | eauto]).
    destruct Hr1 as (c1 & r1' & ->).
    rewrite (IHr _ _ _ _ more E1).
    change (c1 :: r1' ++ more) with ((c1 :: r1') ++ more). rewrite (skip_local _ more E2).
    destruct (d == 58%N).
    { intros H. apply with_rest_some in H as (a & H & Ha).
      assert (Hk : skip (r2 ++ more) = skip r2 ++ more).
      { destruct (skip r2) as [|c3 r3] eqn:E3; [|now apply skip_local]. destruct fuel; discriminate H. }
      rewrite Hk, (IHr _ _ _ _ more H). cbn. inv Ha. reflexivity. }
    intros H. inv H. reflexivity.
Qed.

Lemma read_then fuel s e c r more :
  read fuel s = Some (e, c :: r) -> read fuel (s ++ more) = Some (e, c :: r ++ more).
Proof. apply (proj1 (read_local fuel)). Qed.

(** More fuel reads the same. *)
Lemma read_fuel fuel :
  (forall s x, read fuel s = Some x -> read (S fuel) s = Some x)
  /\ (forall e s x, read_trailers fuel e s = Some x -> read_trailers (S fuel) e s = Some x)
  /\ (forall close s x, read_items fuel close s = Some x -> read_items (S fuel) close s = Some x)
  /\ (forall s x, read_item fuel s = Some x -> read_item (S fuel) s = Some x).
Proof.
  induction fuel as [|fuel (IHr & IHt & IHs & IHi)]; [easy|].
  remember (S fuel) as fuel' eqn:Ef. repeat split.
  - intros s x. rewrite Ef at 1. destruct s as [|d s]; [easy|]. cbn [read].
    destruct (if (d == QUOTE) || (d == DOUBLE_QUOTE) then _ else _) as [[e0 r0]|] eqn:E; [|easy].
    intros Ht. apply IHt in Ht.
    replace (if (d == QUOTE) || (d == DOUBLE_QUOTE) then _ else _) with (Some (e0, r0)); [exact Ht|].
    rewrite <- E. destruct (_ || _); [easy|]. destruct (is_digit d); [easy|]. destruct (d == 45%N); [easy|].
    destruct (is_letter d); [easy|].
    destruct (d == 40%N).
    { destruct (read_items fuel 41 s) as [y|] eqn:Ey; [|easy]. now rewrite (IHs _ _ _ Ey). }
    destruct (d == 91%N).
    { destruct (read_items fuel 93 s) as [y|] eqn:Ey; [|easy]. now rewrite (IHs _ _ _ Ey). }
    destruct (d == 123%N); [|easy].
    destruct (read_items fuel 125 s) as [y|] eqn:Ey; [|easy]. now rewrite (IHs _ _ _ Ey).
  - intros e s x. rewrite Ef at 1. destruct s as [|d s]; cbn [read_trailers]; [easy|].
    destruct (d == 46%N); [destruct (is_identifier _ && _); [apply IHt | easy]|].
    destruct (d == 40%N).
    { destruct (read_items fuel 41 s) as [y|] eqn:Ey; [|easy]. rewrite (IHs _ _ _ Ey).
      destruct (with_rest _ _) as [[e0 r0]|]; [apply IHt | easy]. }
    destruct (d == 91%N); [|easy].
    destruct (read_items fuel 93 s) as [y|] eqn:Ey; [|easy]. rewrite (IHs _ _ _ Ey).
    destruct (with_rest _ _) as [[e0 r0]|]; [apply IHt | easy].
  - intros close s x. rewrite Ef at 1. cbn [read_items]. destruct (skip s) as [|c s']; [easy|].
    destruct (c == close); [easy|].
    destruct (read_item fuel (c :: s')) as [[it r1]|] eqn:Ei; [|easy]. rewrite (IHi _ _ Ei).
    destruct (skip r1) as [|d r2]; [easy|]. destruct (d == close); [easy|]. destruct (d == 44%N); [|easy].
    destruct (read_items fuel close r2) as [y|] eqn:Ey; [|easy]. now rewrite (IHs _ _ _ Ey).
  - intros s x. rewrite Ef at 1. cbn [read_item]. destruct (snd (span is_ident_char s)) as [|c0 r0]; [easy|].
    destruct (is_identifier _ && _).
    { destruct (read fuel r0) as [y|] eqn:Ey; [|easy]. now rewrite (IHr _ _ Ey). }
    destruct (read fuel s) as [[e1 r1]|] eqn:E1; [|easy]. rewrite (IHr _ _ E1).
    destruct (skip r1) as [|d r2]; [easy|]. destruct (d == 58%N); [|easy].
    destruct (read fuel (skip r2)) as [y|] eqn:Ey; [|easy]. now rewrite (IHr _ _ Ey).
Qed.

Lemma read_more n m s x : n <= m -> read n s = Some x -> read m s = Some x.
Proof. induction 1; [easy|]. intros H'. apply (proj1 (read_fuel m)). auto. Qed.

Lemma read_unique n m s x y : read n s = Some x -> read m s = Some y -> x = y.
Proof.
  intros H1 H2. destruct (Nat.le_ge_cases n m) as [H|H].
  - rewrite (read_more _ H H1) in H2. congruence.
  - rewrite (read_more _ H H2) in H1. congruence.
Qed.

(** The grammar is unambiguous on these texts. *)
Lemma reads_unique t e e' : reads t e -> reads t e' -> e = e'.
Proof.
  intros [n H] [m H']. specialize (H (n + m)). specialize (H' (n + m)).
  rewrite H in H' by lia. specialize (H' ltac:(lia)). congruence.
Qed.
