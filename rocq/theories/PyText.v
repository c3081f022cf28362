(** Python's own text conventions (not part of paradigm): [repr] of [str] and
    [int], string and integer literals (language reference 2.4). *)
From Coq Require Import DecimalFacts DecimalN DecimalZ.
From Verif Require Import Base.

Definition QUOTE : N := 39.
Definition DOUBLE_QUOTE : N := 34.
Definition BACKSLASH : N := 92.
Definition NEWLINE : N := 10.

(** ** Hexadecimal digits *)
Definition hex_digit (d : N) : N := if (d <? 10)%N then (48 + d)%N else (87 + d)%N.
Definition unhex (c : N) : option N :=
  if ((48 <=? c) && (c <=? 57))%N then Some (c - 48)%N
  else if ((97 <=? c) && (c <=? 102))%N then Some (c - 87)%N
  else if ((65 <=? c) && (c <=? 70))%N then Some (c - 55)%N
  else None.
(** The [k] last hexadecimal digits of [n] *)
Fixpoint hex (k : nat) (n : N) : pystr :=
  match k with
  | O => []
  | S k' => hex k' (n / 16)%N ++ [hex_digit (n mod 16)%N]
  end.

(** ** [repr] of a string (CPython, unicode_repr); [printable] is
    [str.isprintable] on non-ASCII characters *)
Section Repr.
Variable printable : N -> bool.

Definition repr_char (q c : N) : pystr :=
  if (c == q) || (c == BACKSLASH) then [BACKSLASH; c]
  else if c == 9%N then $"\t"
  else if c == 10%N then $"\n"
  else if c == 13%N then $"\r"
  else if (c <? 32)%N || (c == 127%N) then $"\x" ++ hex 2 c
  else if (c <? 127)%N then [c]
  else if printable c then [c]
  else if (c <? 256)%N then $"\x" ++ hex 2 c
  else if (c <? 65536)%N then $"\u" ++ hex 4 c
  else $"\U" ++ hex 8 c.

Definition repr_quote (s : pystr) : N :=
  if mem QUOTE s && negb (mem DOUBLE_QUOTE s) then DOUBLE_QUOTE else QUOTE.
Definition repr_str (s : pystr) : pystr :=
  repr_quote s :: flat_map (repr_char (repr_quote s)) s ++ [repr_quote s].
End Repr.

(** ** Reading a string literal after its opening quote [q]: its value and the
    rest of the text. Octal escapes, \a \b \f \v, \N and line continuations are left
    out (never produced by [repr]). *)
Inductive string_state := Plain_char | Escape | Hex_digits (more : nat) (acc : N).

Definition emit (c : N) (x : option (pystr * pystr)) : option (pystr * pystr) :=
  match x with Some (s, r) => Some (c :: s, r) | None => None end.

Fixpoint read_string (q : N) (st : string_state) (text : pystr) : option (pystr * pystr) :=
  match text with
  | [] => None
  | c :: r =>
      match st with
      | Plain_char =>
          if c == q then Some ([], r)
          else if c == NEWLINE then None
          else if c == BACKSLASH then read_string q Escape r
          else emit c (read_string q Plain_char r)
      | Escape =>
          if (c == QUOTE) || (c == DOUBLE_QUOTE) || (c == BACKSLASH) then emit c (read_string q Plain_char r)
          else if c == 116%N then emit 9 (read_string q Plain_char r)
          else if c == 110%N then emit 10 (read_string q Plain_char r)
          else if c == 114%N then emit 13 (read_string q Plain_char r)
          else if c == 120%N then read_string q (Hex_digits 1 0) r
          else if c == 117%N then read_string q (Hex_digits 3 0) r
          else if c == 85%N then read_string q (Hex_digits 7 0) r
          else None
      | Hex_digits more acc =>
          match unhex c with
          | None => None
          | Some d =>
              let acc' := (acc * 16 + d)%N in
              match more with
              | O => if (acc' <? 1114112)%N then emit acc' (read_string q Plain_char r) else None
              | S more' => read_string q (Hex_digits more' acc') r
              end
          end
      end
  end.

(** Code points *)
Definition valid_str (s : pystr) : Prop := Forall (fun c => (c < 1114112)%N) s.

(** ** Integers *)
Fixpoint uint_text (u : Decimal.uint) : pystr :=
  match u with
  | Decimal.Nil => []
  | Decimal.D0 u => 48%N :: uint_text u
  | Decimal.D1 u => 49%N :: uint_text u
  | Decimal.D2 u => 50%N :: uint_text u
  | Decimal.D3 u => 51%N :: uint_text u
  | Decimal.D4 u => 52%N :: uint_text u
  | Decimal.D5 u => 53%N :: uint_text u
  | Decimal.D6 u => 54%N :: uint_text u
  | Decimal.D7 u => 55%N :: uint_text u
  | Decimal.D8 u => 56%N :: uint_text u
  | Decimal.D9 u => 57%N :: uint_text u
  end.
Definition repr_N (n : N) : pystr := uint_text (N.to_uint n).
Definition repr_int (z : Z) : pystr :=
  match z with
  | Z0 => repr_N 0
  | Zpos p => repr_N (Npos p)
  | Zneg p => 45%N :: repr_N (Npos p)
  end.

Definition is_digit (c : N) : bool := ((48 <=? c) && (c <=? 57))%N.
Definition digits_value (ds : pystr) : N := fold_left (fun acc c => acc * 10 + (c - 48))%N ds 0%N.

(** The longest prefix of characters satisfying [f], and the rest *)
Fixpoint span (f : N -> bool) (s : pystr) : pystr * pystr :=
  match s with
  | [] => ([], [])
  | c :: r => if f c then (c :: fst (span f r), snd (span f r)) else ([], s)
  end.

(** ** Facts *)
Lemma unhex_digit d : (d < 16)%N -> unhex (hex_digit d) = Some d.
Proof.
  intros H. unfold hex_digit, unhex. destruct (d <? 10)%N eqn:E.
  - apply N.ltb_lt in E. replace ((48 <=? 48 + d) && (48 + d <=? 57))%N with true.
    + f_equal. lia.
    + symmetry. rewrite andb_true_iff, !N.leb_le. lia.
  - apply N.ltb_ge in E. replace ((48 <=? 87 + d) && (87 + d <=? 57))%N with false.
    + replace ((97 <=? 87 + d) && (87 + d <=? 102))%N with true.
      * f_equal. lia.
      * symmetry. rewrite andb_true_iff, !N.leb_le. lia.
    + symmetry. rewrite andb_false_iff, !N.leb_gt. lia.
Qed.

Lemma hex_length k n : length (hex k n) = k.
Proof. revert n. induction k; intros n; cbn; [easy|]. rewrite app_length, IHk. cbn. lia. Qed.

(** Reading [S k] hexadecimal digits *)
Lemma read_hex q k : forall n acc r,
  (n < 16 ^ N.of_nat (S k))%N -> (acc * 16 ^ N.of_nat (S k) + n < 1114112)%N ->
  read_string q (Hex_digits k acc) (hex (S k) n ++ r)
  = emit (acc * 16 ^ N.of_nat (S k) + n) (read_string q Plain_char r).
Proof.
  (* generalise: the digits of [n] one by one from the most significant *)
  assert (G : forall j k n acc r, (n < 16 ^ N.of_nat j)%N ->
    read_string q (Hex_digits (j + k) acc) (hex j n ++ r)
    = read_string q (Hex_digits k (acc * 16 ^ N.of_nat j + n)) r).
  { induction j as [|j IH]; intros k0 n acc r Hn.
    - cbn [hex app plus]. cbn in Hn. replace n with 0%N by lia.
      replace (acc * 16 ^ N.of_nat 0 + 0)%N with acc by (cbn; lia). reflexivity.
    - cbn [hex]. rewrite <- app_assoc. replace (S j + k0) with (j + S k0) by lia.
      rewrite Nat2N.inj_succ, N.pow_succ_r' in Hn.
      rewrite IH by (apply N.div_lt_upper_bound; lia).
      cbn [app read_string]. rewrite unhex_digit by (apply N.mod_lt; lia).
      f_equal. f_equal. rewrite Nat2N.inj_succ, N.pow_succ_r'.
      pose proof (N.div_mod n 16). lia. }
  intros n acc r Hn Hb. cbn [hex]. rewrite <- app_assoc.
  rewrite Nat2N.inj_succ, N.pow_succ_r' in Hn, Hb |- *.
  replace k with (k + 0) at 1 by lia. rewrite G by (apply N.div_lt_upper_bound; lia).
  cbn [app read_string]. rewrite unhex_digit by (apply N.mod_lt; lia).
  assert (E : ((acc * 16 ^ N.of_nat k + n / 16) * 16 + n mod 16 = acc * (16 * 16 ^ N.of_nat k) + n)%N)
    by (pose proof (N.div_mod n 16); lia).
  rewrite E. apply N.ltb_lt in Hb. now rewrite Hb.
Qed.

Section ReprFacts.
Variable printable : N -> bool.

Lemma read_repr_char q c r :
  q = QUOTE \/ q = DOUBLE_QUOTE -> (c < 1114112)%N ->
  read_string q Plain_char (repr_char printable q c ++ r) = emit c (read_string q Plain_char r).
Proof.
  intros Hq Hc. unfold repr_char.
  assert (Hq' : BACKSLASH == q = false) by (destruct Hq; subst; reflexivity).
  assert (HqN : q == NEWLINE = false) by (destruct Hq; subst; reflexivity).
  assert (Hx : forall k e n (He : (n < 16 ^ N.of_nat (S k))%N),
    (forall r, read_string q Escape (e :: r) = read_string q (Hex_digits k 0) r) -> (n < 1114112)%N ->
    read_string q Plain_char (([BACKSLASH; e] ++ hex (S k) n) ++ r) = emit n (read_string q Plain_char r)).
  { intros k e n He HE Hn.
    assert (Hb : forall r, read_string q Plain_char (BACKSLASH :: r) = read_string q Escape r)
      by (intros r'; cbn [read_string]; now rewrite Hq').
    rewrite <- app_assoc. cbn [app]. rewrite Hb, HE, read_hex by (rewrite ?N.mul_0_l; easy). now rewrite N.mul_0_l. }
  destruct (c == q) eqn:E1; cbn [orb].
  { apply eqb_to_eq in E1 as ->. cbn [app read_string]. rewrite Hq'.
    change (BACKSLASH == NEWLINE) with false. change (BACKSLASH == BACKSLASH) with true.
    destruct Hq; subst; reflexivity. }
  destruct (c == BACKSLASH) eqn:E2.
  { apply eqb_to_eq in E2 as ->. cbn [app read_string]. now rewrite Hq'. }
  destruct (c == 9%N) eqn:E3; [apply eqb_to_eq in E3 as ->; destruct Hq; subst; reflexivity|].
  destruct (c == 10%N) eqn:E4; [apply eqb_to_eq in E4 as ->; destruct Hq; subst; reflexivity|].
  destruct (c == 13%N) eqn:E5; [apply eqb_to_eq in E5 as ->; destruct Hq; subst; reflexivity|].
  assert (Hplain : read_string q Plain_char ([c] ++ r) = emit c (read_string q Plain_char r)).
  { cbn [app read_string]. unfold NEWLINE. now rewrite E1, E4, E2. }
  destruct (_ || _) eqn:E6.
  { apply (Hx 1 120%N); [|reflexivity | easy]. apply orb_true_iff in E6 as [E6|E6].
    - apply N.ltb_lt in E6. cbn. lia.
    - apply eqb_to_eq in E6 as ->. reflexivity. }
  destruct (c <? 127)%N eqn:E7; [exact Hplain|].
  destruct (printable c); [exact Hplain|].
  destruct (c <? 256)%N eqn:E8.
  { apply N.ltb_lt in E8. now apply (Hx 1 120%N). }
  destruct (c <? 65536)%N eqn:E9.
  { apply N.ltb_lt in E9. now apply (Hx 3 117%N). }
  apply (Hx 7 85%N); [|reflexivity | easy]. cbn. lia.
Qed.

Lemma repr_quote_cases s : repr_quote s = QUOTE \/ repr_quote s = DOUBLE_QUOTE.
Proof. unfold repr_quote. destruct (_ && _); auto. Qed.

Lemma read_repr_body q s r :
  q = QUOTE \/ q = DOUBLE_QUOTE -> valid_str s ->
  read_string q Plain_char (flat_map (repr_char printable q) s ++ q :: r) = Some (s, r).
Proof.
  intros Hq Hs. induction Hs as [|c s Hc Hs IH]; cbn [flat_map app].
  - cbn. now rewrite eqb_refl.
  - rewrite <- app_assoc, read_repr_char by assumption. now rewrite IH.
Qed.

Lemma read_repr_str s r : valid_str s ->
  exists q t, repr_str printable s = q :: t /\ (q = QUOTE \/ q = DOUBLE_QUOTE)
    /\ read_string q Plain_char (t ++ r) = Some (s, r).
Proof.
  intros Hs. eexists _, _. split; [reflexivity|]. split; [apply repr_quote_cases|].
  rewrite <- app_assoc. cbn [app]. apply read_repr_body; [apply repr_quote_cases | easy].
Qed.

(** Locality: what was read does not depend on what follows; a text cut short does
    not read. *)
Lemma read_string_local q : forall text st s r more,
  read_string q st text = Some (s, r) -> read_string q st (text ++ more) = Some (s, r ++ more).
Proof.
  assert (Hemit : forall c x s r more y, emit c x = Some (s, r) ->
    (forall s' r', x = Some (s', r') -> y = Some (s', r' ++ more)) -> emit c y = Some (s, r ++ more)).
  { intros c [[s' r']|] s r more y E H; [|easy]. cbn in E. inv E. now rewrite (H _ _ eq_refl). }
  induction text as [|c text IH]; intros st s r more E; [easy|].
  cbn [app read_string] in *. destruct st as [| |k acc].
  - destruct (c == q); [now inv E|]. destruct (c == NEWLINE); [easy|]. destruct (c == BACKSLASH); [auto|].
    eapply Hemit; [eassumption|]. auto.
  - repeat match goal with
    | H : (if ?b then _ else _) = Some _ |- _ => destruct b
    | H : None = Some _ |- _ => discriminate H
    | H : emit _ _ = Some _ |- _ => eapply Hemit; [eassumption | auto]
    | _ => auto
    end.
  - destruct (unhex c); [|easy]. destruct k; [|auto]. destruct (_ <? _)%N; [|easy].
    eapply Hemit; [eassumption | auto].
Qed.
End ReprFacts.

(** ** Integers *)
Lemma uint_text_digits u : forallb is_digit (uint_text u) = true.
Proof. induction u; cbn; auto. Qed.

Lemma digits_value_uint u : digits_value (uint_text u) = N.of_uint u.
Proof.
  unfold digits_value, N.of_uint.
  assert (G : forall u p, fold_left (fun acc c => acc * 10 + (c - 48))%N (uint_text u) (Npos p)
    = Npos (Pos.of_uint_acc u p)).
  { clear. induction u; intros p; cbn [uint_text fold_left Pos.of_uint_acc];
      try reflexivity; rewrite <- IHu; f_equal; lia. }
  induction u; cbn [uint_text fold_left Pos.of_uint]; try reflexivity; try exact IHu;
    cbv [N.mul N.add]; cbn; apply G.
Qed.

Lemma repr_N_value n : digits_value (repr_N n) = n.
Proof. unfold repr_N. rewrite digits_value_uint. apply DecimalN.Unsigned.of_to. Qed.
Lemma repr_N_digits n : forallb is_digit (repr_N n) = true.
Proof. apply uint_text_digits. Qed.
Lemma repr_N_nonempty n : repr_N n <> [].
Proof.
  unfold repr_N. intros E. assert (H : N.to_uint n = Decimal.Nil) by (destruct (N.to_uint n); easy).
  destruct n; cbn in H; [discriminate|].
  pose proof (DecimalPos.Unsigned.to_uint_nonnil p). contradiction.
Qed.

(** ** [span] *)
Lemma span_app f s r : forallb f s = true -> match r with [] => true | c :: _ => negb (f c) end = true ->
  span f (s ++ r) = (s, r).
Proof.
  intros Hs Hr. induction s as [|c s IH]; cbn.
  - destruct r as [|c r]; [easy|]. cbn. now apply negb_true_iff in Hr as ->.
  - cbn in Hs. apply andb_true_iff in Hs as [-> Hs]. now rewrite IH.
Qed.
Lemma span_eq f s : s = fst (span f s) ++ snd (span f s).
Proof. induction s as [|c s IH]; cbn; [easy|]. destruct (f c); cbn; congruence. Qed.
Lemma span_forall f s : forallb f (fst (span f s)) = true.
Proof. induction s as [|c s IH]; cbn; [easy|]. destruct (f c) eqn:E; cbn; [now rewrite E | easy]. Qed.
Lemma span_local f s c r more :
  snd (span f s) = c :: r -> span f (s ++ more) = (fst (span f s), c :: r ++ more).
Proof.
  induction s as [|d s IH]; cbn; [easy|]. destruct (f d) eqn:E; cbn.
  - intros H. now rewrite IH.
  - intros H. inv H. easy.
Qed.

Lemma uint_no_leading_zero n c d r : uint_text (N.to_uint n) = c :: d :: r -> c <> 48%N.
Proof.
  rewrite <- (DecimalN.Unsigned.of_to n), DecimalN.Unsigned.to_of. generalize (N.to_uint n). clear n.
  intros u. assert (H : forall u, match Decimal.nzhead u with Decimal.D0 _ => False | _ => True end).
  { clear. induction u; cbn; auto. }
  specialize (H u). unfold Decimal.unorm. destruct (Decimal.nzhead u); cbn; intros E; inv E; easy.
Qed.
