(** Python's own text conventions for bytes, floats and imaginary numbers (not part of
    paradigm): [repr] (CPython: bytes_repr, format_float_short, complex_repr) and literals
    (language reference 2.4.2, 2.4.5, 2.4.6).

    A finite float that is not negative is given by the shortest decimal that is rounded
    to it, which is what its [repr] shows; that reading this decimal gives the float again
    is a fact about Python, so reading is modelled as giving the decimal. *)
From Verif Require Import Base PyText.

(** The value of 0.[digits] times ten to the power [point]; zero has no digits. *)
Record decimal := mk_decimal { digits : pystr; point : Z }.

Definition decimal_eqb (x y : decimal) : bool := (digits x == digits y) && (point x =? point y)%Z.
Lemma decimal_eqb_eq x y : decimal_eqb x y = true <-> x = y.
Proof.
  destruct x as [d p], y as [d' p']. unfold decimal_eqb. cbn. rewrite andb_true_iff, eqb_eq, Z.eqb_eq.
  split; [intros [-> ->]; reflexivity|intros [= -> ->]; auto].
Qed.
#[export] Instance Eqb_decimal : Eqb decimal := { eqb := decimal_eqb; eqb_eq := decimal_eqb_eq }.

(** One decimal for each number: no zeros at the ends *)
Definition proper_decimal (x : decimal) : Prop :=
  (digits x = [] /\ point x = 0%Z)
  \/ (forallb is_digit (digits x) = true
      /\ exists c r d s, digits x = c :: r /\ digits x = s ++ [d] /\ c <> 48%N /\ d <> 48%N).

(** ** [repr] *)
Definition zeros (n : Z) : pystr := repeat 48%N (Z.to_nat n).
Definition exponent_text (e : Z) : pystr :=
  (if (e <? 0)%Z then $"-" else $"+") ++ (if (Z.abs e <? 10)%Z then $"0" else []) ++ repr_N (Z.abs_N e).
(** [dot] adds [.0] to what would look like an integer. *)
Definition decimal_text (dot : bool) (x : decimal) : pystr :=
  let n := Z.of_nat (length (digits x)) in
  match digits x with
  | [] => $"0" ++ (if dot then $".0" else [])
  | c :: r =>
      if (point x <=? -4)%Z || (16 <? point x)%Z then
        [c] ++ (if is_nil r then [] else $"." ++ r) ++ $"e" ++ exponent_text (point x - 1)
      else if (point x <=? 0)%Z then $"0." ++ zeros (- point x) ++ digits x
      else if (n <=? point x)%Z then digits x ++ zeros (point x - n) ++ (if dot then $".0" else [])
      else firstn (Z.to_nat (point x)) (digits x) ++ $"." ++ skipn (Z.to_nat (point x)) (digits x)
  end.
Definition repr_float (x : decimal) : pystr := decimal_text true x.
(** Of a complex number without real part, as literals are *)
Definition repr_imaginary (x : decimal) : pystr := decimal_text false x ++ $"j".
(** All bytes that are no printable ASCII characters are escaped. *)
Definition repr_bytes (bs : pystr) : pystr := 98%N :: repr_str (fun _ => false) bs.
Definition valid_bytes (bs : pystr) : Prop := Forall (fun c => (c < 256)%N) bs.

(** ** Literals *)
(** A bytes literal after its opening quote; as [read_string], without [\u] and [\U],
    which are no escapes there, and ASCII only *)
Fixpoint read_bytes (q : N) (st : string_state) (text : pystr) : option (pystr * pystr) :=
  match text with
  | [] => None
  | c :: r =>
      match st with
      | Plain_char =>
          if c == q then Some ([], r)
          else if c == NEWLINE then None
          else if c == BACKSLASH then read_bytes q Escape r
          else if (c <? 128)%N then emit c (read_bytes q Plain_char r)
          else None
      | Escape =>
          if (c == QUOTE) || (c == DOUBLE_QUOTE) || (c == BACKSLASH) then emit c (read_bytes q Plain_char r)
          else if c == 116%N then emit 9 (read_bytes q Plain_char r)
          else if c == 110%N then emit 10 (read_bytes q Plain_char r)
          else if c == 114%N then emit 13 (read_bytes q Plain_char r)
          else if c == 120%N then read_bytes q (Hex_digits 1 0) r
          else None
      | Hex_digits more acc =>
          match unhex c with
          | None => None
          | Some d =>
              let acc' := (acc * 16 + d)%N in
              match more with
              | O => emit acc' (read_bytes q Plain_char r)
              | S more' => read_bytes q (Hex_digits more' acc') r
              end
          end
      end
  end.

(** The decimal 0.[ds] times ten to the power [p] *)
Fixpoint drop_zeros (ds : pystr) : pystr :=
  match ds with
  | [] => []
  | c :: r => if c == 48%N then drop_zeros r else ds
  end.
Definition decimal_of (ds : pystr) (p : Z) : decimal :=
  let front := drop_zeros ds in
  match rev (drop_zeros (rev front)) with
  | [] => mk_decimal [] 0
  | ds' => mk_decimal ds' (p - (Z.of_nat (length ds) - Z.of_nat (length front)))
  end.
(** The part after the digits of a number: [.5], [e+10]; [None]: no number *)
Definition read_fraction (s : pystr) : option (pystr * pystr) :=
  match s with
  | c :: r =>
      if c == 46%N then
        if is_nil (fst (span is_digit r)) then None else Some (span is_digit r)
      else Some ([], s)
  | [] => Some ([], [])
  end.
Definition read_sign (s : pystr) : Z * pystr :=
  match s with
  | c :: r => if c == 43%N then (1%Z, r) else if c == 45%N then ((-1)%Z, r) else (1%Z, s)
  | [] => (1%Z, s)
  end.
Definition read_exponent (s : pystr) : option (option Z * pystr) :=
  match s with
  | c :: r =>
      if c == 101%N then
        let sign := read_sign r in
        if is_nil (fst (span is_digit (snd sign))) then None
        else Some (Some (fst sign * Z.of_N (digits_value (fst (span is_digit (snd sign)))))%Z, snd (span is_digit (snd sign)))
      else Some (None, s)
  | [] => Some (None, [])
  end.
Inductive number := Integer (n : N) | Float (x : decimal) | Imaginary (x : decimal).
(** [012] is no number *)
Definition leading_zero (digits : pystr) : bool :=
  match digits with c :: _ :: _ => c == 48%N | _ => false end.
Definition number_of (ds fraction : pystr) (exponent : option Z) (imaginary : bool) : number :=
  let x := decimal_of (ds ++ fraction) (Z.of_nat (length ds) + match exponent with Some e => e | None => 0%Z end) in
  if imaginary then Imaginary x
  else match fraction, exponent with
       | [], None => Integer (digits_value ds)
       | _, _ => Float x
       end.
Definition read_numeral (s : pystr) : option (number * pystr) :=
  let ds := fst (span is_digit s) in
  if is_nil ds || leading_zero ds then None
  else
    match read_fraction (snd (span is_digit s)) with
    | None => None
    | Some (fraction, r) =>
        match read_exponent r with
        | None => None
        | Some (exponent, c :: r) =>
            if c == 106%N then Some (number_of ds fraction exponent true, r)
            else Some (number_of ds fraction exponent false, c :: r)
        | Some (exponent, []) => Some (number_of ds fraction exponent false, [])
        end
    end.

(** ** Facts: bytes *)
Lemma read_bytes_hex q n r : (n < 256)%N ->
  read_bytes q (Hex_digits 1 0) (hex 2 n ++ r) = emit n (read_bytes q Plain_char r).
Proof.
  intros H. cbn [hex app read_bytes]. rewrite !unhex_digit by (apply N.mod_lt; lia).
  f_equal. rewrite N.mul_0_l, N.add_0_l. rewrite (N.mod_small (n / 16) 16) by (apply N.div_lt_upper_bound; lia).
  pose proof (N.div_mod n 16). lia.
Qed.
Lemma read_repr_byte q c r : q = QUOTE \/ q = DOUBLE_QUOTE -> (c < 256)%N ->
  read_bytes q Plain_char (repr_char (fun _ => false) q c ++ r) = emit c (read_bytes q Plain_char r).
Proof.
  intros Hq Hc. unfold repr_char.
  assert (Hq' : BACKSLASH == q = false) by (destruct Hq; subst; reflexivity).
  assert (HqN : q == NEWLINE = false) by (destruct Hq; subst; reflexivity).
  assert (Hb : forall r, read_bytes q Plain_char (BACKSLASH :: r) = read_bytes q Escape r)
    by (intros r'; cbn [read_bytes]; now rewrite Hq').
  assert (Hx : read_bytes q Plain_char (($"\x" ++ hex 2 c) ++ r) = emit c (read_bytes q Plain_char r)).
  { rewrite <- app_assoc. change ($"\x" ++ ?x) with (BACKSLASH :: 120%N :: x). rewrite Hb.
    change (read_bytes q Escape (120%N :: ?x)) with (read_bytes q (Hex_digits 1 0) x). now apply read_bytes_hex. }
  destruct (c == q) eqn:E1; cbn [orb].
  { apply eqb_to_eq in E1 as ->. cbn [app]. rewrite Hb. destruct Hq; subst; reflexivity. }
  destruct (c == BACKSLASH) eqn:E2.
  { apply eqb_to_eq in E2 as ->. cbn [app]. now rewrite Hb. }
  destruct (c == 9%N) eqn:E3; [apply eqb_to_eq in E3 as ->; destruct Hq; subst; reflexivity|].
  destruct (c == 10%N) eqn:E4; [apply eqb_to_eq in E4 as ->; destruct Hq; subst; reflexivity|].
  destruct (c == 13%N) eqn:E5; [apply eqb_to_eq in E5 as ->; destruct Hq; subst; reflexivity|].
  destruct (_ || _); [exact Hx|].
  destruct (c <? 127)%N eqn:E7.
  { cbn [app read_bytes]. unfold NEWLINE. apply N.ltb_lt in E7.
    assert (L : (c <? 128)%N = true) by (apply N.ltb_lt; lia). now rewrite E1, E4, E2, L. }
  apply N.ltb_lt in Hc. rewrite Hc. exact Hx.
Qed.
Lemma read_repr_bytes bs r : valid_bytes bs ->
  exists q t, repr_bytes bs = 98%N :: q :: t /\ (q = QUOTE \/ q = DOUBLE_QUOTE)
    /\ read_bytes q Plain_char (t ++ r) = Some (bs, r).
Proof.
  intros H. eexists _, _. split; [reflexivity|]. split; [apply repr_quote_cases|].
  rewrite <- app_assoc. cbn [app].
  assert (G : forall q, q = QUOTE \/ q = DOUBLE_QUOTE ->
    read_bytes q Plain_char (flat_map (repr_char (fun _ => false) q) bs ++ q :: r) = Some (bs, r)); [|apply G, repr_quote_cases].
  intros q Hq. induction H as [|c bs Hc H IH]; cbn [flat_map app].
  - cbn. now rewrite eqb_refl.
  - rewrite <- app_assoc, read_repr_byte by assumption. now rewrite IH.
Qed.
Lemma read_bytes_local q : forall text st s r more,
  read_bytes q st text = Some (s, r) -> read_bytes q st (text ++ more) = Some (s, r ++ more).
Proof.
  assert (Hemit : forall c x s r more y, emit c x = Some (s, r) ->
    (forall s' r', x = Some (s', r') -> y = Some (s', r' ++ more)) -> emit c y = Some (s, r ++ more)).
  { intros c [[s' r']|] s r more y E H; [|easy]. cbn in E. inv E. now rewrite (H _ _ eq_refl). }
  induction text as [|c text IH]; intros st s r more E; [easy|].
  cbn [app read_bytes] in *. destruct st as [| |k acc].
  - destruct (c == q); [now inv E|]. destruct (c == NEWLINE); [easy|]. destruct (c == BACKSLASH); [auto|].
    destruct (c <? 128)%N; [|easy]. eapply Hemit; [eassumption|]. auto.
  - repeat match goal with
    | H : (if ?b then _ else _) = Some _ |- _ => destruct b
    | H : None = Some _ |- _ => discriminate H
    | H : emit _ _ = Some _ |- _ => eapply Hemit; [eassumption | auto]
    | _ => auto
    end.
  - destruct (unhex c); [|easy]. destruct k; [|auto]. eapply Hemit; [eassumption | auto].
Qed.

(** ** Facts: numbers *)
Lemma zeros_digits n : forallb is_digit (zeros n) = true.
Proof. unfold zeros. induction (Z.to_nat n); cbn; auto. Qed.
Lemma zeros_length n : (0 <= n)%Z -> Z.of_nat (length (zeros n)) = n.
Proof. intros H. unfold zeros. rewrite repeat_length. lia. Qed.
Lemma drop_repeat k s : drop_zeros (repeat 48%N k ++ s) = drop_zeros s.
Proof. induction k; cbn; auto. Qed.
Lemma drop_nonzero c s : c <> 48%N -> drop_zeros (c :: s) = c :: s.
Proof. intros H. apply eqb_neq in H. cbn. now rewrite H. Qed.
(** Zeros at the ends do not count. *)
Lemma decimal_padded k j x c r d s q : digits x = c :: r -> digits x = s ++ [d] -> c <> 48%N -> d <> 48%N ->
  q = (point x + Z.of_nat k)%Z -> decimal_of (repeat 48%N k ++ digits x ++ repeat 48%N j) q = x.
Proof.
  intros E1 E2 N1 N2 ->. destruct x as [ds p]. cbn [digits point] in *. unfold decimal_of.
  assert (F : drop_zeros (repeat 48%N k ++ ds ++ repeat 48%N j) = ds ++ repeat 48%N j).
  { rewrite drop_repeat. rewrite E1, <- app_comm_cons. now apply drop_nonzero. }
  assert (R : rev (repeat 48%N j) = repeat 48%N j).
  { clear. induction j; cbn; [easy|]. rewrite IHj. clear. induction j; cbn; congruence. }
  assert (B : rev (drop_zeros (rev (ds ++ repeat 48%N j))) = ds).
  { rewrite rev_app_distr, R, drop_repeat. rewrite E2, rev_app_distr. cbn [rev app]. rewrite drop_nonzero by assumption.
    cbn [rev]. now rewrite rev_involutive. }
  cbv zeta. rewrite F, B. destruct ds as [|c' r']; [discriminate|]. f_equal. rewrite !app_length, !repeat_length. cbn [length]. lia.
Qed.
Lemma exponent_digits e : forallb is_digit ((if (Z.abs e <? 10)%Z then $"0" else []) ++ repr_N (Z.abs_N e)) = true.
Proof. rewrite forallb_app, repr_N_digits. destruct (_ <? _)%Z; reflexivity. Qed.
Lemma exponent_value e : digits_value ((if (Z.abs e <? 10)%Z then $"0" else []) ++ repr_N (Z.abs_N e)) = Z.abs_N e.
Proof.
  destruct (_ <? _)%Z; cbn [app]; [|apply repr_N_value].
  rewrite <- (repr_N_value (Z.abs_N e)) at 2. reflexivity.
Qed.
Definition stops (s : pystr) : Prop := match s with [] => True | c :: _ => is_digit c = false /\ c <> 101%N end.
Lemma read_exponent_text e r : match r with [] => true | c :: _ => negb (is_digit c) end = true ->
  read_exponent ($"e" ++ exponent_text e ++ r) = Some (Some e, r).
Proof.
  intros H. set (ds := (if (Z.abs e <? 10)%Z then $"0" else []) ++ repr_N (Z.abs_N e)).
  assert (R : read_sign (exponent_text e ++ r) = (if (e <? 0)%Z then (-1)%Z else 1%Z, ds ++ r)).
  { unfold exponent_text. fold ds. destruct (e <? 0)%Z; reflexivity. }
  change ($"e" ++ ?x) with (101%N :: x). unfold read_exponent. change (101%N == 101%N) with true. cbv iota zeta.
  rewrite R. cbn [fst snd]. rewrite span_app by (try apply exponent_digits; easy). cbn [fst snd].
  assert (Nn : is_nil ds = false).
  { unfold ds. destruct (_ <? _)%Z; [reflexivity|]. pose proof (repr_N_nonempty (Z.abs_N e)). cbn. now destruct (repr_N _). }
  rewrite Nn. unfold ds at 1. rewrite exponent_value. do 3 f_equal. destruct (e <? 0)%Z eqn:L.
  - apply Z.ltb_lt in L. lia.
  - apply Z.ltb_ge in L. lia.
Qed.
Lemma exponent_none s : stops s -> read_exponent s = Some (None, s).
Proof. destruct s as [|c s]; [easy|]. intros [_ H]. apply eqb_neq in H. cbn. now rewrite H. Qed.

(** What follows a number: no digit, dot, exponent or [j] *)
Definition after (s : pystr) : Prop :=
  match s with [] => True | c :: _ => is_digit c = false /\ c <> 46%N /\ c <> 101%N /\ c <> 106%N end.
(** The stages of [read_numeral], with what stands before [j] or the end *)
Lemma numeral_parts ds fraction exponent s t u :
  forallb is_digit ds = true -> is_nil ds = false -> leading_zero ds = false ->
  match s with [] => true | c :: _ => negb (is_digit c) end = true ->
  read_fraction s = Some (fraction, t) -> read_exponent t = Some (exponent, u) ->
  read_numeral (ds ++ s) =
    match u with
    | c :: r => if c == 106%N then Some (number_of ds fraction exponent true, r) else Some (number_of ds fraction exponent false, u)
    | [] => Some (number_of ds fraction exponent false, u)
    end.
Proof.
  intros D Nn L H F E. unfold read_numeral. rewrite span_app by assumption. cbn [fst snd]. rewrite Nn, L. cbn [orb].
  rewrite F, E. now destruct u as [|c u].
Qed.
Lemma fraction_text f s : forallb is_digit f = true -> is_nil f = false ->
  match s with [] => true | c :: _ => negb (is_digit c) end = true -> read_fraction (46%N :: f ++ s) = Some (f, s).
Proof. intros D Nn H. cbn. rewrite span_app by assumption. cbn [fst]. now rewrite Nn. Qed.
Lemma fraction_none s : match s with [] => True | c :: _ => c <> 46%N end -> read_fraction s = Some ([], s).
Proof. destruct s as [|c s]; [easy|]. intros H. apply eqb_neq in H. cbn. now rewrite H. Qed.
Definition ends_decimal (s : pystr) : Prop :=
  match s with [] => True | c :: _ => is_digit c = false /\ c <> 46%N /\ c <> 101%N end.
Lemma ends_no_digit s : ends_decimal s -> match s with [] => true | c :: _ => negb (is_digit c) end = true.
Proof. destruct s; [easy|]. now intros [-> _]. Qed.
Lemma ends_no_exponent s : ends_decimal s -> read_exponent s = Some (None, s).
Proof. intros H. apply exponent_none. destruct s; [easy|]. cbn in *. tauto. Qed.
Lemma ends_no_fraction s : ends_decimal s -> read_fraction s = Some ([], s).
Proof. intros H. apply fraction_none. destruct s; [easy|]. cbn in *. tauto. Qed.

Lemma decimal_parts dot x : proper_decimal x ->
  exists ds fraction exponent mid, decimal_text dot x = ds ++ mid
    /\ forallb is_digit ds = true /\ is_nil ds = false /\ leading_zero ds = false
    /\ (forall s, ends_decimal s -> match mid ++ s with [] => true | c :: _ => negb (is_digit c) end = true
          /\ exists t, read_fraction (mid ++ s) = Some (fraction, t) /\ read_exponent t = Some (exponent, s))
    /\ decimal_of (ds ++ fraction) (Z.of_nat (length ds) + match exponent with Some e => e | None => 0%Z end) = x
    /\ (dot = true -> fraction <> [] \/ exponent <> None).
Proof.
  intros [[D P]|(D & c & r & d & s & E1 & E2 & N1 & N2)].
  - (* zero *)
    destruct x as [ds p]. cbn in D, P. subst. exists $"0", (if dot then $"0" else []), None, (if dot then $".0" else []).
    split; [reflexivity|]. do 3 (split; [reflexivity|]). split; [|split; [destruct dot; reflexivity|intros ->; left; discriminate]].
    intros s H. destruct dot.
    + split; [reflexivity|]. exists s. split; [|now apply ends_no_exponent].
      exact (@fraction_text $"0" s eq_refl eq_refl (ends_no_digit _ H)).
    + cbn [app]. split; [now apply ends_no_digit|]. exists s. split; [now apply ends_no_fraction|now apply ends_no_exponent].
  - unfold decimal_text. rewrite E1. rewrite <- E1.
    assert (Dc : is_digit c = true /\ forallb is_digit r = true) by (rewrite E1 in D; cbn in D; now apply andb_true_iff in D).
    destruct Dc as [Dc Dr]. assert (Nc : c == 48%N = false) by now apply eqb_neq.
    assert (Ln : 0 < length (digits x)) by (rewrite E1; cbn; lia).
    destruct (_ || _) eqn:Big.
    { (* d.ddde+xx *)
      exists [c], r, (Some (point x - 1)%Z), ((if is_nil r then [] else $"." ++ r) ++ $"e" ++ exponent_text (point x - 1)).
      split; [reflexivity|]. split; [cbn; now rewrite Dc|]. do 2 (split; [reflexivity|]). split; [|split].
      - intros z H. rewrite <- app_assoc.
        assert (He : forall y, match $"e" ++ y with [] => true | c :: _ => negb (is_digit c) end = true) by reflexivity.
        destruct r as [|c' r']; cbn [is_nil].
        + split; [reflexivity|]. eexists. split; [apply fraction_none; discriminate|].
          exact (read_exponent_text (point x - 1) z (ends_no_digit _ H)).
        + split; [reflexivity|]. eexists. split; [|exact (read_exponent_text (point x - 1) z (ends_no_digit _ H))].
          change ($"." ++ ?y) with (46%N :: y). rewrite <- app_comm_cons. apply fraction_text; [exact Dr|reflexivity|apply He].
      - transitivity (decimal_of (repeat 48%N 0 ++ digits x ++ repeat 48%N 0) (point x));
          [|apply (@decimal_padded 0 0 x c r d s); auto; lia]. cbn [repeat]. rewrite app_nil_r, E1. f_equal. cbn [length]. lia.
      - intros _. right. discriminate. }
    apply orb_false_iff in Big as [B1 B2]. apply Z.leb_gt in B1. apply Z.ltb_ge in B2.
    destruct (point x <=? 0)%Z eqn:B3.
    { apply Z.leb_le in B3. exists $"0", (zeros (- point x) ++ digits x), None, ($"." ++ zeros (- point x) ++ digits x).
      split; [reflexivity|]. do 3 (split; [reflexivity|]). split; [|split].
      - intros z H. split; [reflexivity|]. exists z. split; [|now apply ends_no_exponent].
        change ($"." ++ ?y) with (46%N :: y). rewrite <- app_comm_cons. apply fraction_text.
        + now rewrite forallb_app, zeros_digits, D.
        + rewrite E1. now destruct (zeros _).
        + now apply ends_no_digit.
      - transitivity (decimal_of (repeat 48%N (S (Z.to_nat (- point x))) ++ digits x ++ repeat 48%N 0) 1);
          [|apply (@decimal_padded _ 0 x c r d s); auto; lia]. cbn [repeat]. rewrite app_nil_r. reflexivity.
      - intros _. left. rewrite E1. now destruct (zeros _). }
    apply Z.leb_gt in B3. destruct (Z.of_nat (length (digits x)) <=? point x)%Z eqn:B4.
    { apply Z.leb_le in B4. set (k := (point x - Z.of_nat (length (digits x)))%Z).
      exists (digits x ++ zeros k), (if dot then $"0" else []), None, (if dot then $".0" else []).
      split; [now rewrite app_assoc|]. split; [now rewrite forallb_app, zeros_digits, D|].
      split; [rewrite E1; reflexivity|]. split; [rewrite E1; cbn; destruct (r ++ zeros k); [reflexivity|exact Nc]|]. split; [|split].
      - intros z H. destruct dot.
        + split; [reflexivity|]. exists z. split; [|now apply ends_no_exponent].
          exact (@fraction_text $"0" z eq_refl eq_refl (ends_no_digit _ H)).
        + cbn [app]. split; [now apply ends_no_digit|]. exists z. split; [now apply ends_no_fraction|now apply ends_no_exponent].
      - rewrite <- app_assoc. set (j := (Z.to_nat k + (if dot then 1 else 0))).
        assert (Ej : zeros k ++ (if dot then $"0" else []) = repeat 48%N j).
        { unfold j, zeros. rewrite repeat_app. destruct dot; reflexivity. }
        transitivity (decimal_of (repeat 48%N 0 ++ digits x ++ repeat 48%N j) (Z.of_nat (length (digits x ++ zeros k)) + 0)).
        { cbn [repeat app]. f_equal. f_equal. exact Ej. }
        apply (@decimal_padded 0 j x c r d s); auto. rewrite app_length, Nat2Z.inj_add, zeros_length by (unfold k; lia). unfold k. lia.
      - intros ->. left. discriminate. }
    apply Z.leb_gt in B4. set (k := Z.to_nat (point x)). assert (K : 0 < k < length (digits x)) by (unfold k; lia).
    exists (firstn k (digits x)), (skipn k (digits x)), None, ($"." ++ skipn k (digits x)).
    assert (Dk : forallb is_digit (firstn k (digits x)) = true /\ forallb is_digit (skipn k (digits x)) = true).
    { apply andb_true_iff. rewrite <- forallb_app, firstn_skipn. exact D. }
    assert (Sk : is_nil (skipn k (digits x)) = false).
    { pose proof (skipn_length k (digits x)). destruct (skipn k (digits x)); [cbn in *; lia|reflexivity]. }
    split; [reflexivity|]. split; [apply Dk|].
    split; [rewrite E1; destruct k; [lia|reflexivity]|].
    split; [rewrite E1; destruct k; [lia|]; cbn; destruct (firstn k r); [reflexivity|exact Nc]|]. split; [|split].
    + intros z H. split; [reflexivity|]. exists z. split; [|now apply ends_no_exponent].
      change ($"." ++ ?y) with (46%N :: y). rewrite <- app_comm_cons. apply fraction_text; [apply Dk|exact Sk|now apply ends_no_digit].
    + rewrite firstn_skipn. transitivity (decimal_of (repeat 48%N 0 ++ digits x ++ repeat 48%N 0) (point x));
        [|apply (@decimal_padded 0 0 x c r d s); auto; lia]. cbn [repeat]. rewrite app_nil_r. cbn [app]. f_equal. rewrite firstn_length. unfold k in *. lia.
    + intros _. left. now destruct (skipn k (digits x)).
Qed.
Lemma read_repr_float x r : proper_decimal x -> after r -> read_numeral (repr_float x ++ r) = Some (Float x, r).
Proof.
  intros P A. destruct (@decimal_parts true x P) as (ds & fr & ex & mid & E & D & Nn & L & H & Ev & Nf).
  assert (En : ends_decimal r) by (destruct r; [easy|cbn in *; tauto]). destruct (H r En) as (H1 & t & H2 & H3).
  unfold repr_float. rewrite E, <- app_assoc, (@numeral_parts ds fr ex _ t r) by assumption.
  assert (Nu : number_of ds fr ex false = Float x).
  { unfold number_of. rewrite Ev. destruct fr, ex; try reflexivity. destruct (Nf eq_refl); easy. }
  destruct r as [|c r]; [now rewrite Nu|]. destruct A as (_ & _ & _ & A). apply eqb_neq in A. now rewrite A, Nu.
Qed.
Lemma read_repr_imaginary x r : proper_decimal x -> read_numeral (repr_imaginary x ++ r) = Some (Imaginary x, r).
Proof.
  intros P. destruct (@decimal_parts false x P) as (ds & fr & ex & mid & E & D & Nn & L & H & Ev & _).
  assert (En : ends_decimal ($"j" ++ r)) by (cbn; repeat split; discriminate). destruct (H _ En) as (H1 & t & H2 & H3).
  unfold repr_imaginary. rewrite E, <- !app_assoc, (@numeral_parts ds fr ex _ t ($"j" ++ r)) by assumption.
  cbn [app]. change (106%N == 106%N) with true. cbv iota. unfold number_of. now rewrite Ev.
Qed.
Lemma read_repr_integer n r : after r -> read_numeral (repr_N n ++ r) = Some (Integer n, r).
Proof.
  intros A. assert (En : ends_decimal r) by (destruct r; [easy|cbn in *; tauto]).
  assert (Nn : is_nil (repr_N n) = false) by (pose proof (repr_N_nonempty n); now destruct (repr_N n)).
  assert (L : leading_zero (repr_N n) = false).
  { destruct (repr_N n) as [|c [|d s]] eqn:E; [easy|reflexivity|]. apply uint_no_leading_zero in E. now apply eqb_neq. }
  rewrite (@numeral_parts (repr_N n) [] None r r r);
    [|apply repr_N_digits|exact Nn|exact L|now apply ends_no_digit|now apply ends_no_fraction|now apply ends_no_exponent].
  assert (Nu : number_of (repr_N n) [] None false = Integer n) by (cbn; now rewrite repr_N_value).
  destruct r as [|c r]; [now rewrite Nu|]. destruct A as (_ & _ & _ & A). apply eqb_neq in A. now rewrite A, Nu.
Qed.

(** Locality *)
Lemma read_numeral_local s x c r more :
  read_numeral s = Some (x, c :: r) -> read_numeral (s ++ more) = Some (x, c :: r ++ more).
Proof.
  assert (F : forall s f c r, read_fraction s = Some (f, c :: r) -> read_fraction (s ++ more) = Some (f, c :: r ++ more)).
  { intros [|a z] f d u; cbn [app read_fraction]; [easy|]. destruct (a == 46%N); [|intros E; now inv E].
    destruct (is_nil _) eqn:Nn; [easy|]. intros E. injection E as E. 
    assert (S : snd (span is_digit z) = d :: u) by now rewrite E. rewrite (span_local _ z _ _ more S). cbn [fst]. rewrite Nn.
    now rewrite E. }
  assert (X : forall s f c r, read_exponent s = Some (f, c :: r) -> read_exponent (s ++ more) = Some (f, c :: r ++ more)).
  { intros [|a z] f d u; cbn [app read_exponent]; [easy|]. destruct (a == 101%N); [|intros E; now inv E].
    destruct (is_nil (fst (span is_digit (snd (read_sign z))))) eqn:Nn; [easy|]. intros E. injection E as <- E.
    assert (Sg : read_sign (z ++ more) = (fst (read_sign z), snd (read_sign z) ++ more)).
    { destruct z as [|b z]; [discriminate Nn|]. cbn [app read_sign]. destruct (b == 43%N); [reflexivity|]. destruct (b == 45%N); reflexivity. }
    rewrite Sg. cbn [fst snd]. rewrite (span_local _ _ _ _ more E). cbn [fst snd]. now rewrite Nn. }
  unfold read_numeral. destruct (is_nil _ || leading_zero _) eqn:L; [easy|].
  destruct (read_fraction (snd (span is_digit s))) as [[fr t]|] eqn:Fr; [|easy].
  destruct (read_exponent t) as [[ex u]|] eqn:Ex; [|easy]. intros E.
  assert (U : exists a z, u = a :: z) by (destruct u; [discriminate E|eauto]). destruct U as (a & z & ->).
  assert (T : exists b y, t = b :: y) by (destruct t; [discriminate Ex|eauto]). destruct T as (b & y & ->).
  assert (S : exists d v, snd (span is_digit s) = d :: v) by (destruct (snd (span is_digit s)); [discriminate Fr|eauto]).
  destruct S as (d & v & Es). rewrite (span_local _ s _ _ more Es). cbn [fst snd]. rewrite L.
  rewrite Es in Fr. change (d :: v ++ more) with ((d :: v) ++ more). rewrite (F _ _ _ _ Fr).
  change (b :: y ++ more) with ((b :: y) ++ more). rewrite (X _ _ _ _ Ex).
  destruct (a == 106%N); [injection E as <- ->|injection E as <- <- <-]; reflexivity.
Qed.
