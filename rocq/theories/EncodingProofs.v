(** Proofs about encodings. *)
From Coq Require Import Lia ZifyN ZifyBool ZArith Permutation.
From Verif Require Import Base PySort PyText PyExpr SpecData Pretty Encoding SpecEncoding.
Ltac Zify.zify_post_hook ::= Z.to_euclidean_division_equations.

Definition scalar (c : N) : Prop := (c < 1114112 /\ ~ (55296 <= c < 57344))%N.
Lemma utf8_scalar c u : utf8 c u -> scalar c.
Proof. intros H. unfold scalar. inversion H; subst; try (subst v); lia. Qed.
Lemma utf8_encode c : scalar c -> exists u, encode_char c = Some u /\ utf8 c u.
Proof.
  intros [A B]. unfold encode_char, between.
  destruct (N.ltb_spec c 128); [eexists; split; [reflexivity|]; now constructor|].
  destruct (N.ltb_spec c 2048).
  { eexists. split; [reflexivity|]. replace c with (64 * (c / 64) + c mod 64)%N at 1 by lia. constructor; lia. }
  replace ((55296 <=? c)%N && (c <=? 57343)%N) with false by lia.
  destruct (N.ltb_spec c 65536).
  { eexists. split; [reflexivity|]. replace c with (4096 * (c / 4096) + 64 * ((c / 64) mod 64) + c mod 64)%N at 1 by lia. constructor; lia. }
  replace (c <? 1114112)%N with true by lia.
  eexists. split; [reflexivity|].
  replace c with (262144 * (c / 262144) + 4096 * ((c / 4096) mod 64) + 64 * ((c / 64) mod 64) + c mod 64)%N at 1 by lia. constructor; lia.
Qed.
Lemma encode_encoded text : Forall scalar text -> exists b, encode text = Some b /\ encoded text b.
Proof.
  induction 1 as [|c text S _ (b & E & C)]; [exists []; split; [reflexivity|constructor]|].
  destruct (utf8_encode c S) as (u & Eu & U). cbn [encode]. rewrite Eu, E. eexists. split; [reflexivity|]. now constructor.
Qed.

(** ** Decoding *)
Ltac decide_if := match goal with |- context [if ?x then _ else _] =>
  let e := fresh in first [assert (e : x = true) by (unfold continues, between; lia); rewrite e; clear e
                          |assert (e : x = false) by (unfold continues, between; lia); rewrite e; clear e] end.
Lemma decode_utf8 c u r : utf8 c u -> decode (u ++ r) = option_map (cons c) (decode r).
Proof.
  intros H. inversion H; subst; cbn [app decode]; repeat decide_if; unfold six; try (subst v);
    match goal with |- option_map (cons ?a) _ = option_map (cons ?b) _ => replace a with b by lia; reflexivity | _ => idtac end.
Qed.
Lemma decode_encoded text b : encoded text b -> decode b = Some text.
Proof. induction 1 as [|c u text b U _ IH]; [reflexivity|]. now rewrite (decode_utf8 c u b U), IH. Qed.
Lemma utf8_unique c u u' : utf8 c u -> utf8 c u' -> u = u'.
Proof.
  intros H H'. inversion H; inversion H'; repeat (match goal with x := _ |- _ => subst x end); subst; try reflexivity; try lia;
    repeat (match goal with |- _ :: _ = _ :: _ => f_equal end); lia.
Qed.
Lemma encode_scalar text b : encode text = Some b -> Forall scalar text.
Proof.
  revert b. induction text as [|c text IH]; intros b; [constructor|]. cbn [encode].
  destruct (encode_char c) eqn:E; [|discriminate]. destruct (encode text) as [b'|] eqn:E'; [|discriminate]. intros _. constructor; [|now apply IH with b'].
  unfold scalar. unfold encode_char, between in E. revert E.
  repeat (match goal with |- context [if ?b then _ else _] => destruct b eqn:? end); intros [= <-]; lia.
Qed.
Lemma encoded_unique text b b' : encoded text b -> encoded text b' -> b = b'.
Proof.
  intros H. revert b'. induction H as [|c u text b U _ IH]; intros b' H'; inversion H'; subst; [reflexivity|].
  f_equal; [now apply utf8_unique with c|now apply IH].
Qed.
Lemma encode_spec text b : encode text = Some b <-> encoded text b.
Proof.
  split; intros H.
  - destruct (encode_encoded text (encode_scalar _ _ H)) as (b' & E & C). congruence.
  - assert (S : Forall scalar text) by (clear - H; induction H; constructor; eauto using utf8_scalar).
    destruct (encode_encoded text S) as (b' & E & C). now rewrite E, (encoded_unique _ _ _ H C).
Qed.
Local Opaque N.add N.mul.
Lemma decode_cut c u more : utf8 c (u ++ more) -> u <> [] -> more <> [] -> decode u = None.
Proof.
  intros H Nu Nm. destruct u as [|b0 u]; [easy|]. clear Nu.
  inversion H as [c' H1 H2 H3|a b H1 H2 H3 H4 H5|a b c' H1 H2 H3 v H4 H5 H6 H7|a b c' d H1 H2 H3 H4 v H5 H6 H7]; subst.
  - destruct u; [|discriminate]. match goal with E : [] = _ |- _ => cbn [app] in E; now symmetry in E end.
  - destruct u as [|b1 u]; [cbn [decode]; now decide_if|].
    match goal with E : _ :: _ = _ ++ more |- _ => cbn [app] in E; injection E as ? E; symmetry in E; now apply app_eq_nil in E as [_ ->] end.
  - destruct u as [|b1 u]; [cbn [decode]; now decide_if|].
    match goal with E : _ :: _ = _ ++ more |- _ => cbn [app] in E; injection E as <- E end.
    destruct u as [|b2 u]; [cbn [decode]; now repeat decide_if|].
    match goal with E : _ :: _ = _ ++ more |- _ => cbn [app] in E; injection E as ? E; symmetry in E; now apply app_eq_nil in E as [_ ->] end.
  - destruct u as [|b1 u]; [cbn [decode]; now decide_if|].
    match goal with E : _ :: _ = _ ++ more |- _ => cbn [app] in E; injection E as <- E end.
    destruct u as [|b2 u]; [cbn [decode]; now repeat decide_if|].
    match goal with E : _ :: _ = _ ++ more |- _ => cbn [app] in E; injection E as <- E end.
    destruct u as [|b3 u]; [cbn [decode]; now repeat decide_if|].
    match goal with E : _ :: _ = _ ++ more |- _ => cbn [app] in E; injection E as ? E; symmetry in E; now apply app_eq_nil in E as [_ ->] end.
Qed.

Lemma app_split {A} (p more u b : list A) : p ++ more = u ++ b ->
  (exists q, p = u ++ q /\ q ++ more = b) \/ (exists q, q <> [] /\ u = p ++ q).
Proof.
  revert u. induction p as [|x p IH]; intros u E.
  - destruct u as [|y u]; [left; exists []; auto|]. right. now exists (y :: u).
  - destruct u as [|y u]; [left; exists (x :: p); auto|]. cbn [app] in E. injection E as -> E.
    destruct (IH u E) as [(q & -> & Q)|(q & N & ->)]; [left|right]; now exists q.
Qed.
(** Bytes that stop short give less text, or none. *)
Lemma decode_prefix text b : encoded text b -> forall p more t, p ++ more = b -> decode p = Some t -> exists t', text = t ++ t'.
Proof.
  induction 1 as [|c u text b U _ IH]; intros p more t E D.
  - apply app_eq_nil in E as [-> _]. injection D as <-. now exists [].
  - destruct (app_split p more u b E) as [(q & -> & Q)|(q & N & ->)].
    + rewrite (decode_utf8 c u q U) in D. destruct (decode q) as [t0|] eqn:Dq; [|discriminate]. injection D as <-.
      destruct (IH q more t0 Q Dq) as [t' ->]. now exists t'.
    + destruct p as [|b0 p]; [injection D as <-; now exists (c :: text)|].
      rewrite (decode_cut c (b0 :: p) q U) in D; easy.
Qed.
(** The decoder gives nothing else. *)
Lemma decode_sound n : forall b t, length b <= n -> Forall (fun x => (x < 256)%N) b -> decode b = Some t -> encoded t b.
Proof.
  induction n as [|n IH]; intros [|b0 r0] t L B D; cbn [length] in L; try lia; try (injection D as <-; constructor).
  cbn [decode] in D. inversion B as [|? ? B0 Br]; subst.
  assert (one : forall (c : N) u r t', b0 :: r0 = u ++ r -> length r <= n -> Forall (fun x => (x < 256)%N) r -> utf8 c u ->
                option_map (cons c) (decode r) = Some t' -> encoded t' (b0 :: r0)).
  { intros c u r t' -> Lr Fr U X. destruct (decode r) as [t0|] eqn:Dr; [|discriminate]. injection X as <-. constructor; [exact U|]. now apply IH. }
  destruct (N.ltb_spec b0 128); [eapply (one b0 [b0] r0); eauto; [lia|now constructor]|].
  destruct r0 as [|b1 r1]; [discriminate|]. cbn [length] in L. inversion Br as [|? ? B1 Br1]; subst.
  destruct (continues b1) eqn:C1; cbn [negb] in D; [|discriminate]. unfold continues, between in C1.
  destruct (between 194 223 b0) eqn:R2.
  { unfold between in R2. eapply (one _ [b0; b1] r1); eauto; [lia|]. unfold six.
    replace ((b0 - 192) * 64 + (b1 - 128))%N with (64 * (b0 - 192) + (b1 - 128))%N by lia.
    replace [b0; b1] with [(192 + (b0 - 192))%N; (128 + (b1 - 128))%N] by (repeat f_equal; lia). constructor; lia. }
  destruct r1 as [|b2 r2]; [discriminate|]. cbn [length] in L. inversion Br1 as [|? ? B2 Br2]; subst.
  destruct (continues b2) eqn:C2; cbn [negb] in D; [|discriminate]. unfold continues, between in C2.
  destruct (between 224 239 b0) eqn:R3.
  { unfold between in R2, R3. match type of D with (if ?x then _ else _) = _ => destruct x eqn:X; [discriminate|] end.
    eapply (one _ [b0; b1; b2] r2); eauto; [lia|]. unfold six.
    replace ((b0 - 224) * 4096 + (b1 - 128) * 64 + (b2 - 128))%N with (4096 * (b0 - 224) + 64 * (b1 - 128) + (b2 - 128))%N by lia.
    replace [b0; b1; b2] with [(224 + (b0 - 224))%N; (128 + (b1 - 128))%N; (128 + (b2 - 128))%N] by (repeat f_equal; lia). constructor; lia. }
  destruct r2 as [|b3 r3]; [discriminate|]. cbn [length] in L. inversion Br2 as [|? ? B3 Br3]; subst.
  destruct (continues b3) eqn:C3; cbn [negb] in D; [|discriminate]. unfold continues, between in C3.
  destruct (between 240 244 b0) eqn:R4; [|discriminate].
  unfold between in R2, R3, R4. match type of D with (if ?x then _ else _) = _ => destruct x eqn:X; [discriminate|] end.
  eapply (one _ [b0; b1; b2; b3] r3); eauto; [lia|]. unfold six.
  replace ((b0 - 240) * 262144 + (b1 - 128) * 4096 + (b2 - 128) * 64 + (b3 - 128))%N
    with (262144 * (b0 - 240) + 4096 * (b1 - 128) + 64 * (b2 - 128) + (b3 - 128))%N by lia.
  replace [b0; b1; b2; b3] with [(240 + (b0 - 240))%N; (128 + (b1 - 128))%N; (128 + (b2 - 128))%N; (128 + (b3 - 128))%N] by (repeat f_equal; lia).
  constructor; lia.
Qed.

(** ** Line breaks *)
Lemma universal_same_lines n : forall t, length t <= n -> same_lines t (universal t).
Proof.
  induction n as [|n IH]; intros [|c r] L; cbn [length] in L; try lia; [constructor|constructor|].
  cbn [universal]. destruct (N.eqb_spec c 13) as [->|N].
  - destruct r as [|d r']; [apply lines_return; [easy|constructor]|]. cbn [length] in L. destruct (N.eqb_spec d 10) as [->|N].
    + apply lines_pair, IH. lia.
    + apply lines_return; [congruence|]. apply IH. cbn. lia.
  - apply lines_char; [exact N|]. apply IH. lia.
Qed.
Lemma same_lines_unique t x : same_lines t x -> x = universal t.
Proof.
  induction 1 as [|t t' _ IH|t t' N _ IH|c t t' N _ IH]; [reflexivity| | |].
  - cbn [universal]. now rewrite !N.eqb_refl, IH.
  - cbn [universal]. rewrite N.eqb_refl, IH. destruct t as [|d r]; [reflexivity|]. destruct (N.eqb_spec d 10) as [->|_]; [now destruct (N r)|reflexivity].
  - cbn [universal]. destruct (N.eqb_spec c 13) as [->|_]; [easy|]. now rewrite IH.
Qed.
Definition separator (linesep : pystr) : Prop := linesep = [10%N] \/ linesep = [13%N; 10%N].
Lemma universal_expand ls text : separator ls -> ~ In 13%N text -> universal (expand ls text) = text.
Proof.
  intros S. induction text as [|c r IH]; intros N; [reflexivity|]. cbn in N. unfold expand. cbn [flat_map]. fold (expand ls r).
  destruct (N.eqb_spec c 10) as [->|C].
  - destruct S as [-> | ->]; cbn [app universal]; rewrite ?N.eqb_refl.
    + replace (10 =? 13)%N with false by reflexivity. f_equal. tauto.
    + f_equal. tauto.
  - cbn [app universal]. destruct (N.eqb_spec c 13) as [->|_]; [tauto|]. f_equal. tauto.
Qed.
Lemma single_split {A} (c : A) p q : [c] = p ++ q -> q <> [] -> p = [].
Proof. destruct p as [|a p]; [reflexivity|]. intros X N. injection X as _ X. destruct p, q; easy. Qed.
Lemma pair_split {A} (c d : A) p q : [c; d] = p ++ q -> q <> [] -> p = [] \/ p = [c].
Proof. destruct p as [|a p]; [now left|]. intros X N. injection X as -> X. apply single_split in X as ->; [now right|exact N]. Qed.
Lemma universal_prefix ls text : separator ls -> ~ In 13%N text -> forall p more, p ++ more = expand ls text -> exists t', text = universal p ++ t'.
Proof.
  intros S. induction text as [|c r IH]; intros N p more E.
  - apply app_eq_nil in E as [-> _]. now exists [].
  - unfold expand in E. cbn [flat_map] in E. fold (expand ls r) in E. cbn in N.
    destruct (app_split p more _ _ E) as [(q & -> & Q)|(q & Nq & X)].
    + destruct (IH ltac:(tauto) q more Q) as [t' ->]. exists t'. destruct (N.eqb_spec c 10) as [->|C].
      * destruct S as [-> | ->]; reflexivity.
      * cbn [app universal]. destruct (N.eqb_spec c 13) as [->|_]; [tauto|reflexivity].
    + destruct (N.eqb_spec c 10) as [->|C].
      * destruct S as [-> | ->].
        -- apply single_split in X as ->; [now exists (10%N :: r)|exact Nq].
        -- apply pair_split in X as [-> | ->]; [now exists (10%N :: r)|now exists r|exact Nq].
      * apply single_split in X as ->; [now exists (c :: r)|exact Nq].
Qed.

(** ** The texts of caches *)
Definition plain (c : N) : Prop := scalar c /\ c <> 13%N.
Lemma ascii_plain c : (c < 128)%N -> c <> 13%N -> plain c.
Proof. intros A B. split; [|exact B]. unfold scalar. lia. Qed.
Section Texts.
Variable printable : N -> bool.
(** Surrogates are not printable. *)
Hypothesis surrogates : forall c, (55296 <= c < 57344)%N -> printable c = false.
Lemma hex_plain k : forall n, Forall plain (hex k n).
Proof.
  induction k as [|k IH]; intros n; cbn [hex]; [constructor|]. apply Forall_app. split; [apply IH|]. constructor; [|constructor].
  assert (n mod 16 < 16)%N by (apply N.mod_lt; lia). unfold hex_digit. destruct (N.ltb_spec (n mod 16) 10); apply ascii_plain; lia.
Qed.
Lemma repr_char_plain q c : (c < 1114112)%N -> (q < 128)%N -> q <> 13%N -> Forall plain (repr_char printable q c).
Proof.
  intros V Q Q'. unfold repr_char.
  destruct (eqb_reflect c q) as [->|_]; cbn [orb]; [repeat constructor; try (unfold BACKSLASH); try lia; auto using ascii_plain|].
  destruct (eqb_reflect c BACKSLASH) as [->|_]; cbn [orb]; [repeat constructor; unfold BACKSLASH; lia|].
  repeat match goal with |- Forall plain (if ?c == ?x then ?t else _) =>
    destruct (eqb_reflect c x) as [->|?]; [repeat constructor; unfold scalar; cbn; lia|] end.
  destruct (((c <? 32)%N || (c == 127%N))) eqn:E1.
  { apply Forall_app. split; [repeat constructor; unfold scalar; cbn; lia|apply hex_plain]. }
  apply orb_false_elim in E1 as [E1 _].
  destruct (N.ltb_spec c 127); [constructor; [|constructor]; apply ascii_plain; lia|].
  destruct (printable c) eqn:P.
  { constructor; [|constructor]. split; [split; [exact V|]|lia]. intros S. rewrite surrogates in P; easy. }
  repeat match goal with |- Forall plain (if ?x then _ else _) => destruct x end;
    (apply Forall_app; split; [repeat constructor; unfold scalar; cbn; lia|apply hex_plain]).
Qed.
Lemma repr_str_plain s : valid_str s -> Forall plain (repr_str printable s).
Proof.
  intros V. assert (Q : (repr_quote s < 128)%N /\ repr_quote s <> 13%N).
  { unfold repr_quote, QUOTE, DOUBLE_QUOTE. match goal with |- context [if ?x then _ else _] => destruct x end; lia. }
  unfold repr_str. constructor; [now apply ascii_plain|]. apply Forall_app. split; [|constructor; [now apply ascii_plain|constructor]].
  apply Forall_flat_map. eapply Forall_impl; [|exact V]. cbn. intros c C. now apply repr_char_plain.
Qed.
Lemma uint_plain u : Forall plain (uint_text u).
Proof. induction u; cbn [uint_text]; constructor; auto; apply ascii_plain; lia. Qed.
Lemma repr_int_plain z : Forall plain (repr_int z).
Proof.
  destruct z; cbn [repr_int]; try apply uint_plain. constructor; [apply ascii_plain; cbn; lia|]. apply uint_plain.
Qed.
Lemma spaces_plain i d : Forall plain (spaces i d).
Proof. unfold spaces. apply Forall_forall. intros c H. apply repeat_spec in H as ->. apply ascii_plain; lia. Qed.
Lemma join_plain sep l : Forall plain sep -> Forall (Forall plain) l -> Forall plain (join sep l).
Proof.
  intros S. induction 1 as [|t r T _ IH]; [constructor|]. destruct r as [|x r]; [exact T|].
  change (join sep (t :: x :: r)) with (t ++ sep ++ join sep (x :: r)). repeat (apply Forall_app; split; auto).
Qed.
Lemma block_plain o c i d l : (o < 128)%N -> o <> 13%N -> (c < 128)%N -> c <> 13%N -> Forall (Forall plain) l -> Forall plain (block o c i d l).
Proof.
  intros O O' C C' L. unfold block, NEWLINE. repeat (apply Forall_app; split); auto using spaces_plain.
  - repeat constructor; unfold scalar; lia.
  - apply join_plain; [|exact L]. repeat constructor; unfold scalar; lia.
  - repeat constructor; unfold scalar; lia.
  - constructor; [now apply ascii_plain|constructor].
Qed.
Lemma repr_from_plain d : forall i k, proper d -> Forall plain (repr_from printable d i k).
Proof.
  assert (L : forall l i k, Forall (fun d => forall i k, proper d -> Forall plain (repr_from printable d i k)) l ->
    fold_right (fun x P => proper x /\ P) True l ->
    Forall (Forall plain) (map (fun x => spaces i k ++ repr_from printable x i k) l)).
  { intros l i k. induction 1 as [|x l X _ IH]; cbn [fold_right map]; [constructor|]. intros [A B].
    constructor; [|now apply IH]. apply Forall_app. split; [apply spaces_plain|now apply X]. }
  induction d as [s|z|l IH|l IH|l IH|l IH] using data_ind'; intros i k P; cbn [proper] in P.
  - now apply repr_str_plain.
  - apply repr_int_plain.
  - destruct l as [|x [|y l]]; [repeat constructor; unfold scalar; cbn; lia| |].
    + inversion IH as [|? ? X _]; subst. destruct P as [P _]. cbn [repr_from]. repeat (apply Forall_app; split); auto; repeat constructor; unfold scalar; cbn; lia.
    + apply block_plain; try lia. now apply L.
  - destruct l as [|x l]; [repeat constructor; unfold scalar; cbn; lia|]. apply block_plain; try lia. now apply L.
  - destruct l as [|x l]; [repeat constructor; unfold scalar; cbn; lia|].
    change (Forall plain (block 123 125 i k (sorted str_leb
           (map (fun kv => spaces i (k + 1) ++ repr_from printable (fst kv) i (k + 1)
                           ++ $": " ++ repr_from printable (snd kv) i (k + 1)) (x :: l))))).
    apply block_plain; try lia. eapply Permutation_Forall; [apply sorted_perm|].
    destruct P as [P _]. revert IH P. generalize (x :: l). clear x l. intros l. induction 1 as [|x l [X Y] _ IH]; cbn [fold_right map]; [constructor|].
    intros [[A B] C]. constructor; [|now apply IH]. repeat (apply Forall_app; split); auto using spaces_plain. repeat constructor; unfold scalar; cbn; lia.
  - destruct l as [|x l]; [repeat constructor; unfold scalar; cbn; lia|]. apply block_plain; try lia. now apply L.
Qed.
Lemma file_text_plain values : Forall (fun nv => Forall (fun c => (c < 128)%N) (fst nv) /\ is_identifier (fst nv) = true /\ proper (snd nv)) values ->
  Forall plain (file_text printable values).
Proof.
  intros H. unfold file_text. apply Forall_flat_map. eapply Forall_impl; [|exact H]. clear H values. intros [n d] (A & I & P). cbn [fst snd] in *.
  repeat (apply Forall_app; split); auto using repr_from_plain.
  - assert (C : forallb is_ident_char n = true).
    { destruct n as [|c r]; [discriminate|]. cbn [is_identifier forallb] in *. apply andb_true_iff in I as [I J]. unfold is_ident_char at 1. now rewrite I, J. }
    rewrite forallb_forall in C. rewrite Forall_forall in A |- *. intros c Hc. apply ascii_plain; [now apply A|]. intros ->.
    apply C in Hc. discriminate Hc.
  - repeat constructor; unfold scalar; cbn; lia.
  - repeat constructor; unfold scalar, NEWLINE; cbn; lia.
Qed.
End Texts.
Lemma file_text_starts printable values : Forall (fun nv => Forall (fun c => (c < 128)%N) (fst nv) /\ is_identifier (fst nv) = true /\ proper (snd nv)) values ->
  file_text printable values = [] \/ exists c r, file_text printable values = c :: r /\ (c < 128)%N /\ c <> 10%N.
Proof.
  intros [|[n d] r (A & I & _) _]; [now left|]. right. cbn [fst] in *. destruct n as [|c n]; [discriminate|]. exists c. eexists. split; [reflexivity|].
  inversion A; subst. split; [assumption|]. intros ->. discriminate I.
Qed.

(** ** Files *)
Lemma skip_mark_ascii b r : (b < 128)%N -> skip_mark (b :: r) = b :: r.
Proof. intros B. destruct r as [|b1 [|b2 r]]; [reflexivity..|]. cbn [skip_mark]. now replace (b =? 239)%N with false by lia. Qed.
Lemma encoded_starts c text b : encoded (c :: text) b -> (c < 128)%N -> exists r, b = c :: r.
Proof. intros H C. inversion H as [|? u ? ? U _]; subst. inversion U; subst; [eexists; reflexivity| | |]; exfalso; try (subst v); lia. Qed.
Lemma expand_scalar ls text : separator ls -> Forall plain text -> Forall scalar (expand ls text).
Proof.
  intros S P. unfold expand. apply Forall_flat_map. eapply Forall_impl; [|exact P]. intros c [C _]. cbn.
  destruct (c =? 10)%N; [|constructor; [exact C|constructor]]. destruct S as [-> | ->]; repeat constructor; unfold scalar; lia.
Qed.
(** What is written is read, and what was written before a stop is read as less text. *)
Lemma written_read ls text b : separator ls -> Forall plain text -> (text = [] \/ exists c r, text = c :: r /\ (c < 128)%N /\ c <> 10%N) ->
  encoded (expand ls text) b ->
  read_source b = Some text /\ forall p more t, p ++ more = b -> read_source p = Some t -> exists t', text = t ++ t'.
Proof.
  intros S P St E. assert (R : ~ In 13%N text) by (rewrite Forall_forall in P; intros X; now apply P in X as [_ X]).
  assert (M : forall p more, p ++ more = b -> skip_mark p = p).
  { intros p more X. destruct p as [|b0 p]; [reflexivity|]. destruct St as [-> | (c & r & -> & C & C')].
    - inversion E; subst. discriminate.
    - unfold expand in E. cbn [flat_map] in E. destruct (N.eqb_spec c 10) as [|_]; [contradiction|]. cbn [app] in E.
      destruct (encoded_starts _ _ _ E C) as [r' ->]. injection X as -> _. now apply skip_mark_ascii. }
  split.
  - unfold read_source. rewrite (M b []) by apply app_nil_r. rewrite (decode_encoded _ _ E). cbn [option_map]. now rewrite universal_expand.
  - intros p more t X D. unfold read_source in D. rewrite (M p more X) in D. destruct (decode p) as [t0|] eqn:D0; [|discriminate]. injection D as <-.
    destruct (decode_prefix _ _ E p more t0 X D0) as [t' Q]. eapply universal_prefix; eauto.
Qed.

(** ** Sources *)
Lemma mark_bytes u : utf8 65279 u -> u = [239; 187; 191]%N.
Proof.
  intros H. remember 65279%N as m eqn:M. destruct H as [c H|a b H1 H2 H3|a b c H1 H2 H3 v H4 H5|a b c d H1 H2 H3 H4 v H5]; try (subst v); try lia.
  assert (a = 15 /\ b = 59 /\ c = 63)%N as (-> & -> & ->) by lia. reflexivity.
Qed.
Lemma skip_mark_cases b : (exists r, b = 239%N :: 187%N :: 191%N :: r /\ skip_mark b = r)
  \/ skip_mark b = b /\ forall r, b <> 239%N :: 187%N :: 191%N :: r.
Proof.
  destruct b as [|b0 [|b1 [|b2 r]]]; [now right|now right|now right|]. cbn [skip_mark].
  destruct (N.eqb_spec b0 239) as [->|N0], (N.eqb_spec b1 187) as [->|N1], (N.eqb_spec b2 191) as [->|N2]; cbn [andb];
    [left; now exists r|right; split; [reflexivity|congruence]..].
Qed.
Lemma decoded_mark r : decode (239%N :: 187%N :: 191%N :: r) = option_map (cons 65279%N) (decode r).
Proof. reflexivity. Qed.
Lemma unmarked_source b : Forall (fun x => (x < 256)%N) b -> (forall r, b <> 239%N :: 187%N :: 191%N :: r) ->
  forall t, option_map universal (decode b) = Some t <-> source_text b t.
Proof.
  intros B M t. split.
  - destruct (decode b) as [t0|] eqn:D; [|discriminate]. intros X. injection X as <-. apply plain_source with t0.
    + intros c r -> ->. pose proof (decode_sound _ b _ (le_n _) B D) as E. inversion E as [|? u ? b' U _]; subst.
      apply mark_bytes in U as ->. now apply (M b').
    + eapply decode_sound; eauto.
    + now apply (universal_same_lines (length t0)).
  - intros H. inversion H as [? t0 ? N E L|? t0 ? E L]; subst; [|now destruct (M bytes)].
    rewrite (decode_encoded _ _ E). cbn. now rewrite (same_lines_unique _ _ L).
Qed.
Lemma read_source_spec b : Forall (fun x => (x < 256)%N) b -> forall t, read_source b = Some t <-> source_text b t.
Proof.
  intros B t. unfold read_source. destruct (skip_mark_cases b) as [(r & -> & ->)|[-> M]]; [|now apply unmarked_source].
  assert (Br : Forall (fun x => (x < 256)%N) r) by (now repeat match goal with H : Forall _ (_ :: _) |- _ => inversion H; clear H; subst end).
  split.
  - destruct (decode r) as [t0|] eqn:D; [|discriminate]. intros X. injection X as <-. apply marked_source with t0.
    + eapply decode_sound; eauto.
    + now apply (universal_same_lines (length t0)).
  - intros H. inversion H as [? t0 ? N E L|? t0 ? E L]; subst.
    + exfalso. apply decode_encoded in E. rewrite decoded_mark in E. destruct (decode r) as [t1|]; [|discriminate]. injection E as <-. now apply (N 65279%N t1).
    + rewrite (decode_encoded _ _ E). cbn. now rewrite (same_lines_unique _ _ L).
Qed.

(** One byte for a character *)
Lemma decode_by_ascii table b : (forall x, (x < 128)%N -> table x = Some x) -> Forall (fun x => (x < 128)%N) b ->
  decode_by table b = Some b /\ decode b = Some b.
Proof.
  intros T. induction 1 as [|x b X _ [IH1 IH2]]; [easy|]. cbn [decode_by decode]. rewrite (T x X), IH1, IH2.
  replace (x <? 128)%N with true by lia. easy.
Qed.
Definition longer (t u : pystr) : Prop := length (universal t) < length (universal u).
Lemma utf8_high c u : utf8 c u -> (128 <= c)%N -> Forall (fun x => (128 <= x)%N) u /\ 2 <= length u.
Proof. intros H C. inversion H; subst; try (subst v); try lia; (split; [|cbn; lia]); repeat constructor; lia. Qed.
Lemma decode_by_app table a b t : decode_by table (a ++ b) = Some t ->
  exists t1 t2, decode_by table a = Some t1 /\ decode_by table b = Some t2 /\ t = t1 ++ t2.
Proof.
  revert t. induction a as [|x a IH]; intros t H; cbn [app decode_by] in *; [exists [], t; auto|].
  destruct (table x) as [c|]; [|discriminate]. destruct (decode_by table (a ++ b)) as [t0|]; [|discriminate]. injection H as <-.
  destruct (IH t0 eq_refl) as (t1 & t2 & -> & -> & ->). exists (c :: t1), t2. auto.
Qed.
Lemma universal_high a t : Forall (fun x => (128 <= x)%N) a -> universal (a ++ t) = a ++ universal t.
Proof. induction 1 as [|x a X _ IH]; [reflexivity|]. cbn [app universal]. replace (x =? 13)%N with false by lia. now rewrite IH. Qed.
Lemma decode_by_high table a t : (forall x c, (128 <= x)%N -> table x = Some c -> (128 <= c)%N) -> Forall (fun x => (128 <= x)%N) a ->
  decode_by table a = Some t -> Forall (fun x => (128 <= x)%N) t /\ length t = length a.
Proof.
  intros T F. revert t. induction F as [|x a X _ IH]; intros t H; cbn [decode_by] in H; [injection H as <-; auto|].
  destruct (table x) as [c|] eqn:Tx; [|discriminate]. destruct (decode_by table a) as [t0|]; [|discriminate]. injection H as <-.
  destruct (IH t0 eq_refl) as [A B]. split; [constructor; eauto|cbn; lia].
Qed.
Lemma charmap_longer table : (forall x, (x < 128)%N -> table x = Some x) -> (forall x c, (128 <= x)%N -> table x = Some c -> (128 <= c)%N) ->
  forall n text b t, length text <= n -> encoded text b -> decode_by table b = Some t ->
    length (universal text) <= length (universal t) /\ ((exists c, In c text /\ (128 <= c)%N) -> longer text t).
Proof.
  intros T1 T2. unfold longer. induction n as [|n IH]; intros text b t L E D.
  - destruct text; [|cbn in L; lia]. inversion E; subst. injection D as <-. split; [lia|]. now intros (c & [] & _).
  - inversion E as [|c u text' b' U E']; subst; [injection D as <-; split; [lia|]; now intros (c & [] & _)|]. cbn [length] in L.
    destruct (N.ltb_spec c 128) as [C|C].
    + assert (u = [c]) as -> by (inversion U; subst; try (subst v); try lia; reflexivity).
      cbn [app decode_by] in D. rewrite (T1 c C) in D. destruct (decode_by table b') as [t'|] eqn:D'; [|discriminate]. injection D as <-.
      cbn [universal]. destruct (N.eqb_spec c 13) as [->|N].
      * inversion E' as [|d u2 text2 b2 U2 E2]; subst.
        -- injection D' as <-. split; [lia|]. intros (c & [<-|[]] & X). lia.
        -- destruct (N.ltb_spec d 128) as [Dd|Dd].
           ++ assert (u2 = [d]) as -> by (inversion U2; subst; try (subst v); try lia; reflexivity).
              cbn [app decode_by] in D'. rewrite (T1 d Dd) in D'. destruct (decode_by table b2) as [t2|] eqn:D2; [|discriminate]. injection D' as <-.
              destruct (N.eqb_spec d 10) as [->|Nd].
              ** destruct (IH text2 b2 t2 ltac:(cbn in L; lia) E2 D2) as [A B]. cbn [length]. split; [lia|].
                 intros (x & [<-|[<-|X]] & Hx); try lia. assert (length (universal text2) < length (universal t2)) by (apply B; eauto). lia.
              ** destruct (IH (d :: text2) ([d] ++ b2) (d :: t2) ltac:(cbn in *; lia) ltac:(now constructor)) as [A B].
                 { cbn [app decode_by]. now rewrite (T1 d Dd), D2. }
                 cbn [length]. split; [lia|]. intros (x & [<-|X] & Hx); [lia|].
                 assert (length (universal (d :: text2)) < length (universal (d :: t2))) by (apply B; eauto). lia.
           ++ destruct (IH (d :: text2) (u2 ++ b2) t' ltac:(cbn in *; lia) ltac:(now constructor) D') as [A B].
              assert (S : length (universal (d :: text2)) < length (universal t')) by (apply B; exists d; split; [now left|exact Dd]).
              destruct (decode_by_app _ _ _ _ D') as (t1 & t2 & X1 & X2 & ->).
              destruct (utf8_high d u2 U2 Dd) as [Hh Hl]. destruct (decode_by_high table u2 t1 T2 Hh X1) as [Y1 Y2].
              destruct t1 as [|y t1]; [cbn in Y2; lia|]. inversion Y1; subst. cbn [app].
              replace (d =? 10)%N with false by lia. replace (y =? 10)%N with false by lia. cbn [app] in S. cbn [length]. split; [lia|]. intros _. lia.
      * destruct (IH text' b' t' ltac:(lia) E' D') as [A B]. cbn [length]. split; [lia|]. intros (x & [<-|X] & Hx); [lia|].
        assert (length (universal text') < length (universal t')) by (apply B; eauto). lia.
    + destruct (utf8_high c u U C) as [Hh Hl]. destruct (decode_by_app _ _ _ _ D) as (t1 & t2 & X1 & X2 & ->).
      destruct (decode_by_high table u t1 T2 Hh X1) as [Y1 Y2]. rewrite (universal_high t1 t2 Y1), app_length.
      destruct (IH text' b' t2 ltac:(lia) E' X2) as [A _]. cbn [universal]. replace (c =? 13)%N with false by lia. cbn [length]. split; [lia|]. intros _. lia.
Qed.
