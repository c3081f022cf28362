(** Texts of plain annotations read back. *)
From Verif Require Import Base PyText PyNumbers PyExpr PyExprProofs Ast LazyText SpecLazyText.
Set Implicit Arguments.

(** *** First characters *)
Definition opens (c : N) : bool := is_ident_char c || (c == 40%N) || (c == 91%N) || (c == 43%N) || (c == 45%N).
Definition opening (t : pystr) : Prop := exists c r, t = c :: r /\ opens c = true.
Lemma opening_app t s : opening t -> opening (t ++ s).
Proof. intros (c & r & -> & H). exists c, (r ++ s). auto. Qed.
Lemma opens_not c : opens c = true -> is_space c = false /\ c <> 41%N /\ c <> 93%N /\ c <> 44%N.
Proof.
  intros H. split; [|repeat split; intros ->; discriminate H].
  destruct (is_space c) eqn:E; [|reflexivity]. destruct (space_cases _ E) as [->|[->| ->]]; discriminate H.
Qed.
Lemma opening_skip t s : opening t -> skip (t ++ s) = t ++ s.
Proof. intros (c & r & -> & H). apply skip_nothing. cbn. apply opens_not in H. destruct H as [-> _]. reflexivity. Qed.
Lemma blank_skip w t s : blank w -> opening t -> skip (w ++ t ++ s) = t ++ s.
Proof. intros Hw (c & r & -> & H). apply skip_blank; [exact Hw|]. cbn. apply opens_not in H. destruct H as [-> _]. reflexivity. Qed.

Lemma operator_char l : fst (operator_at l) = 124%N \/ fst (operator_at l) = 94%N \/ fst (operator_at l) = 38%N.
Proof. destruct l as [|[|l]]; cbn; auto. Qed.

(** *** What may follow *)
Definition quiet (lvl : nat) (rest : pystr) : Prop :=
  head_ok ends rest = true
  /\ match skip rest with c :: _ => forall k, lvl < k -> k < 3 -> c <> fst (operator_at k) | [] => True end.
Lemma quiet_more lvl rest : quiet lvl rest -> quiet (S lvl) rest.
Proof. intros [A B]. split; [exact A|]. destruct (skip rest); [exact I|]. intros k Hk. apply B. lia. Qed.
Lemma quiet_nil lvl : quiet lvl [].
Proof. now split. Qed.
Lemma quiet_char lvl c r : c = 41%N \/ c = 93%N \/ c = 44%N -> quiet lvl (c :: r).
Proof.
  intros H. assert (S : skip (c :: r) = c :: r) by (apply skip_nothing; destruct H as [->|[->| ->]]; reflexivity).
  split; [destruct H as [->|[->| ->]]; reflexivity|]. rewrite S. intros k _ _.
  destruct (operator_char k) as [->|[->| ->]]; destruct H as [->|[->| ->]]; discriminate.
Qed.
Lemma trailers_done e rest : head_ok ends rest = true -> ev (fun m => trailers m e rest = Some (e, rest)).
Proof.
  intros H. exists 1. intros [|m] Hm; [lia|]. cbn [trailers]. destruct rest as [|c r]; [reflexivity|]. cbn in H.
  unfold ends in H. rewrite negb_true_iff, !orb_false_iff in H. destruct H as [[[_ ->] ->] ->]. reflexivity.
Qed.
Lemma operands_done lvl e rest : quiet lvl rest -> lvl < 2 -> ev (fun m => operands m (S lvl) e rest = Some (e, rest)).
Proof.
  intros [_ H] Hl. exists 1. intros [|m] Hm; [lia|]. cbn [operands]. destruct (skip rest) as [|c r]; [reflexivity|].
  specialize (H (S lvl) ltac:(lia) ltac:(lia)). apply eqb_neq in H. now rewrite H.
Qed.
Lemma descend lvl e t rest x : lvl <= 2 ->
  ev (fun m => tree m (S lvl) (t ++ rest) = Some (e, rest)) -> ev (fun m => operands m lvl e rest = x) ->
  ev (fun m => tree m lvl (t ++ rest) = x).
Proof.
  intros Hl A B. eapply ev_step2; [exact A|exact B|]. cbv beta. intros m HA HB.
  destruct lvl as [|[|[|lvl]]]; [| | |lia]; cbn [tree]; now rewrite HA.
Qed.

(** *** The claims for one expression and its text *)
Record reads_well (e : expr) (t : pystr) : Prop := mk_reads_well {
  rw_opening : opening t;
  rw_start : level_of e = 4 -> forall c r, t = c :: r -> c <> 43%N /\ c <> 45%N;
  rw_atom : level_of e = 4 -> forall rest x, head_ok breaks rest = true ->
    ev (fun m => trailers m e rest = x) -> ev (fun m => tree m 4 (t ++ rest) = x);
  rw_unary : 3 <= level_of e -> forall rest, head_ok ends rest = true -> ev (fun m => tree m 3 (t ++ rest) = Some (e, rest));
  rw_level : forall lvl rest x, lvl <= level_of e -> lvl <= 2 -> quiet lvl rest ->
    ev (fun m => operands m lvl e rest = x) -> ev (fun m => tree m lvl (t ++ rest) = x)
}.
(** The levels below that of unary operators *)
Lemma from_unary e t : (forall rest, head_ok ends rest = true -> ev (fun m => tree m 3 (t ++ rest) = Some (e, rest))) ->
  forall lvl rest x, lvl <= 2 -> quiet lvl rest ->
    ev (fun m => operands m lvl e rest = x) -> ev (fun m => tree m lvl (t ++ rest) = x).
Proof.
  intros H lvl rest x Hl Hq Hx.
  assert (H2 : quiet 2 rest -> forall x, ev (fun m => operands m 2 e rest = x) -> ev (fun m => tree m 2 (t ++ rest) = x)).
  { intros [Hq2 _] y Hy. apply descend with (e := e); [lia|now apply H|exact Hy]. }
  assert (H1 : quiet 1 rest -> forall x, ev (fun m => operands m 1 e rest = x) -> ev (fun m => tree m 1 (t ++ rest) = x)).
  { intros Hq1 y Hy. apply descend with (e := e); [lia| |exact Hy]. apply H2; [now apply quiet_more|]. apply operands_done; [exact Hq1|lia]. }
  destruct lvl as [|[|[|lvl]]]; [|now apply H1|now apply H2|lia].
  apply descend with (e := e); [lia| |exact Hx]. apply H1; [now apply quiet_more|]. apply operands_done; [exact Hq|lia].
Qed.
(** An atom *)
Lemma from_atom e t : opening t -> (forall c r, t = c :: r -> c <> 43%N /\ c <> 45%N) -> level_of e = 4 ->
  (forall rest x, head_ok breaks rest = true -> ev (fun m => trailers m e rest = x) -> ev (fun m => tree m 4 (t ++ rest) = x)) ->
  reads_well e t.
Proof.
  intros O N L A.
  assert (U : forall rest, head_ok ends rest = true -> ev (fun m => tree m 3 (t ++ rest) = Some (e, rest))).
  { intros rest Hr. eapply ev_step; [apply (A rest (Some (e, rest))); [now apply ends_breaks|now apply trailers_done]|].
    cbv beta. intros m Hm. destruct O as (c & r & -> & _). destruct (N c r eq_refl) as [N1 N2]. cbn [tree app].
    apply eqb_neq in N1, N2. rewrite N1, N2. exact Hm. }
  split; auto. intros lvl rest x _. now apply from_unary.
Qed.
Lemma whole e t rest : reads_well e t -> quiet 0 rest -> ev (fun m => operands m 0 e rest = Some (e, rest)) ->
  ev (fun m => tree m 0 (t ++ rest) = Some (e, rest)).
Proof. intros R Q O. apply (rw_level R); [lia|lia|exact Q|exact O]. Qed.
Lemma operands_stop e rest : (match skip rest with c :: _ => c <> 124%N | [] => True end) -> ev (fun m => operands m 0 e rest = Some (e, rest)).
Proof.
  intros H. exists 1. intros [|m] Hm; [lia|]. cbn [operands operator_at fst]. destruct (skip rest) as [|c r]; [reflexivity|].
  apply eqb_neq in H. now rewrite H.
Qed.
Lemma before_close e t c r : reads_well e t -> c = 41%N \/ c = 93%N \/ c = 44%N -> ev (fun m => tree m 0 (t ++ c :: r) = Some (e, c :: r)).
Proof.
  intros R H. apply whole; [exact R|now apply quiet_char|]. apply operands_stop.
  rewrite skip_nothing by (destruct H as [->|[->| ->]]; reflexivity). destruct H as [->|[->| ->]]; discriminate.
Qed.

(** *** Elements *)
Lemma elements close es ts : close = 41%N \/ close = 93%N -> Forall2 reads_well es ts ->
  forall w rest, blank w -> exists comma, (length es <= 1 -> comma = false) /\ (2 <= length es -> comma = true)
    /\ ev (fun m => trees m close (w ++ join $", " ts ++ close :: rest) = Some ((es, comma), rest)).
Proof.
  intros HC. assert (HC' : forall c, c = close -> is_space c = false /\ c <> 44%N) by (intros c ->; destruct HC as [->| ->]; split; (reflexivity || discriminate)).
  induction 1 as [|e t es ts R F IH]; intros w rest Hw.
  - exists false. split; [reflexivity|]. split; [cbn; lia|]. exists 1. intros [|m] Hm; [lia|]. cbn [trees join app].
    rewrite skip_blank; [now rewrite eqb_refl|exact Hw|]. cbn. destruct (HC' close eq_refl) as [-> _]. reflexivity.
  - destruct ts as [|t2 ts].
    + inversion F; subst. exists false. split; [reflexivity|]. split; [cbn; lia|]. cbn [join].
      eapply ev_step; [apply (@before_close e t close rest R); tauto|]. cbv beta. intros m Hm. cbn [trees].
      rewrite blank_skip by (exact Hw || apply R). destruct (rw_opening R) as (c & r & -> & Hc). cbn [app] in *.
      destruct (opens_not _ Hc) as (_ & N1 & N2 & _). assert (E : (c == close) = false) by (apply eqb_neq; destruct HC as [->| ->]; assumption).
      rewrite E, Hm. rewrite skip_nothing by (cbn; destruct (HC' close eq_refl) as [-> _]; reflexivity). now rewrite eqb_refl.
    + destruct es as [|e2 es]; [inversion F|].
      destruct (IH [32%N] rest eq_refl) as (comma & _ & _ & HI). exists true. split; [cbn; lia|]. split; [reflexivity|].
      change (join $", " (t :: t2 :: ts)) with (t ++ $", " ++ join $", " (t2 :: ts)). rewrite <- !app_assoc.
      change ($", " ++ join $", " (t2 :: ts) ++ close :: rest) with (44%N :: [32%N] ++ join $", " (t2 :: ts) ++ close :: rest).
      eapply ev_step2; [apply (@before_close e t 44%N ([32%N] ++ join $", " (t2 :: ts) ++ close :: rest) R); tauto|exact HI|].
      cbv beta. intros m Hm HI'. cbn [trees]. rewrite blank_skip by (exact Hw || apply R).
      destruct (rw_opening R) as (c & r & -> & Hc). cbn [app] in *.
      destruct (opens_not _ Hc) as (_ & N1 & N2 & _). assert (E : (c == close) = false) by (apply eqb_neq; destruct HC as [->| ->]; assumption).
      rewrite E, Hm. rewrite skip_nothing by reflexivity. assert (E4 : (44%N == close) = false) by (destruct HC as [->| ->]; reflexivity).
      rewrite E4, eqb_refl. now rewrite HI'.
Qed.

(** *** Words and numbers *)
Lemma word_name n : name_ok n -> word n = Some (Name n).
Proof.
  intros [_ H]. unfold word.
  assert (N : forall k, In k keyword_names -> (n == k) = false) by (intros k Hk; apply eqb_neq; intros ->; contradiction).
  rewrite !N by (cbn; tauto). apply mem_not_In in H. now rewrite H.
Qed.
Lemma atom_word n e rest x : is_identifier n = true -> word n = Some e -> head_ok breaks rest = true ->
  ev (fun m => trailers m e rest = x) -> ev (fun m => tree m 4 (n ++ rest) = x).
Proof.
  intros Hi Hw Hr Hx. eapply ev_step; [exact Hx|]. cbv beta. intros m Hm.
  assert (S : span is_ident_char (n ++ rest) = (n, rest)).
  { apply span_app; [now apply identifier_chars|now apply breaks_no_ident]. }
  destruct n as [|c r]; [discriminate|]. cbn [is_identifier] in Hi. apply andb_true_iff in Hi. destruct Hi as [Hc _].
  destruct (letter_facts _ Hc) as (Q & D & _). cbn [tree]. cbn [app] in *. rewrite Q, D, Hc, S. cbn [fst snd]. rewrite Hw. exact Hm.
Qed.
Lemma identifier_opening n : is_identifier n = true -> opening n /\ forall c r, n = c :: r -> c <> 43%N /\ c <> 45%N.
Proof.
  destruct n as [|c r]; [discriminate|]. intros H. cbn in H. apply andb_true_iff in H. destruct H as [H _]. split.
  - exists c, r. split; [reflexivity|]. unfold opens, is_ident_char. now rewrite H.
  - intros c' r' [= <- <-]. split; intros ->; discriminate H.
Qed.
Lemma read_well_word n e : is_identifier n = true -> word n = Some e -> level_of e = 4 -> reads_well e n.
Proof.
  intros Hi Hw Hl. destruct (identifier_opening _ Hi). apply from_atom; auto. intros rest x. now apply atom_word.
Qed.
Lemma read_well_integer z : (0 <= z)%Z -> reads_well (Constant (CInt z)) (repr_int z).
Proof.
  intros Hz. set (n := Z.to_N z). assert (E : repr_int z = repr_N n) by (destruct z; [reflexivity|reflexivity|lia]).
  assert (Ez : Z.of_N n = z) by (apply Z2N.id; exact Hz). rewrite E.
  pose proof (repr_N_digits n) as D. pose proof (repr_N_nonempty n) as Hn.
  assert (Hc : forall c r, repr_N n = c :: r -> is_digit c = true).
  { intros c r Er. rewrite Er in D. cbn in D. now apply andb_true_iff in D. }
  apply from_atom; [| |reflexivity|].
  - destruct (repr_N n) as [|c r] eqn:Er; [congruence|]. exists c, r. split; [reflexivity|].
    unfold opens, is_ident_char. rewrite (Hc c r eq_refl). now rewrite orb_true_r.
  - intros c r Er. apply Hc in Er. split; intros ->; discriminate Er.
  - intros rest x Hr Hx. eapply ev_step; [exact Hx|]. cbv beta. intros m Hm.
    assert (S : span is_digit (repr_N n ++ rest) = (repr_N n, rest)).
    { apply span_app; [exact D|]. pose proof (breaks_not_digit is_digit rest Hr) as Hr'. destruct rest; [reflexivity|exact Hr']. }
    assert (N : number (repr_N n ++ rest) = Some (Constant (CInt z), rest)).
    { unfold number. rewrite S. cbn [fst snd]. rewrite repr_N_value, Ez.
      assert (L : is_nil (repr_N n) || leading_zero (repr_N n) = false).
      { destruct (repr_N n) as [|c [|d r]] eqn:Er; [congruence|reflexivity|]. cbn [is_nil leading_zero orb].
        apply uint_no_leading_zero in Er. now apply eqb_neq in Er. }
      rewrite L. apply breaks_no_ident in Hr. destruct rest as [|c r]; [reflexivity|]. apply negb_true_iff in Hr. now rewrite Hr. }
    destruct (repr_N n) as [|c r] eqn:Er; [congruence|]. cbn [tree app] in *.
    rewrite (digit_not_quote _ (Hc c r eq_refl)), (Hc c r eq_refl), N. exact Hm.
Qed.

(** *** Brackets *)
Lemma atom_parentheses es comma inner rest x :
  ev (fun m => trees m 41 (inner ++ 41%N :: rest) = Some ((es, comma), rest)) ->
  ev (fun m => trailers m (in_parentheses es comma) rest = x) ->
  ev (fun m => tree m 4 (40%N :: inner ++ 41%N :: rest) = x).
Proof. intros A B. eapply ev_step2; [exact A|exact B|]. cbv beta. intros m HA HB. cbn [tree]. cbn. rewrite HA. exact HB. Qed.
Lemma atom_brackets es comma inner rest x :
  ev (fun m => trees m 93 (inner ++ 93%N :: rest) = Some ((es, comma), rest)) ->
  ev (fun m => trailers m (List es) rest = x) ->
  ev (fun m => tree m 4 (91%N :: inner ++ 93%N :: rest) = x).
Proof. intros A B. eapply ev_step2; [exact A|exact B|]. cbv beta. intros m HA HB. cbn [tree]. cbn. rewrite HA. exact HB. Qed.

Lemma level_plain l op r : op <> OtherOperator ->
  exists o, operator_str op = Ok [o] /\ level_of (BinOp l op r) <= 2 /\ operator_at (level_of (BinOp l op r)) = (o, op).
Proof. destruct op; intros H; [exists 38%N|exists 124%N|exists 94%N|congruence]; cbn; auto. Qed.

Lemma head_app c0 d0 (t s : pystr) : opening t -> (forall c r, t = c :: r -> c <> c0 /\ c <> d0) -> forall c r, t ++ s = c :: r -> c <> c0 /\ c <> d0.
Proof. intros (a & b & -> & _) H c r [= <- _]. exact (H a b eq_refl). Qed.

Lemma to_strs_read es : Forall (fun e => plain e -> exists t, to_str e = Ok t /\ reads_well e t) es -> Forall plain es ->
  exists ts, map_m to_str es = Ok ts /\ Forall2 reads_well es ts.
Proof.
  induction 1 as [|e es H _ IH]; intros P; [exists []; split; [reflexivity|constructor]|].
  inversion P; subst. destruct H as (t & E & R); [assumption|]. destruct IH as (ts & Es & Rs); [assumption|].
  exists (t :: ts). cbn. rewrite E. cbn. rewrite Es. split; [reflexivity|now constructor].
Qed.
Lemma one_element close e t rest : close = 41%N \/ close = 93%N -> reads_well e t ->
  ev (fun m => trees m close (t ++ 44%N :: close :: rest) = Some (([e], true), rest)).
Proof.
  intros HC R. assert (HS : is_space close = false) by (destruct HC as [->| ->]; reflexivity).
  assert (Z : ev (fun m => trees m close (close :: rest) = Some (([], false), rest))).
  { exists 1. intros [|m] Hm; [lia|]. cbn [trees]. rewrite skip_nothing by (cbn; now rewrite HS). now rewrite eqb_refl. }
  eapply ev_step2; [apply (@before_close e t 44%N (close :: rest) R); tauto|exact Z|].
  cbv beta. intros m Hm HZ. cbn [trees]. rewrite opening_skip by apply R.
  destruct (rw_opening R) as (c & r & -> & Hc). cbn [app] in *. destruct (opens_not _ Hc) as (_ & N1 & N2 & _).
  assert (E : (c == close) = false) by (apply eqb_neq; destruct HC as [->| ->]; assumption).
  rewrite E, Hm. rewrite skip_nothing by reflexivity. assert (E4 : (44%N == close) = false) by (destruct HC as [->| ->]; reflexivity).
  rewrite E4, eqb_refl. now rewrite HZ.
Qed.

Lemma to_str_reads e : plain e -> exists t, to_str e = Ok t /\ reads_well e t.
Proof.
  induction e as [id|v a IHv|v s IHv IHs|es IH|es IH|items _|f es ks _ _ _|l op r IHl IHr|op e IH|c|es _] using expr_ind'; intros P; inversion P; subst.
  - exists id. split; [reflexivity|]. apply read_well_word; [apply H0|now apply word_name|reflexivity].
  - destruct IHv as (t & E & R); [assumption|]. exists (t ++ $"." ++ a). cbn [to_str]. rewrite E. split; [reflexivity|].
    match goal with H : name_ok a |- _ => destruct H as [Ha Hk] end.
    apply from_atom; [apply opening_app, R|apply head_app; [apply R|now apply R]|reflexivity|].
    intros rest x Hr Hx. rewrite <- app_assoc. apply (rw_atom R); [assumption|reflexivity|].
    change (($"." ++ a) ++ rest) with (46%N :: a ++ rest).
    eapply ev_step; [exact Hx|]. cbv beta. intros m Hm. cbn [trailers]. rewrite eqb_refl.
    rewrite span_app; [|now apply identifier_chars|now apply breaks_no_ident]. cbn [fst snd].
    apply mem_not_In in Hk. rewrite Ha, Hk.
    match goal with H : is_integer v = false |- _ => rewrite H end. exact Hm.
  - destruct IHv as (t & E & R); [assumption|]. destruct IHs as (ts & Es & Rs); [assumption|].
    exists (t ++ $"[" ++ ts ++ $"]"). cbn [to_str]. rewrite E. cbn [bind_res]. rewrite Es. split; [reflexivity|].
    apply from_atom; [apply opening_app, R|apply head_app; [apply R|now apply R]|reflexivity|].
    intros rest x Hr Hx. rewrite <- app_assoc. apply (rw_atom R); [assumption|reflexivity|].
    replace (($"[" ++ ts ++ $"]") ++ rest) with (91%N :: ts ++ 93%N :: rest) by (cbn; now rewrite <- app_assoc).
    destruct (@elements 93%N [s] [ts]) with (w := @nil N) (rest := rest) as (comma & C & _ & HT); [now right|constructor; [exact Rs|constructor]|reflexivity|].
    rewrite (C (le_n _)) in HT. cbn [join app] in HT.
    eapply ev_step2; [exact HT|exact Hx|]. cbv beta. intros m HA HB. cbn [trailers]. cbn. rewrite HA. exact HB.
  - destruct (to_strs_read IH) as (ts & E & F); [assumption|]. cbn [to_str]. rewrite E.
    assert (G : exists inner comma, match ts with [x] => $"(" ++ x ++ $",)" | _ => $"(" ++ join $", " ts ++ $")" end = 40%N :: inner ++ [41%N]
              /\ in_parentheses es comma = Tuple es
              /\ forall rest, ev (fun m => trees m 41 (inner ++ 41%N :: rest) = Some ((es, comma), rest))).
    { destruct F as [|e t es ts R F].
      - exists [], false. repeat split. intros rest. destruct (@elements 41%N [] [] (or_introl eq_refl) (Forall2_nil _) [] rest eq_refl) as (c & C & _ & HT).
        rewrite (C ltac:(cbn; lia)) in HT. exact HT.
      - destruct F as [|e2 t2 es ts R2 F].
        + exists (t ++ [44%N]), true. split; [cbn; now rewrite <- app_assoc|]. split; [reflexivity|]. intros rest.
          rewrite <- app_assoc. apply one_element; [now left|exact R].
        + exists (join $", " (t :: t2 :: ts)), true. repeat split. intros rest.
          destruct (@elements 41%N (e :: e2 :: es) (t :: t2 :: ts) (or_introl eq_refl) (Forall2_cons _ _ R (Forall2_cons _ _ R2 F)) [] rest eq_refl) as (c & _ & C & HT).
          rewrite (C ltac:(cbn; lia)) in HT. exact HT. }
    destruct G as (inner & comma & Ei & Ep & HT). eexists. split; [reflexivity|]. rewrite Ei.
    apply from_atom; [exists 40%N; eexists; split; reflexivity|intros c r [= <- _]; split; discriminate|reflexivity|].
    intros rest x Hr Hx. cbn [app]. rewrite <- app_assoc. apply (@atom_parentheses es comma); [apply HT|now rewrite Ep].
  - destruct (to_strs_read IH) as (ts & E & F); [assumption|]. cbn [to_str]. rewrite E. eexists. split; [reflexivity|].
    apply from_atom; [exists 91%N; eexists; split; reflexivity|intros c r [= <- _]; split; discriminate|reflexivity|].
    intros rest x Hr Hx. destruct (@elements 93%N es ts (or_intror eq_refl) F [] rest eq_refl) as (comma & _ & _ & HT).
    replace (($"[" ++ join $", " ts ++ $"]") ++ rest) with (91%N :: join $", " ts ++ 93%N :: rest) by (cbn; now rewrite <- app_assoc).
    now apply (@atom_brackets es comma).
  - destruct IHl as (tl & El & Rl); [assumption|]. destruct IHr as (tr & Er & Rr); [assumption|].
    match goal with H : op <> OtherOperator |- _ => destruct (@level_plain l op r H) as (o & Eo & Lo & Ao) end.
    set (lvl := level_of (BinOp l op r)) in *.
    exists (tl ++ $" " ++ [o] ++ $" " ++ tr). cbn [to_str]. rewrite El. cbn [bind_res]. rewrite Er. cbn [bind_res]. rewrite Eo. split; [reflexivity|].
    assert (EQ : forall rest, (tl ++ $" " ++ [o] ++ $" " ++ tr) ++ rest = tl ++ 32%N :: o :: 32%N :: tr ++ rest)
      by (intros; rewrite <- app_assoc; reflexivity).
    assert (So : is_space o = false /\ forall k, lvl < k -> k < 3 -> o <> fst (operator_at k)).
    { destruct lvl as [|[|[|]]]; [| | |lia]; injection Ao as <- <-; (split; [reflexivity|]);
        intros [|[|[|k]]] K1 K2; try lia; discriminate. }
    destruct So as [So No].
    assert (SK : forall s, skip (32%N :: o :: s) = o :: s).
    { intros s. change (32%N :: o :: s) with ([32%N] ++ o :: s). apply skip_blank; [reflexivity|]. cbn. now rewrite So. }
    (* the level of the operator itself *)
    assert (Own : forall rest x, quiet lvl rest -> ev (fun m => operands m lvl (BinOp l op r) rest = x) ->
              ev (fun m => tree m lvl (tl ++ 32%N :: o :: 32%N :: tr ++ rest) = x)).
    { intros rest x Hq Hx. apply (rw_level Rl); [assumption|exact Lo| |].
      - split; [reflexivity|]. rewrite SK. exact No.
      - assert (HR : ev (fun m => tree m (S lvl) (tr ++ rest) = Some (r, rest))).
        { destruct (Nat.eq_dec lvl 2) as [E2|N2].
          - rewrite E2 in *. apply (rw_unary Rr); [lia|apply Hq].
          - apply (rw_level Rr); [lia|lia|now apply quiet_more|]. apply operands_done; [exact Hq|lia]. }
        eapply ev_step2; [exact HR|exact Hx|]. cbv beta. intros m HA HB. cbn [operands]. rewrite SK, Ao. cbn [fst snd]. rewrite eqb_refl.
        replace (skip (32%N :: tr ++ rest)) with (tr ++ rest) by (symmetry; apply (@blank_skip [32%N]); [reflexivity|apply Rr]).
        rewrite HA. exact HB. }
    split.
    + apply opening_app, Rl.
    + change (level_of (BinOp l op r)) with lvl. lia.
    + change (level_of (BinOp l op r)) with lvl. lia.
    + change (level_of (BinOp l op r)) with lvl. lia.
    + change (level_of (BinOp l op r)) with lvl. intros k rest x Hk _ Hq Hx. rewrite EQ.
      assert (Up : forall d k x, k + d = lvl -> quiet k rest -> ev (fun m => operands m k (BinOp l op r) rest = x) ->
                ev (fun m => tree m k (tl ++ 32%N :: o :: 32%N :: tr ++ rest) = x)).
      { clear k x Hk Hq Hx. induction d as [|d IHd]; intros k x Ek Hq Hx.
        - replace k with lvl in * by lia. now apply Own.
        - rewrite <- EQ. apply descend with (e := BinOp l op r); [lia| |exact Hx]. rewrite EQ.
          apply IHd; [lia|now apply quiet_more|]. apply operands_done; [exact Hq|lia]. }
      apply (Up (lvl - k)); [lia|exact Hq|exact Hx].
  - destruct IH as (t & E & R); [assumption|].
    assert (U : exists u, unary_str op = Ok [u] /\ (u = 43%N /\ op = UAdd \/ u = 45%N /\ op = USub)).
    { destruct op; [exists 43%N|exists 45%N|congruence]; auto. }
    destruct U as (u & Eu & Hu). exists ([u] ++ $"(" ++ t ++ $")"). cbn [to_str]. rewrite Eu. cbn [bind_res]. rewrite E. split; [reflexivity|].
    assert (T : forall rest, head_ok ends rest = true -> ev (fun m => tree m 3 (([u] ++ $"(" ++ t ++ $")") ++ rest) = Some (UnaryOp op e, rest))).
    { intros rest Hr. replace (([u] ++ $"(" ++ t ++ $")") ++ rest) with (u :: 40%N :: t ++ 41%N :: rest) by (cbn; now rewrite <- app_assoc).
      destruct (@elements 41%N [e] [t] (or_introl eq_refl) (Forall2_cons _ _ R (Forall2_nil _)) [] rest eq_refl) as (comma & C & _ & HT).
      rewrite (C (le_n _)) in HT. cbn [join app] in HT.
      assert (A : ev (fun m => tree m 4 (40%N :: t ++ 41%N :: rest) = Some (e, rest))).
      { apply (@atom_parentheses [e] false); [exact HT|]. now apply trailers_done. }
      assert (B : ev (fun m => tree m 3 (40%N :: t ++ 41%N :: rest) = Some (e, rest))).
      { eapply ev_step; [exact A|]. cbv beta. intros m Hm. exact Hm. }
      eapply ev_step; [exact B|]. cbv beta. intros m Hm. cbn [tree].
      rewrite (@skip_nothing (40%N :: t ++ 41%N :: rest)) by reflexivity. rewrite Hm.
      destruct Hu as [[-> ->]|[-> ->]]; reflexivity. }
    split.
    + exists u. eexists. split; [reflexivity|]. destruct Hu as [[-> _]|[-> _]]; reflexivity.
    + cbn. lia.
    + cbn. lia.
    + intros _. exact T.
    + intros lvl rest x _. now apply from_unary.
  - exists $"None". split; [reflexivity|]. apply read_well_word; reflexivity.
  - exists $"True". split; [reflexivity|]. apply read_well_word; reflexivity.
  - exists $"False". split; [reflexivity|]. apply read_well_word; reflexivity.
  - exists (repr_int z). split; [reflexivity|]. now apply read_well_integer.
Qed.

Lemma plain_reads e : plain e -> exists t, to_str e = Ok t /\ reads_as t e.
Proof.
  intros P. destruct (to_str_reads P) as (t & E & R). exists t. split; [exact E|].
  destruct (@whole e t [] R (quiet_nil 0)) as [n H]; [apply operands_stop; exact I|]. exists n. intros m Hm. specialize (H m Hm).
  now rewrite app_nil_r in H.
Qed.
Lemma reads_once t e e' : reads_as t e -> reads_as t e' -> e = e'.
Proof. intros [n H] [n' H']. specialize (H (n + n') ltac:(lia)). specialize (H' (n + n') ltac:(lia)). congruence. Qed.

(** ** Functions *)
Lemma lazy_annotation_ok a : lazy_ok a -> exists a', lazy_annotation a = Ok a' /\ text_for a a'.
Proof.
  destruct a as [e|]; [|exists None; split; [reflexivity|constructor]]. intros H.
  assert (D : (exists s, e = Constant (CStr s)) \/ plain e) by (destruct e as [| | | | | | | | |[]|]; eauto).
  destruct D as [(s & ->)|P]; [exists (Some (Constant (CStr s))); split; [reflexivity|apply tf_string]|].
  destruct (plain_reads P) as (t & E & R). exists (Some (Constant (CStr t))). cbn. rewrite E. split; [reflexivity|now constructor].
Qed.
Lemma lazy_arg_ok a : arg_ok a -> exists a', lazy_arg a = Ok a' /\ texts_for_arg a a'.
Proof.
  destruct a as [n a]. intros H. destruct (lazy_annotation_ok _ H) as (a' & E & T). cbn in E. exists (mk_arg n a').
  unfold lazy_arg. cbn. rewrite E. split; [reflexivity|now constructor].
Qed.
Lemma lazy_args_ok l : Forall arg_ok l -> exists l', map_m lazy_arg l = Ok l' /\ Forall2 texts_for_arg l l'.
Proof.
  induction 1 as [|a l H _ IH]; [exists []; split; [reflexivity|constructor]|].
  destruct (lazy_arg_ok _ H) as (a' & E & T). destruct IH as (l' & El & Tl). exists (a' :: l'). cbn. rewrite E. cbn. rewrite El.
  split; [reflexivity|now constructor].
Qed.
Lemma lazy_opt_ok a : opt_ok a -> exists a', lazy_opt_arg a = Ok a' /\ texts_for_opt a a'.
Proof.
  destruct a as [a|]; [|exists None; split; [reflexivity|constructor]]. intros H. destruct (lazy_arg_ok _ H) as (a' & E & T).
  exists (Some a'). cbn. rewrite E. split; [reflexivity|now constructor].
Qed.
Lemma lazy_function_ok f : function_ok f -> exists f', lazy_function f = Ok f' /\ texts_for_function f f'.
Proof.
  intros (Hr & Hp & Ha & Hv & Hk & Hw). destruct (lazy_annotation_ok _ Hr) as (r & Er & Tr).
  destruct (lazy_args_ok Hp) as (p & Ep & Tp), (lazy_args_ok Ha) as (a & Ea & Ta), (lazy_opt_ok _ Hv) as (v & Ev & Tv),
    (lazy_args_ok Hk) as (k & Ek & Tk), (lazy_opt_ok _ Hw) as (w & Ew & Tw).
  unfold lazy_function, lazy_arguments. rewrite Er. cbn [bind_res]. rewrite Ep. cbn [bind_res]. rewrite Ea. cbn [bind_res].
  rewrite Ev. cbn [bind_res]. rewrite Ek. cbn [bind_res]. rewrite Ew. eexists. split; [reflexivity|].
  repeat split; assumption.
Qed.

(** A second time changes nothing. *)
Lemma lazy_annotation_again a a' : lazy_annotation a = Ok a' -> lazy_annotation a' = Ok a'.
Proof. destruct a as [e|]; cbn; [destruct (to_str e); intros [= <-]|intros [= <-]]; reflexivity. Qed.
Lemma lazy_arg_again a a' : lazy_arg a = Ok a' -> lazy_arg a' = Ok a'.
Proof.
  unfold lazy_arg. destruct (lazy_annotation (arg_annotation a)) as [x|] eqn:E; [|discriminate]. intros [= <-]. cbn.
  now rewrite (lazy_annotation_again _ E).
Qed.
Lemma lazy_args_again l : forall l', map_m lazy_arg l = Ok l' -> map_m lazy_arg l' = Ok l'.
Proof.
  induction l as [|a l IH]; intros l'; cbn; [intros [= <-]; reflexivity|].
  destruct (lazy_arg a) as [a'|] eqn:E; [|discriminate]. cbn. destruct (map_m lazy_arg l) as [l0|]; [|discriminate].
  intros [= <-]. cbn. rewrite (lazy_arg_again _ E). cbn. now rewrite (IH _ eq_refl).
Qed.
Lemma lazy_opt_again a a' : lazy_opt_arg a = Ok a' -> lazy_opt_arg a' = Ok a'.
Proof.
  destruct a as [a|]; cbn; [|intros [= <-]; reflexivity]. destruct (lazy_arg a) as [x|] eqn:E; [|discriminate]. intros [= <-].
  cbn. now rewrite (lazy_arg_again _ E).
Qed.
Lemma lazy_function_again f f' : lazy_function f = Ok f' -> lazy_function f' = Ok f'.
Proof.
  unfold lazy_function, lazy_arguments.
  destruct (lazy_annotation (fd_returns f)) eqn:Er; [|discriminate]. cbn [bind_res].
  destruct (map_m lazy_arg (posonlyargs (fd_args f))) eqn:Ep; [|discriminate]. cbn [bind_res].
  destruct (map_m lazy_arg (args (fd_args f))) eqn:Ea; [|discriminate]. cbn [bind_res].
  destruct (lazy_opt_arg (vararg (fd_args f))) eqn:Ev; [|discriminate]. cbn [bind_res].
  destruct (map_m lazy_arg (kwonlyargs (fd_args f))) eqn:Ek; [|discriminate]. cbn [bind_res].
  destruct (lazy_opt_arg (kwarg (fd_args f))) eqn:Ew; [|discriminate]. cbn [bind_res]. intros [= <-]. cbn [fd_returns fd_args posonlyargs args vararg kwonlyargs kwarg].
  rewrite (lazy_annotation_again _ Er). cbn [bind_res]. rewrite (lazy_args_again _ Ep). cbn [bind_res]. rewrite (lazy_args_again _ Ea). cbn [bind_res].
  rewrite (lazy_opt_again _ Ev). cbn [bind_res]. rewrite (lazy_args_again _ Ek). cbn [bind_res]. rewrite (lazy_opt_again _ Ew). reflexivity.
Qed.
