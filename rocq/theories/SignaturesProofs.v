(** Proofs about the construction of signatures (parameters). *)
From Verif Require Import Base PySort Models SpecCall ModelsProofs CallTheorems Ast Conversion Scoping
  SpecScoping ScopingProofs Signatures SpecSignatures.
Set Implicit Arguments.

(** ** Lists *)
Lemma Forall2_map_eq {A B C} (f : A -> C) (g : B -> C) xs ys :
  Forall2 (fun x y => f x = g y) xs ys -> map f xs = map g ys.
Proof. induction 1; cbn; congruence. Qed.
Lemma Forall2_exists {A B} (R : A -> B -> Prop) xs :
  (forall x, In x xs -> exists y, R x y) -> exists ys, Forall2 R xs ys.
Proof.
  induction xs as [|x xs IH]; intros H; [now exists []|].
  destruct (H x) as [y Hy]; [now left|]. destruct IH as [ys Hys]; [intros; apply H; now right|].
  exists (y :: ys). now constructor.
Qed.
Lemma Forall2_In_l {A B} (R : A -> B -> Prop) xs ys x :
  Forall2 R xs ys -> In x xs -> exists y, In y ys /\ R x y.
Proof.
  induction 1 as [|a b xs ys Hab H IH]; intros []; [subst; exists b; split; [now left | easy]|].
  destruct IH as (y & Hy & HR); [easy|]. exists y. split; [now right | easy].
Qed.
Lemma Forall2_In_r {A B} (R : A -> B -> Prop) xs ys y :
  Forall2 R xs ys -> In y ys -> exists x, In x xs /\ R x y.
Proof.
  induction 1 as [|a b xs ys Hab H IH]; intros []; [subst; exists a; split; [now left | easy]|].
  destruct IH as (x & Hx & HR); [easy|]. exists x. split; [now right | easy].
Qed.

(** ** inspect *)
Section Raw.
Context {V : Type}.
Variables (is_NONE : V -> bool) (Any : V).

Lemma parameter_from_raw_ok raw v :
  raw_view raw v -> (forall d, raw_default raw = Some d -> is_NONE d = false) ->
  exists p, parameter_from_raw is_NONE Any raw = Ok p /\ kept Any raw p /\ view p = v.
Proof.
  destruct raw as [n i d a], v as [k r m]. unfold raw_view; cbn. intros (-> & -> & Hr & Hm) Hd.
  unfold takes_many in *.
  assert (Hvar : {is_variadic k = true /\ d = None /\ r = false} + {is_variadic k = false /\ (k <> VARIADIC_POSITIONAL /\ k <> VARIADIC_KEYWORD)}).
  { destruct k; cbn; try (right; split; [reflexivity | split; discriminate]);
      (left; split; [reflexivity|]; split; [now apply Hm; auto|]; destruct r; [|easy];
       destruct (proj1 Hr eq_refl) as [_ []]; auto). }
  unfold parameter_from_raw; cbn.
  assert (Ek : kind_of_value (inspect_kind k) = Ok k) by now destruct k.
  rewrite Ek; cbn. destruct Hvar as [(Hv & -> & ->)|(Hv & Hk1 & Hk2)].
  - rewrite Hv. unfold new_optional. rewrite andb_false_r.
    eexists. split; [reflexivity|]. split; [|reflexivity]. split; try reflexivity. cbn.
    split; [discriminate|]. intros [_ []]. destruct k; try discriminate Hv; unfold takes_many; auto.
  - assert (Hno : ~ (k = VARIADIC_POSITIONAL \/ k = VARIADIC_KEYWORD)) by tauto.
    destruct d as [d|].
    + unfold new_optional. rewrite (Hd d eq_refl). cbn [negb].
      replace ((k == VARIADIC_POSITIONAL) || (k == VARIADIC_KEYWORD)) with false
        by (symmetry; apply orb_false_iff; split; now apply eqb_neq).
      eexists. split; [reflexivity|]. split.
      * split; try reflexivity. cbn. split; [discriminate | intros [? _]; discriminate].
      * cbn. f_equal. destruct r; [|reflexivity]. now destruct (proj1 Hr eq_refl).
    + rewrite Hv. eexists (RequiredParameter _ k m). split; [destruct k; reflexivity || easy|]. split.
      * split; try reflexivity. cbn. unfold takes_many. tauto.
      * cbn. f_equal. symmetry. apply Hr. tauto.
Qed.

Lemma map_m_raw raws vs :
  Forall2 raw_view raws vs ->
  (forall raw d, In raw raws -> raw_default raw = Some d -> is_NONE d = false) ->
  exists ps, map_m (parameter_from_raw is_NONE Any) raws = Ok ps /\ Forall2 (kept Any) raws ps /\ views ps = vs.
Proof.
  induction 1 as [|raw v raws vs Hrv _ IH]; intros Hd; [exists []; repeat split; constructor|].
  destruct (parameter_from_raw_ok Hrv (fun d => Hd raw d (or_introl eq_refl))) as (p & Hp & Hk & Hv).
  destruct IH as (ps & Hps & Hks & Hvs); [intros r d Hr; apply Hd; now right|].
  exists (p :: ps). cbn. rewrite Hp; cbn. rewrite Hps; cbn. repeat split; [now constructor|].
  unfold views in *. cbn. congruence.
Qed.

Lemma from_raw_signature_ok raws vs ret :
  Forall2 raw_view raws vs -> legal_parameters vs ->
  (forall raw d, In raw raws -> raw_default raw = Some d -> is_NONE d = false) ->
  exists s, from_raw_signature is_NONE Any (mk_raw_signature raws ret) = Ok (Plain s)
    /\ Forall2 (kept Any) raws (parameters s) /\ sviews s = vs
    /\ returns s = match ret with Some r => r | None => Any end
    /\ built_plain is_NONE s.
Proof.
  intros Hrv Hl Hd. destruct (map_m_raw Hrv Hd) as (ps & Hps & Hk & Hv).
  set (r := match ret with Some r => r | None => Any end).
  exists (mk_plain ps r). unfold from_raw_signature; cbn. rewrite Hps; cbn.
  destruct (@new_plain_exact V is_NONE ps r) as [Hnew _]. rewrite Hv in Hnew. specialize (Hnew Hl).
  replace (match ret with Some r0 => r0 | None => Any end) with r by reflexivity.
  replace (match ret with | Some r0 => r0 | None => Any end) with r by reflexivity.
  rewrite Hnew; cbn. repeat split; auto.
  exists ps, r. split; [|exact Hnew].
  apply map_m_ok in Hps. clear -Hps. induction Hps as [|raw p raws ps Hp _ IH]; constructor; [|exact IH].
  unfold parameter_from_raw in Hp. destruct (kind_of_value (raw_kind raw)) as [k|]; cbn [bind_res] in Hp; [|discriminate].
  cbv beta iota in Hp. destruct (raw_default raw).
  - right. do 4 eexists. exact Hp.
  - destruct (is_variadic k); [right; do 4 eexists; exact Hp | left; do 3 eexists; exact Hp].
Qed.
End Raw.

(** ** Stub parameters *)
Lemma number_app {A} i (xs ys : list A) : number i (xs ++ ys) = number i xs ++ number (i + length xs) ys.
Proof.
  revert i. induction xs as [|x xs IH]; intros i; cbn; [now rewrite Nat.add_0_r|].
  rewrite IH. do 3 f_equal. lia.
Qed.
Lemma In_number {A} i (xs : list A) j x : In (j, x) (number i xs) -> i <= j < i + length xs.
Proof.
  revert i. induction xs as [|y xs IH]; intros i; cbn; [easy|]. intros [E|H]; [inv E; lia|].
  apply IH in H. lia.
Qed.
Lemma number_FOP {A} i (xs : list A) : ForallOrdPairs (fun a b => fst a < fst b) (number i xs).
Proof.
  revert i. induction xs as [|x xs IH]; intros i; cbn; constructor; [|apply IH].
  apply Forall_forall. intros [j y] H. apply In_number in H. cbn. lia.
Qed.
Lemma map_number {A B} (f : A -> B) i (xs : list A) : map (fun '(_, x) => f x) (number i xs) = map f xs.
Proof. revert i. induction xs as [|x xs IH]; intros i; cbn; congruence. Qed.

Section Zip.
Context {A B : Type}.
Lemma zip_longest_nil_r (xs : list A) : zip_longest xs ([] : list B) = map (fun x => (Some x, None)) xs.
Proof. induction xs as [|x xs IH]; cbn; congruence. Qed.
Lemma zip_longest_app (xs1 xs2 : list A) (ys : list B) :
  length xs1 = length ys ->
  zip_longest (xs1 ++ xs2) ys
  = map (fun xy => (Some (fst xy), Some (snd xy))) (combine xs1 ys) ++ map (fun x => (Some x, None)) xs2.
Proof.
  revert ys. induction xs1 as [|x xs1 IH]; intros [|y ys] H; try discriminate H; cbn.
  - apply zip_longest_nil_r.
  - inv H. now rewrite IH.
Qed.
Lemma combine_app (xs1 xs2 : list A) (ys1 ys2 : list B) :
  length xs1 = length ys1 -> combine (xs1 ++ xs2) (ys1 ++ ys2) = combine xs1 ys1 ++ combine xs2 ys2.
Proof. revert ys1. induction xs1 as [|x xs1 IH]; intros [|y ys1] H; try discriminate H; cbn; [easy|]. inv H. now rewrite IH. Qed.
Lemma combine_rev (xs : list A) (ys : list B) :
  length xs = length ys -> combine (rev xs) (rev ys) = rev (combine xs ys).
Proof.
  revert ys. induction xs as [|x xs IH]; intros [|y ys] H; try discriminate H; cbn; [easy|]. inv H.
  rewrite combine_app; [now rewrite IH | now rewrite !rev_length].
Qed.
End Zip.

Lemma combine_nth_error {A B} (xs : list A) (ys pre : list B) :
  length xs = length ys ->
  map (fun xy => (Some (fst xy), Some (snd xy))) (combine xs ys)
  = map (fun '(i, x) => (Some x, nth_error (pre ++ ys) i)) (number (length pre) xs).
Proof.
  revert ys pre. induction xs as [|x xs IH]; intros [|y ys] pre H; try discriminate H; cbn; [easy|].
  f_equal.
  - rewrite nth_error_app2 by lia. now rewrite Nat.sub_diag.
  - inv H. rewrite (IH ys (pre ++ [y])) by assumption.
    rewrite app_length, Nat.add_1_r, <- app_assoc. reflexivity.
Qed.
Lemma number_shift {A B} (f : nat -> A -> B) i k (xs : list A) :
  map (fun '(j, x) => f j x) (number (k + i) xs) = map (fun '(j, x) => f (k + j) x) (number i xs).
Proof. revert i. induction xs as [|x xs IH]; intros i; cbn; [easy|]. rewrite <- IH. do 2 f_equal. f_equal. lia. Qed.

(** The double reversal (signatures.py:615-619) aligns the defaults. *)
Lemma zip_reversed_split (xs1 xs2 : list arg) (ds : list expr) :
  length xs2 = length ds ->
  rev (zip_longest (rev (xs1 ++ xs2)) (rev ds))
  = map (fun '(i, x) => (Some x, default_at (length (xs1 ++ xs2)) ds i)) (number 0 (xs1 ++ xs2)).
Proof.
  intros E. rewrite rev_app_distr, zip_longest_app by (now rewrite !rev_length).
  rewrite combine_rev by exact E. rewrite rev_app_distr, <- !map_rev, !rev_involutive.
  rewrite number_app, map_app, app_length. cbn [Nat.add]. f_equal.
  - rewrite <- (map_number _ 0). apply map_ext_in. intros [i x] Hin. apply In_number in Hin.
    unfold default_at. destruct (Nat.ltb_spec (i + length ds) (length xs1 + length xs2)); [easy | lia].
  - rewrite (combine_nth_error _ _ [] E). cbn [app length].
    replace (number (length xs1) xs2) with (number (length xs1 + 0) xs2) by (now rewrite Nat.add_0_r).
    rewrite (number_shift (fun j x => (Some x, default_at (length xs1 + length xs2) ds j)) 0 (length xs1)).
    apply map_ext_in. intros [i x] Hin. apply In_number in Hin. f_equal. unfold default_at.
    destruct (Nat.ltb_spec (length xs1 + i + length ds) (length xs1 + length xs2)); [lia|]. f_equal. lia.
Qed.
Lemma zip_reversed (xs : list arg) (ds : list expr) :
  length ds <= length xs ->
  rev (zip_longest (rev xs) (rev ds))
  = map (fun '(i, x) => (Some x, default_at (length xs) ds i)) (number 0 xs).
Proof.
  intros H. rewrite <- (firstn_skipn (length xs - length ds) xs). apply zip_reversed_split.
  rewrite skipn_length. lia.
Qed.
Lemma combine_number {A B} (xs : list A) (ys : list (option B)) :
  length ys = length xs -> combine xs ys = map (fun '(i, x) => (x, nth i ys None)) (number 0 xs).
Proof.
  revert ys. induction xs as [|x xs IH]; intros [|y ys] H; try discriminate H; cbn; [easy|]. f_equal. inv H.
  rewrite (number_shift (fun j x => (x, nth j (y :: ys) None)) 0 1). cbn. now apply IH.
Qed.

Lemma map_m_app {A B} (f : A -> res B) xs ys us vs :
  map_m f xs = Ok us -> map_m f ys = Ok vs -> map_m f (xs ++ ys) = Ok (us ++ vs).
Proof. rewrite !map_m_ok. apply Forall2_app. Qed.
Lemma map_m_map {A B C} (f : B -> res C) (g : A -> B) xs : map_m f (map g xs) = map_m (fun x => f (g x)) xs.
Proof. induction xs as [|x xs IH]; cbn; [easy|]. now rewrite IH. Qed.
Lemma map_m_ext {A B} (f g : A -> res B) xs : (forall x, f x = g x) -> map_m f xs = map_m g xs.
Proof. intros H. induction xs as [|x xs IH]; cbn; [easy|]. now rewrite H, IH. Qed.

Section Stub.
Context {V : Type}.
Variables (is_NONE is_Ellipsis : V -> bool) (Any : V).
Variables (evaluate : expr -> path -> path -> res V) (value_of : expr -> V).
Variables (m parent : path).
Notation from_node := (parameter_from_ast_node is_NONE is_Ellipsis Any evaluate).
Notation good := (evaluates is_NONE value_of (fun e => evaluate e m parent)).

Definition defaultable (w : written_parameter) : Prop := takes_many (w_kind w) -> w_default w = None.

Lemma from_node_ok w :
  good w -> defaultable w ->
  exists p, from_node (w_arg w) (w_default w) m parent (stored_kind (w_kind w)) = Ok p
    /\ follows is_Ellipsis Any value_of (stored_kind (w_kind w)) w p.
Proof.
  destruct w as [k [n a] d]. unfold defaultable, takes_many; cbn. intros [Ha Hd] Hm. cbn in Ha, Hd.
  unfold parameter_from_ast_node; cbn.
  assert (Ea : match a with Some e => evaluate e m parent | None => Ok Any end
               = Ok (annotation_value Any value_of (mk_written k (mk_arg n a) d))).
  { unfold annotation_value; cbn. destruct a as [e|]; [now apply Ha | reflexivity]. }
  rewrite Ea; cbn [bind_res]. cbn. clear Ea Ha.
  destruct d as [e|].
  - destruct (Hd e eq_refl) as [-> Hn]. cbn.
    assert (Hk : (stored_kind k == VARIADIC_POSITIONAL) || (stored_kind k == VARIADIC_KEYWORD) = false).
    { destruct k; try reflexivity; (discriminate Hm; auto). }
    unfold new_optional. rewrite Hk. cbn [andb].
    destruct (is_Ellipsis (value_of e)) eqn:El; eexists; (split; [reflexivity|]); split; cbn;
      try reflexivity; try discriminate;
      intros e' E; inv E; rewrite El, ?Hn; reflexivity.
  - destruct k; (eexists; split; [reflexivity|]); split; cbn; try reflexivity; discriminate.
Qed.

Lemma from_nodes_ok ws :
  Forall good ws -> Forall defaultable ws ->
  exists ps, map_m (fun w => from_node (w_arg w) (w_default w) m parent (stored_kind (w_kind w))) ws = Ok ps
    /\ Forall2 (fun w p => follows is_Ellipsis Any value_of (stored_kind (w_kind w)) w p) ws ps.
Proof.
  induction 1 as [|w ws Hw _ IH]; intros Hd; [exists []; split; [easy | constructor]|]. inv Hd.
  destruct (from_node_ok Hw) as (p & Hp & Hf); [assumption|]. destruct IH as (ps & Hps & Hfs); [assumption|].
  exists (p :: ps). cbn. rewrite Hp; cbn. rewrite Hps. split; [reflexivity | now constructor].
Qed.

Lemma written_defaultable a : Forall defaultable (written a).
Proof.
  unfold written. repeat rewrite Forall_app. repeat split; apply Forall_forall; intros w Hw.
  - apply in_map_iff in Hw as ([i x] & <- & _). intros []; discriminate.
  - apply in_map_iff in Hw as ([i x] & <- & _). intros []; discriminate.
  - unfold one in Hw. destruct (vararg a); [|easy]. now destruct Hw as [<-|[]].
  - apply in_map_iff in Hw as ([i x] & <- & _). intros []; discriminate.
  - unfold one in Hw. destruct (kwarg a); [|easy]. now destruct Hw as [<-|[]].
Qed.

(** Without a '/' section the parameters are built one by one as written. *)
Lemma all_parameters_written a ps :
  posonlyargs a = [] -> legal_arguments a ->
  map_m (fun w => from_node (w_arg w) (w_default w) m parent (stored_kind (w_kind w))) (written a) = Ok ps ->
  all_parameters is_NONE is_Ellipsis Any evaluate a m parent = Ok ps.
Proof.
  intros Hpos (Hdef & Hkw & _). rewrite Hpos in Hdef; cbn in Hdef.
  unfold all_parameters, to_positional_parameters, to_keyword_parameters.
  rewrite zip_reversed by exact Hdef. rewrite combine_number by exact Hkw.
  unfold written. rewrite Hpos; cbn [length number map app Nat.add].
  intros H. apply map_m_ok in H.
  apply Forall2_app_inv_l in H as (p1 & r1 & H1 & H & ->).
  apply Forall2_app_inv_l in H as (p2 & r2 & H2 & H & ->).
  apply Forall2_app_inv_l in H as (p3 & p4 & H3 & H4 & ->).
  apply map_m_ok in H1, H2, H3, H4. rewrite map_m_map in H1, H3. rewrite !map_m_map.
  erewrite map_m_ext; [rewrite H1|intros [i x]; reflexivity]. cbn.
  assert (E2 : to_variadic_parameter is_NONE is_Ellipsis Any evaluate (vararg a) VARIADIC_POSITIONAL m parent = Ok p2).
  { unfold to_variadic_parameter. unfold one in H2. destruct (vararg a); exact H2. }
  assert (E4 : to_variadic_parameter is_NONE is_Ellipsis Any evaluate (kwarg a) VARIADIC_KEYWORD m parent = Ok p4).
  { unfold to_variadic_parameter. unfold one in H4. destruct (kwarg a); exact H4. }
  rewrite E2; cbn. erewrite map_m_ext; [rewrite H3|intros [i x]; reflexivity]. cbn. rewrite E4. reflexivity.
Qed.

Lemma all_parameters_ok a :
  posonlyargs a = [] -> legal_arguments a -> Forall good (written a) ->
  exists ps, all_parameters is_NONE is_Ellipsis Any evaluate a m parent = Ok ps
    /\ Forall2 (fun w p => follows is_Ellipsis Any value_of (stored_kind (w_kind w)) w p) (written a) ps.
Proof.
  intros Hpos Hl Hg. destruct (from_nodes_ok Hg (written_defaultable a)) as (ps & Hps & Hf).
  exists ps. split; [now apply all_parameters_written | exact Hf].
Qed.
End Stub.

(** ** Written parameter lists are legal *)
Lemma default_at_mono n ds i j : i < j < n -> default_at n ds j = None -> default_at n ds i = None.
Proof.
  unfold default_at. intros Hij.
  destruct (Nat.ltb_spec (j + length ds) n), (Nat.ltb_spec (i + length ds) n); try easy; try lia.
  intros E. apply nth_error_None in E. lia.
Qed.

Definition stored_view (w : written_parameter) : pview :=
  mk_view (stored_kind (w_kind w)) (v_required (written_view w)) (arg_name (w_arg w)).

Section Legal.
Variable f : kind -> kind.
Hypothesis f_mono : forall k j, kind_value k <= kind_value j -> kind_value (f k) <= kind_value (f j).
Hypothesis f_positional : forall k, kind_value (f k) <= 1 <-> kind_value k <= 1.
Hypothesis f_var : forall k, f k = VARIADIC_POSITIONAL <-> k = VARIADIC_POSITIONAL.
Hypothesis f_kw : forall k, f k = VARIADIC_KEYWORD <-> k = VARIADIC_KEYWORD.
Definition mapped_view (w : written_parameter) : pview :=
  mk_view (f (w_kind w)) (v_required (written_view w)) (arg_name (w_arg w)).

Lemma positional_value v : positional v <-> kind_value (v_kind v) <= 1.
Proof. unfold positional. destruct (v_kind v); cbn; split; try lia; intuition discriminate. Qed.

Definition wkv (w : written_parameter) : nat := kind_value (w_kind w).
Lemma written_kinds a : ForallOrdPairs (fun p q => wkv p <= wkv q) (written a).
Proof.
  unfold written.
  assert (K : forall k (g : nat * arg -> written_parameter) l, (forall x, w_kind (g x) = k) ->
             Forall (fun w => w_kind w = k) (map g l)).
  { intros k g l Hg. apply Forall_forall. intros w Hw. apply in_map_iff in Hw as (x & <- & _). apply Hg. }
  assert (O : forall k o, Forall (fun w => w_kind w = k) (one k o)).
  { intros k [x|]; cbn; repeat constructor. }
  assert (A : forall k l, Forall (fun w => w_kind w = k) l -> ForallOrdPairs (fun p q => wkv p <= wkv q) l).
  { intros k l Hl. rewrite Forall_forall in Hl. apply FOP_all. intros p q Hp Hq. unfold wkv.
    now rewrite (Hl p Hp), (Hl q Hq). }
  set (l1 := map _ (number 0 (posonlyargs a))). set (l2 := map _ (number _ (args a))).
  set (l4 := map _ (number 0 (kwonlyargs a))).
  assert (H1 : Forall (fun w => w_kind w = POSITIONAL_ONLY) l1) by (apply K; now intros []).
  assert (H2 : Forall (fun w => w_kind w = POSITIONAL_OR_KEYWORD) l2) by (apply K; now intros []).
  assert (H4 : Forall (fun w => w_kind w = KEYWORD_ONLY) l4) by (apply K; now intros []).
  pose proof (O VARIADIC_POSITIONAL (vararg a)) as H3. pose proof (O VARIADIC_KEYWORD (kwarg a)) as H5.
  set (l3 := one VARIADIC_POSITIONAL _) in *. set (l5 := one VARIADIC_KEYWORD _) in *.
  clearbody l1 l2 l3 l4 l5.
  repeat rewrite FOP_app. repeat split; eauto;
    intros p q Hp Hq; unfold wkv; repeat rewrite in_app_iff in Hq; rewrite !Forall_forall in *.
  all: repeat match goal with H : _ \/ _ |- _ => destruct H end.
  all: repeat match goal with
       | H : forall x, In x ?l -> w_kind x = _, H' : In _ ?l |- _ => rewrite (H _ H'); clear H'
       end; cbn; lia.
Qed.

Lemma written_required a : length (defaults a) <= length (posonlyargs a) + length (args a) ->
  ForallOrdPairs (fun p q => wkv p <= 1 -> wkv q <= 1 -> v_required (written_view q) = true ->
                             v_required (written_view p) = true) (written a).
Proof.
  intros Hd. unfold written. rewrite app_assoc. apply FOP_app. split; [|split].
  - set (n := length (posonlyargs a) + length (args a)).
    assert (E : forall l1 l2 : list arg, n = length l1 + length l2 ->
      ForallOrdPairs (fun p q => v_required (written_view q) = true -> v_required (written_view p) = true)
        (map (fun '(i, x) => mk_written POSITIONAL_ONLY x (default_at n (defaults a) i)) (number 0 l1)
         ++ map (fun '(i, x) => mk_written POSITIONAL_OR_KEYWORD x (default_at n (defaults a) i)) (number (length l1) l2))).
    { intros l1 l2 En.
      assert (M : forall i j, i < j < n ->
                match default_at n (defaults a) j with None => true | _ => false end = true ->
                match default_at n (defaults a) i with None => true | _ => false end = true).
      { intros i j Hij. destruct (default_at n (defaults a) j) eqn:Ej; [discriminate|].
        now rewrite (default_at_mono _ Hij Ej). }
      apply FOP_app. split; [|split].
      - rewrite FOP_map. eapply FOP_impl; [|apply number_FOP]. intros [i x] [j y] _ Hj Hij.
        apply In_number in Hj. cbn in *. apply M. lia.
      - rewrite FOP_map. eapply FOP_impl; [|apply number_FOP]. intros [i x] [j y] _ Hj Hij.
        apply In_number in Hj. cbn in *. apply M. lia.
      - intros p q Hp Hq. apply in_map_iff in Hp as ([i x] & <- & Hi). apply in_map_iff in Hq as ([j y] & <- & Hj).
        apply In_number in Hi, Hj. cbn. apply M. lia. }
    eapply FOP_impl; [|now apply (E (posonlyargs a) (args a))]. auto.
  - apply FOP_all. intros p q Hp Hq H1. exfalso.
    repeat rewrite in_app_iff in Hp. unfold wkv in H1.
    destruct Hp as [Hp|[Hp|Hp]].
    + unfold one in Hp. destruct (vararg a); [|easy]. destruct Hp as [<-|[]]. cbn in H1. lia.
    + apply in_map_iff in Hp as ([i x] & <- & _). cbn in H1. lia.
    + unfold one in Hp. destruct (kwarg a); [|easy]. destruct Hp as [<-|[]]. cbn in H1. lia.
  - intros p q Hp Hq _ H1. exfalso.
    repeat rewrite in_app_iff in Hq. unfold wkv in H1.
    destruct Hq as [Hp'|[Hp'|Hp']].
    + unfold one in Hp'. destruct (vararg a); [|easy]. destruct Hp' as [<-|[]]. cbn in H1. lia.
    + apply in_map_iff in Hp' as ([i x] & <- & _). cbn in H1. lia.
    + unfold one in Hp'. destruct (kwarg a); [|easy]. destruct Hp' as [<-|[]]. cbn in H1. lia.
Qed.

Lemma written_once a k : takes_many k -> ForallOrdPairs (fun p q => w_kind p = k -> w_kind q <> k) (written a).
Proof.
  intros Hk. unfold written.
  assert (N : forall j (g : nat * arg -> written_parameter) l, (forall x, w_kind (g x) = j) -> j <> k ->
             forall w, In w (map g l) -> w_kind w <> k).
  { intros j g l Hg Hj w Hw. apply in_map_iff in Hw as (x & <- & _). now rewrite Hg. }
  assert (Z : forall l : list written_parameter, (forall w, In w l -> w_kind w <> k) ->
             ForallOrdPairs (fun p q => w_kind p = k -> w_kind q <> k) l).
  { intros l Hl. apply FOP_all. intros p q Hp _ E. now apply Hl in Hp. }
  set (l1 := map _ (number 0 (posonlyargs a))). set (l2 := map _ (number _ (args a))).
  set (l4 := map _ (number 0 (kwonlyargs a))).
  assert (H1 : forall w, In w l1 -> w_kind w <> k) by (apply (N POSITIONAL_ONLY); [now intros [] | destruct Hk; subst; discriminate]).
  assert (H2 : forall w, In w l2 -> w_kind w <> k) by (apply (N POSITIONAL_OR_KEYWORD); [now intros [] | destruct Hk; subst; discriminate]).
  assert (H4 : forall w, In w l4 -> w_kind w <> k) by (apply (N KEYWORD_ONLY); [now intros [] | destruct Hk; subst; discriminate]).
  clearbody l1 l2 l4.
  assert (O : forall j o, ForallOrdPairs (fun p q => w_kind p = k -> w_kind q <> k) (one j o)).
  { intros j [x|]; cbn; repeat constructor. }
  assert (I : forall j o w, In w (one j o) -> w_kind w = j).
  { intros j [x|] w; cbn; [intros [<-|[]]; reflexivity | easy]. }
  repeat rewrite FOP_app. repeat split; auto; intros p q Hp Hq E; repeat rewrite in_app_iff in Hq.
  all: try (exfalso; now apply (H1 p Hp)); try (exfalso; now apply (H2 p Hp)); try (exfalso; now apply (H4 p Hp)).
  apply I in Hp. destruct Hq as [Hq|Hq]; [now apply H4|]. apply I in Hq. congruence.
Qed.

Lemma written_legal a : legal_arguments a -> legal_parameters (map mapped_view (written a)).
Proof.
  intros (Hd & _ & Hn). unfold legal_parameters. rewrite !ordered_FOP, !FOP_map, map_map. cbn.
  split; [exact Hn|]. split; [|split; [|split]].
  - eapply FOP_impl; [|apply written_kinds]. intros p q _ _. apply f_mono.
  - eapply FOP_impl; [|apply (written_required a Hd)]. intros p q _ _ H. rewrite !positional_value. cbn.
    rewrite !f_positional. exact H.
  - eapply FOP_impl; [|apply (@written_once a VARIADIC_POSITIONAL); now left]. cbn. intros p q _ _ H.
    rewrite !f_var. exact H.
  - eapply FOP_impl; [|apply (@written_once a VARIADIC_KEYWORD); now right]. cbn. intros p q _ _ H.
    rewrite !f_kw. exact H.
Qed.
End Legal.

Lemma written_views_legal a : legal_arguments a -> legal_parameters (map written_view (written a)).
Proof.
  intros H. apply (@written_legal (fun k => k)) in H; auto; try tauto.
Qed.
Lemma stored_views_legal a : legal_arguments a -> legal_parameters (map stored_view (written a)).
Proof.
  intros H. apply (@written_legal stored_kind) in H; [exact H| | | |].
  - intros [] []; cbn; lia.
  - intros []; cbn; lia.
  - intros []; cbn; split; congruence.
  - intros []; cbn; split; congruence.
Qed.

(** ** Stub signatures and calls *)
Section StubCalls.
Context {V : Type}.
Variables (is_NONE is_Ellipsis : V -> bool) (Any : V) (value_of : expr -> V).
Notation follow := (fun w p => follows is_Ellipsis Any value_of (stored_kind (w_kind w)) w p).

Lemma follow_views ws ps : Forall2 follow ws ps -> views ps = map stored_view ws.
Proof.
  induction 1 as [|w p ws ps H _ IH]; [reflexivity|]. cbn. f_equal; [|exact IH].
  destruct H as [Hn Hk _ Hr _ _]. destruct p; cbn in *; unfold stored_view; cbn; congruence.
Qed.

Lemma stored_signature a ps r :
  legal_arguments a -> Forall2 follow (written a) ps -> new_plain ps r = Ok (mk_plain ps r).
Proof.
  intros Hl Hf. apply (@new_plain_exact V is_NONE). rewrite (follow_views Hf). now apply stored_views_legal.
Qed.
End StubCalls.

Section StoredCalls.
Definition stored (v : pview) : pview := mk_view (stored_kind (v_kind v)) (v_required v) (v_name v).
Lemma stored_written ws : map stored_view ws = map stored (map written_view ws).
Proof. rewrite map_map. reflexivity. Qed.
Lemma stored_positionals vs : positionals (map stored vs) = map stored (positionals vs).
Proof.
  induction vs as [|v vs IH]; [reflexivity|]. unfold positionals in *. cbn. rewrite IH.
  destruct v as [[] r n]; reflexivity.
Qed.
Lemma stored_filled vs n v : NoDup (map v_name vs) -> In v vs -> filled (map stored vs) n (stored v) <-> filled vs n v.
Proof.
  unfold filled. rewrite stored_positionals, firstn_map. intros Hn Hv. rewrite in_map_iff. split.
  - intros (w & E & Hw). assert (In w vs).
    { unfold positionals in Hw. eapply filter_In. rewrite <- (firstn_skipn n). apply in_app_iff. left. exact Hw. }
    assert (E' : v_name w = v_name v) by exact (f_equal v_name E).
    replace v with w; [exact Hw|]. clear -Hn H Hv E'.
    induction vs as [|x vs IH]; [easy|]. cbn in Hn. inv Hn. destruct H as [->|H], Hv as [->|Hv]; auto.
    + exfalso. apply H2. rewrite E'. now apply in_map.
    + exfalso. apply H2. rewrite <- E'. now apply in_map.
  - intros H. exists v. auto.
Qed.
Lemma filled_positional vs n v : filled vs n v -> positionalb v = true.
Proof.
  unfold filled, positionals. intros H. assert (In v (filter positionalb vs)).
  { rewrite <- (firstn_skipn n). apply in_app_iff. now left. }
  now apply filter_In in H0.
Qed.
Lemma stored_capable v : keyword_capable (stored v) <-> v_kind v = KEYWORD_ONLY.
Proof. unfold keyword_capable. destruct v as [[] r n]; cbn; intuition congruence. Qed.

Lemma stored_accepts vs n kws :
  NoDup (map v_name vs) ->
  (forall v, In v vs -> v_kind v = POSITIONAL_OR_KEYWORD -> ~ In (v_name v) kws) ->
  accepts (map stored vs) n kws <-> accepts vs n kws.
Proof.
  intros Hn Hk.
  assert (Ep : forall k, k <> POSITIONAL_OR_KEYWORD -> k <> POSITIONAL_ONLY ->
             ((exists p, In p (map stored vs) /\ v_kind p = k) <-> (exists p, In p vs /\ v_kind p = k))).
  { intros k K1 K2. split.
    - intros (p & Hp & E). apply in_map_iff in Hp as (v & <- & Hv). exists v. split; [easy|].
      destruct v as [[] r nm]; cbn in *; congruence.
    - intros (p & Hp & E). exists (stored p). split; [now apply in_map|]. destruct p as [[] r nm]; cbn in *; congruence. }
  unfold accepts.
  assert (E1 : positionals_fit (map stored vs) n <-> positionals_fit vs n).
  { unfold positionals_fit, takes_extra_positionals. rewrite stored_positionals, map_length.
    rewrite (Ep VARIADIC_POSITIONAL) by discriminate. tauto. }
  assert (E2 : keywords_fit (map stored vs) n kws <-> keywords_fit vs n kws).
  { assert (ET : takes_extra_keywords (map stored vs) <-> takes_extra_keywords vs) by (apply Ep; discriminate).
    unfold keywords_fit. split; intros H kw Hkw.
    - destruct (H kw Hkw) as [(p & Hp & Hc & Hnm & Hf)|[Ht Hno]].
      + left. apply in_map_iff in Hp as (v & <- & Hv). exists v. rewrite stored_capable in Hc.
        repeat split; auto; [now right|]. intros Hfl. apply filled_positional in Hfl. unfold positionalb in Hfl.
        now rewrite Hc in Hfl.
      + right. split; [now apply ET|]. intros p Hp [Hc|Hc] E.
        * apply (Hk p Hp Hc). now rewrite E.
        * apply (Hno (stored p)); [now apply in_map | now apply stored_capable | exact E].
    - destruct (H kw Hkw) as [(p & Hp & Hc & Hnm & Hf)|[Ht Hno]].
      + left. exists (stored p). destruct Hc as [Hc|Hc]; [exfalso; apply (Hk p Hp Hc); now rewrite Hnm|].
        repeat split; [now apply in_map | now apply stored_capable | easy|]. now rewrite stored_filled.
      + right. split; [now apply ET|]. intros p Hp Hc. apply in_map_iff in Hp as (v & <- & Hv). apply stored_capable in Hc.
        cbn. apply (Hno v Hv). now right. }
  assert (E3 : nothing_missing (map stored vs) n kws <-> nothing_missing vs n kws).
  { unfold nothing_missing. split; intros H p Hp Hr.
    - destruct (H (stored p) (in_map _ _ _ Hp) Hr) as [Hf|[Hc Hi]].
      + left. exact (proj1 (@stored_filled vs n p Hn Hp) Hf).
      + right. apply stored_capable in Hc. split; [now right | exact Hi].
    - apply in_map_iff in Hp as (v & <- & Hv). destruct (H v Hv Hr) as [Hf|[[Hc|Hc] Hi]].
      + left. now apply stored_filled.
      + exfalso. now apply (Hk v Hv Hc).
      + right. split; [now apply stored_capable | exact Hi]. }
  tauto.
Qed.
Lemma stored_no_clash vs n kws : ~ clash (map stored vs) n kws.
Proof.
  intros (p & Hf & Hc & _). apply filled_positional in Hf as Hp. unfold positionalb in Hp.
  assert (In p (map stored vs)).
  { unfold filled, positionals in Hf. eapply filter_In. rewrite <- (firstn_skipn n). apply in_app_iff. left. exact Hf. }
  apply in_map_iff in H as (v & <- & _). apply stored_capable in Hc. cbn in Hp. now rewrite Hc in Hp.
Qed.
End StoredCalls.

Lemma follow_built {V} (is_NONE is_Ellipsis : V -> bool) Any value_of ws ps :
  (forall w e, In w ws -> w_default w = Some e -> is_NONE (value_of e) = false) ->
  Forall defaultable ws ->
  Forall2 (fun w p => follows is_Ellipsis Any value_of (stored_kind (w_kind w)) w p) ws ps ->
  Forall (built_parameter is_NONE) ps.
Proof.
  intros Hn Hd. induction 1 as [|w p ws ps H _ IH]; constructor.
  2:{ inv Hd. apply IH; [|assumption]. intros w' e Hw. apply Hn. now right. }
  inv Hd. destruct H as [Hname Hk Ha Hr Hdef Hno]. destruct w as [k a d]. cbn in *.
  destruct p as [ann pk nm|ann dv pk nm]; cbn in *; subst.
  - left. exists (annotation_value Any value_of (mk_written k a d)), (IsKind (stored_kind k)), (arg_name a).
    destruct d; [discriminate|]. destruct k; try discriminate; reflexivity.
  - right. exists (annotation_value Any value_of (mk_written k a d)), dv, (IsKind (stored_kind k)), (arg_name a).
    unfold new_optional. destruct d as [e|].
    + specialize (Hn _ e (or_introl eq_refl) eq_refl). rewrite (Hdef e eq_refl).
      assert (Hk : (stored_kind k == VARIADIC_POSITIONAL) || (stored_kind k == VARIADIC_KEYWORD) = false).
      { unfold defaultable, takes_many in H2. cbn in H2. destruct k; try reflexivity; discriminate H2; auto. }
      rewrite Hk. destruct (is_Ellipsis (value_of e)); cbn; [reflexivity|]. now rewrite Hn.
    + rewrite (Hno eq_refl). rewrite andb_false_r. reflexivity.
Qed.

Lemma stub_calls {V} (is_NONE is_Ellipsis : V -> bool) Any value_of a ps r args kwargs :
  legal_arguments a ->
  (forall w e, In w (written a) -> w_default w = Some e -> is_NONE (value_of e) = false) ->
  Forall2 (fun w p => follows is_Ellipsis Any value_of (stored_kind (w_kind w)) w p) (written a) ps ->
  (forall x, In x (Ast.args a) -> ~ In (arg_name x) (dkeys kwargs)) ->
  plain_all_set (mk_plain ps r) args kwargs = true
  <-> accepts (map written_view (written a)) (length args) (dkeys kwargs).
Proof.
  intros Hl Hn Hf Hk.
  assert (Hb : built_plain is_NONE (mk_plain ps r)).
  { exists ps, r. split; [|eapply stored_signature; eauto].
    eapply follow_built; [exact Hn | apply written_defaultable | exact Hf]. }
  assert (Hv : sviews (mk_plain ps r) = map stored (map written_view (written a))).
  { change (sviews (mk_plain ps r)) with (views ps). rewrite (follow_views Hf). apply stored_written. }
  rewrite (@all_set_exact _ is_NONE); [|exact Hb|].
  2:{ intros _. rewrite Hv. apply stored_no_clash. }
  rewrite Hv. apply stored_accepts.
  - destruct Hl as (_ & _ & Hnd). rewrite map_map. exact Hnd.
  - intros v Hin E Hkw. apply in_map_iff in Hin as (w & <- & Hw). cbn in *.
    unfold written in Hw. repeat rewrite in_app_iff in Hw. destruct Hw as [Hw|[Hw|[Hw|[Hw|Hw]]]].
    + apply in_map_iff in Hw as ([i x] & <- & _). discriminate E.
    + apply in_map_iff in Hw as ([i x] & <- & Hi). cbn in *. apply (Hk x); [|exact Hkw].
      rewrite <- (map_id (Ast.args a)), <- (map_number (fun x => x) (length (posonlyargs a))).
      apply in_map_iff. now exists (i, x).
    + unfold one in Hw. destruct (vararg a); [|easy]. destruct Hw as [<-|[]]. discriminate E.
    + apply in_map_iff in Hw as ([i x] & <- & _). discriminate E.
    + unfold one in Hw. destruct (kwarg a); [|easy]. destruct Hw as [<-|[]]. discriminate E.
Qed.

(** ** Dotted names *)
Lemma to_maybe_path_dotted e p : to_maybe_path e = Some p <-> dotted e p.
Proof.
  split.
  - revert p. induction e using expr_ind'; intros p E; try discriminate E; cbn in E.
    + inv E. constructor.
    + destruct (to_maybe_path e) as [q|]; [|discriminate]. inv E. constructor. now apply IHe.
  - induction 1; cbn; [reflexivity|]. now rewrite IHdotted.
Qed.
Lemma to_path_dotted e p : to_path e = Ok p <-> dotted e p.
Proof.
  split.
  - revert p. induction e using expr_ind'; intros p E; try discriminate E; cbn in E.
    + inv E. constructor.
    + destruct (to_path e) as [q|]; [|discriminate]. inv E. constructor. now apply IHe.
  - induction 1; cbn; [reflexivity|]. now rewrite IHdotted.
Qed.
Lemma to_maybe_path_None e : to_maybe_path e = None <-> forall p, ~ dotted e p.
Proof.
  split.
  - intros E p Hp. apply to_maybe_path_dotted in Hp. congruence.
  - intros H. destruct (to_maybe_path e) as [p|] eqn:E; [|reflexivity]. apply to_maybe_path_dotted in E. now apply H in E.
Qed.

(** ** The implicit first parameter *)
Section First.
Context {V : Type}.
Variables (is_NONE is_Ellipsis : V -> bool) (Any Self TypeSelf : V).
Variables (evaluate : expr -> path -> path -> res V) (stubs : stubs_tables) (limit : nat).
Notation params := (parameters_from is_NONE is_Ellipsis Any Self TypeSelf evaluate stubs limit).
Notation all := (all_parameters is_NONE is_Ellipsis Any evaluate).

Lemma is_classmethod_denotes d m parent :
  denotes stubs limit m parent d the_classmethod -> is_classmethod stubs limit d m parent = Return true.
Proof.
  intros (p & Hp & Hr). unfold is_classmethod. apply to_maybe_path_dotted in Hp. rewrite Hp.
  unfold resolve. rewrite Hr. cbn [of_resolution obind]. reflexivity.
Qed.
Lemma is_classmethod_other d m parent :
  other_decorator stubs limit m parent d -> is_classmethod stubs limit d m parent = Return false.
Proof.
  unfold is_classmethod. intros [H|(q & (p & Hp & Hr) & Hq)].
  - apply to_maybe_path_None in H. now rewrite H.
  - apply to_maybe_path_dotted in Hp. rewrite Hp. unfold resolve. rewrite Hr. cbn [of_resolution obind]. f_equal.
    now apply eqb_neq.
Qed.
Lemma any_classmethod_none ds m parent :
  Forall (other_decorator stubs limit m parent) ds -> any_classmethod stubs limit ds m parent = Return false.
Proof. induction 1 as [|d ds H _ IH]; [reflexivity|]. cbn. now rewrite is_classmethod_other. Qed.
Lemma any_classmethod_some before d after m parent :
  Forall (other_decorator stubs limit m parent) before -> denotes stubs limit m parent d the_classmethod ->
  any_classmethod stubs limit (before ++ d :: after) m parent = Return true.
Proof.
  intros Hb Hd. induction Hb as [|b before H _ IH]; cbn.
  - now rewrite is_classmethod_denotes.
  - now rewrite is_classmethod_other.
Qed.

Lemma params_type fd m parent p rest :
  all (fd_args fd) m parent = Ok (p :: rest) -> params fd true m parent = Return rest.
Proof. intros H. unfold parameters_from. rewrite H. reflexivity. Qed.
Lemma params_classmethod fd m parent p rest before d after :
  all (fd_args fd) m parent = Ok (p :: rest) ->
  fd_decorators fd = before ++ d :: after ->
  Forall (other_decorator stubs limit m parent) before -> denotes stubs limit m parent d the_classmethod ->
  params fd false m parent = Return (RequiredParameter TypeSelf POSITIONAL_ONLY (p_name p) :: rest).
Proof.
  intros H E Hb Hd. unfold parameters_from. rewrite H, E. cbn [of_res obind].
  rewrite (any_classmethod_some _ Hb Hd). reflexivity.
Qed.
Lemma params_method fd m parent p rest :
  all (fd_args fd) m parent = Ok (p :: rest) ->
  Forall (other_decorator stubs limit m parent) (fd_decorators fd) -> is_class stubs m parent ->
  params fd false m parent = Return (RequiredParameter Self POSITIONAL_ONLY (p_name p) :: rest).
Proof.
  intros H Hd (t & Ht & Hc). unfold parameters_from. rewrite H. cbn [of_res obind].
  rewrite (any_classmethod_none Hd). cbn [obind]. unfold lookup. rewrite Ht. cbn [obind]. rewrite Hc. reflexivity.
Qed.
Lemma params_function fd m parent ps :
  all (fd_args fd) m parent = Ok ps ->
  Forall (other_decorator stubs limit m parent) (fd_decorators fd) ->
  has_kinds stubs m -> ~ is_class stubs m parent ->
  params fd false m parent = Return ps.
Proof.
  intros H Hd Hk Hc. unfold parameters_from. rewrite H. cbn [of_res obind].
  rewrite (any_classmethod_none Hd). cbn [obind]. unfold lookup.
  destruct (dget m (nodes_kinds stubs)) as [t|] eqn:Et.
  - cbn [obind]. destruct (dget parent t) as [[]|] eqn:Ep; try reflexivity. destruct Hc. now exists t.
  - apply dget_None in Et. now destruct Et.
Qed.

(** Replacing or deleting the first parameter keeps the list legal. *)
Lemma legal_tail v vs : legal_parameters (v :: vs) -> legal_parameters vs.
Proof.
  unfold legal_parameters. rewrite !ordered_FOP. intros (Hn & H1 & H2 & H3 & H4).
  inv Hn. inv H1. inv H2. inv H3. inv H4. auto.
Qed.
Lemma legal_first v vs : legal_parameters (v :: vs) ->
  legal_parameters (mk_view POSITIONAL_ONLY true (v_name v) :: vs).
Proof.
  unfold legal_parameters. rewrite !ordered_FOP. intros (Hn & H1 & H2 & H3 & H4).
  inv H1. inv H2. inv H3. inv H4. repeat split; [exact Hn| | | |]; constructor; auto; apply Forall_forall; intros q _; cbn;
    try discriminate; try lia; auto.
Qed.

Lemma replaced_signature (ps : list (parameter V)) p rest (ret x : V) :
  ps = p :: rest -> legal_parameters (views ps) ->
  new_plain rest ret = Ok (mk_plain rest ret)
  /\ new_plain (RequiredParameter x POSITIONAL_ONLY (p_name p) :: rest) ret
     = Ok (mk_plain (RequiredParameter x POSITIONAL_ONLY (p_name p) :: rest) ret).
Proof.
  intros -> H. split; apply (@new_plain_exact V is_NONE).
  - eapply legal_tail. exact H.
  - cbn in *. rewrite <- v_name_view. now apply legal_first.
Qed.
End First.
