(** Proofs about sources and discovery. *)
From Verif Require Import Base Catalog CatalogProofs Sources.

Lemma starts_with_iff p s : starts_with p s = true <-> exists r, s = p ++ r.
Proof.
  unfold starts_with. rewrite eqb_eq. split.
  - intros E. exists (skipn (length p) s). rewrite <- E at 1. now rewrite firstn_skipn.
  - intros [r ->]. rewrite firstn_app, firstn_all, Nat.sub_diag. cbn. now rewrite app_nil_r.
Qed.
Lemma ends_with_iff p s : ends_with p s = true <-> exists r, s = r ++ p.
Proof.
  unfold ends_with. rewrite andb_true_iff, eqb_eq, Nat.leb_le. split.
  - intros [L E]. exists (firstn (length s - length p) s). rewrite <- E at 2. now rewrite firstn_skipn.
  - intros [r ->]. rewrite app_length. split; [lia|]. replace (length r + length p - length p) with (length r) by lia.
    now rewrite skipn_app, skipn_all, Nat.sub_diag.
Qed.
Lemma firstn_before {A} (r p : list A) : firstn (length (r ++ p) - length p) (r ++ p) = r.
Proof.
  rewrite app_length. replace (length r + length p - length p) with (length r) by lia.
  now rewrite firstn_app, firstn_all, Nat.sub_diag, app_nil_r.
Qed.

(** ** [getmodulename] *)
Section Names.
Variable all : list pystr.
Lemma insert_In s x l : In x (insert_suffix s l) <-> x = s \/ In x l.
Proof.
  induction l as [|y r IH]; cbn [insert_suffix].
  - cbn. intuition.
  - destruct (length y <? length s)%nat; cbn [In]; [intuition|]. rewrite IH. intuition.
Qed.
Lemma sorted_In x : In x (sorted_suffixes all) <-> In x all.
Proof. unfold sorted_suffixes. induction all as [|s r IH]; cbn; [easy|]. rewrite insert_In, IH. intuition. Qed.
Inductive descending : list pystr -> Prop :=
| descending_nil : descending []
| descending_cons s r : (forall x, In x r -> length x <= length s) -> descending r -> descending (s :: r).
Lemma insert_descending s l : descending l -> descending (insert_suffix s l).
Proof.
  induction 1 as [|y r L D IH]; cbn [insert_suffix]; [constructor; [intros x []|constructor]|].
  destruct (length y <? length s)%nat eqn:E.
  - apply Nat.ltb_lt in E. constructor; [|now constructor]. intros x [<-|I]; [lia|]. specialize (L x I). lia.
  - apply Nat.ltb_ge in E. constructor; [|exact IH]. intros x I. apply insert_In in I as [->|I]; [exact E|now apply L].
Qed.
Lemma sorted_descending : descending (sorted_suffixes all).
Proof. unfold sorted_suffixes. induction all as [|s r IH]; cbn; [constructor|now apply insert_descending]. Qed.
Lemma find_longest name s l : descending l -> find (fun s => ends_with s name) l = Some s ->
  In s l /\ ends_with s name = true /\ forall x, In x l -> ends_with x name = true -> length x <= length s.
Proof.
  induction 1 as [|y r L D IH]; cbn; [discriminate|]. destruct (ends_with y name) eqn:E.
  - intros [= <-]. split; [now left|]. split; [exact E|]. intros x [<-|I] _; [lia|now apply L].
  - intros F. destruct (IH F) as (I & Es & M). split; [now right|]. split; [exact Es|]. intros x [<-|Ix] Ex; [congruence|now apply M].
Qed.
(** The suffix taken off is the longest fitting. *)
Lemma getmodulename_iff name m : getmodulename all name = Some m <->
  exists s, In s all /\ name = m ++ s /\ forall x r, In x all -> name = r ++ x -> length x <= length s.
Proof.
  unfold getmodulename. destruct (find (fun s => ends_with s name) (sorted_suffixes all)) as [s|] eqn:F.
  - pose proof (find_longest name s _ sorted_descending F) as (I & E & M). apply ends_with_iff in E as [r ->].
    rewrite firstn_before. split.
    + intros [= <-]. exists s. split; [now apply sorted_In|]. split; [reflexivity|]. intros x r' Ix Ex.
      apply M; [now apply sorted_In|]. apply ends_with_iff. eauto.
    + intros (s' & I' & E' & M'). f_equal.
      assert (L : length s = length s').
      { apply Nat.le_antisymm; [apply (M' s r); [now apply sorted_In|reflexivity]|].
        apply M; [now apply sorted_In|]. apply ends_with_iff. eauto. }
      assert (Lr : length r = length m) by (apply (f_equal (@length BinNums.N)) in E'; rewrite !app_length in E'; lia).
      apply (f_equal (firstn (length r))) in E'. rewrite firstn_app, firstn_all, Nat.sub_diag, app_nil_r in E'.
      rewrite Lr, firstn_app, firstn_all, Nat.sub_diag, app_nil_r in E'. exact E'.
  - split; [discriminate|]. intros (s & I & -> & _). exfalso. apply sorted_In in I.
    apply (find_none _ _ F) in I. cbn in I. assert (X : ends_with s (m ++ s) = true) by (apply ends_with_iff; eauto). congruence.
Qed.
(** No other suffix fits after a stem without dots. *)
Lemma getmodulename_stem stem s : (forall x, In x all -> exists r, x = dot :: r) -> In s all -> ~ In dot stem ->
  getmodulename all (stem ++ s) = Some stem.
Proof.
  intros D I N. apply getmodulename_iff. exists s. split; [exact I|]. split; [reflexivity|].
  intros x r Ix E. destruct (D x Ix) as [x' ->]. apply Nat.nlt_ge. intros L. apply N.
  assert (Lr : length r < length stem) by (apply (f_equal (@length BinNums.N)) in E; rewrite !app_length in E; lia).
  clear -E Lr. revert r E Lr. induction stem as [|y t IH]; intros r E Lr; cbn in Lr; [lia|]. destruct r as [|z r]; cbn in E.
  - injection E as -> _. now left.
  - injection E as _ E. right. apply (IH r E). cbn in Lr. lia.
Qed.
End Names.

(** ** Suffixes *)
Lemma snoc_cases {A} (l : list A) : l = [] \/ exists q x, l = q ++ [x].
Proof. destruct l as [|x r]; [now left|]. right. destruct (@exists_last A (x :: r)) as (q & y & E); [easy|eauto]. Qed.
Lemma join_concat c p ps : join [c] (p :: ps) = p ++ concat (map (cons c) ps).
Proof.
  revert p. induction ps as [|q r IH]; intros p; [cbn; now rewrite app_nil_r|].
  rewrite join_cons, IH. cbn. reflexivity.
Qed.
Lemma split_head c s : exists p ps, split_on c s = p :: ps /\ s = p ++ concat (map (cons c) ps) /\ ~ In c p /\ Forall (fun p => ~ In c p) ps.
Proof.
  pose proof (proj1 (split_spelled c (split_on c s) s) eq_refl) as S. apply spelled_parts in S as [Ne F].
  pose proof (join_split c s) as J. destruct (split_on c s) as [|p ps]; [easy|]. exists p, ps. rewrite join_concat in J. inv F. auto.
Qed.
Lemma lstrip_spec s : exists k, s = repeat dot k ++ lstrip_dots s /\ (forall r, lstrip_dots s <> dot :: r).
Proof.
  induction s as [|x r (k & E & N)]; [exists 0; cbn; split; [reflexivity|discriminate]|]. cbn [lstrip_dots].
  destruct (N.eqb_spec x dot) as [->|Ne].
  - exists (S k). cbn. rewrite E at 1. auto.
  - exists 0. split; [reflexivity|]. congruence.
Qed.
Lemma lstrip_repeat k s : (forall r, s <> dot :: r) -> lstrip_dots (repeat dot k ++ s) = s.
Proof.
  intros N. induction k as [|k IH]; cbn [repeat app lstrip_dots]; [|now rewrite N.eqb_refl].
  destruct s as [|x r]; [reflexivity|]. cbn. destruct (N.eqb_spec x dot) as [->|]; [now destruct (N r)|reflexivity].
Qed.
Lemma suffixes_stem k stem parts : stem <> [] -> ~ In dot stem -> Forall (fun p => ~ In dot p) parts ->
  last parts $"x" <> [] ->
  suffixes (repeat dot k ++ stem ++ concat (map (cons dot) parts)) = map (cons dot) parts.
Proof.
  intros Ne N F L. unfold suffixes.
  assert (E : ends_with $"." (repeat dot k ++ stem ++ concat (map (cons dot) parts)) = false).
  { apply not_true_is_false. intros E. apply ends_with_iff in E as [r E].
    assert (X : exists z, repeat dot k ++ stem ++ concat (map (cons dot) parts) = z ++ (if is_nil parts then stem else last parts $"x")).
    { destruct (snoc_cases parts) as [->|(q & p & ->)]; [exists (repeat dot k); cbn; now rewrite app_nil_r|].
      replace (is_nil (q ++ [p])) with false by (now destruct q). rewrite last_last, map_app, concat_app. cbn.
      exists (repeat dot k ++ stem ++ concat (map (cons dot) q) ++ [dot]). rewrite app_nil_r, <- !app_assoc. reflexivity. }
    destruct X as [z X]. rewrite E in X.
    assert (Y : exists a b, (if is_nil parts then stem else last parts $"x") = a ++ [b] /\ b <> dot).
    { destruct (is_nil parts) eqn:I.
      - destruct (snoc_cases stem) as [->|(a & b & ->)]; [easy|]. exists a, b. split; [reflexivity|]. intros ->. apply N.
        apply in_app_iff. right. now left.
      - destruct (snoc_cases (last parts $"x")) as [W|(a & b & W)]; [now rewrite W in L|]. exists a, b. split; [exact W|]. intros ->.
        rewrite Forall_forall in F. apply (F (last parts $"x")); [|rewrite W; apply in_app_iff; right; now left].
        destruct (snoc_cases parts) as [->|(q & p & ->)]; [discriminate|]. rewrite last_last. apply in_app_iff. right. now left. }
    destruct Y as (a & b & Y & Nb). rewrite Y, app_assoc in X. apply app_inj_tail in X as [_ X]. apply Nb. rewrite <- X. reflexivity. }
  rewrite E, lstrip_repeat.
  - replace (split_on dot (stem ++ concat (map (cons dot) parts))) with (stem :: parts); [reflexivity|].
    rewrite <- join_concat. symmetry. apply split_join. split; [easy|]. now constructor.
  - intros r H. destruct stem as [|x t]; [easy|]. cbn in H. injection H as -> _. apply N. now left.
Qed.
Lemma suffixes_shape name : suffixes name <> [] ->
  exists k stem, stem <> [] /\ ~ In dot stem /\ name = repeat dot k ++ stem ++ concat (suffixes name).
Proof.
  unfold suffixes. destruct (ends_with $"." name); [easy|]. destruct (lstrip_spec name) as (k & E & N).
  destruct (split_head dot (lstrip_dots name)) as (p & ps & S & J & Np & _). rewrite S. cbn [tl]. intros Ne.
  exists k, p. split; [|split; [exact Np|]].
  - intros ->. destruct ps as [|q r]; [easy|]. apply (N (q ++ concat (map (cons dot) r))). now rewrite J.
  - rewrite E at 1. rewrite J at 1. reflexivity.
Qed.
Lemma is_stub_iff name : is_stub name = true <->
  exists k stem, stem <> [] /\ ~ In dot stem /\ name = repeat dot k ++ stem ++ $".pyi".
Proof.
  unfold is_stub. rewrite eqb_eq. split.
  - intros E. destruct (suffixes_shape name) as (k & stem & A & B & C); [now rewrite E|]. exists k, stem. rewrite E in C. auto.
  - intros (k & stem & A & B & ->). change $".pyi" with (concat (map (cons dot) [$"pyi"])).
    rewrite suffixes_stem; auto; [|easy]. constructor; [|constructor]. cbn. intuition discriminate.
Qed.
Lemma is_source_iff sources name :
  (forall s, In s sources -> exists r, s = dot :: r /\ (forall q, r <> q ++ [dot]) /\ r <> []) ->
  is_source sources name = true <->
  exists k stem s, In s sources /\ stem <> [] /\ ~ In dot stem /\ name = repeat dot k ++ stem ++ s.
Proof.
  intros W. unfold is_source. rewrite mem_In. split.
  - intros I. destruct (suffixes_shape name) as (k & stem & A & B & C).
    + intros E. rewrite E in I. destruct (W _ I) as (r & F & _). discriminate.
    + exists k, stem, (concat (suffixes name)). auto.
  - intros (k & stem & s & I & A & B & ->). destruct (W s I) as (r & -> & Nr & Nn).
    destruct (split_head dot r) as (p & ps & S & J & Np & Fp).
    assert (X : dot :: r = concat (map (cons dot) (p :: ps))) by (cbn; now rewrite <- J). rewrite X.
    rewrite suffixes_stem; auto; [rewrite <- X; exact I|].
    destruct (snoc_cases ps) as [->|(l & z & ->)]; [cbn; cbn in J; rewrite app_nil_r in J; congruence|].
    change (p :: l ++ [z]) with ((p :: l) ++ [z]). rewrite last_last. intros ->.
    apply (Nr (p ++ concat (map (cons dot) l))). rewrite J, map_app, concat_app. cbn. now rewrite <- app_assoc.
Qed.
Lemma rfind_dot_none s : ~ In dot s -> rfind_dot s = None.
Proof.
  induction s as [|x r IH]; intros N; [reflexivity|]. cbn. rewrite IH; [|intros I; apply N; now right].
  destruct (N.eqb_spec x dot) as [->|]; [|reflexivity]. destruct N. now left.
Qed.
Lemma rfind_dot_app a b : ~ In dot b -> rfind_dot (a ++ dot :: b) = Some (length a).
Proof. intros N. induction a as [|x r IH]; cbn [app rfind_dot length]; [now rewrite (rfind_dot_none b N)|now rewrite IH]. Qed.
Lemma with_suffix_spec new a b : a <> [] -> b <> [] -> ~ In dot b -> with_suffix new (a ++ dot :: b) = a ++ new.
Proof.
  intros Na Nb N. unfold with_suffix, suffix. rewrite (rfind_dot_app a b N). rewrite app_length. cbn [length].
  assert (0 < length a) by (destruct a; cbn; [easy|lia]). assert (0 < length b) by (destruct b; cbn; [easy|lia]).
  replace (0 <? length a)%nat with true by (symmetry; apply Nat.ltb_lt; lia).
  replace (length a <? length a + S (length b) - 1)%nat with true by (symmetry; apply Nat.ltb_lt; lia). cbn [andb].
  rewrite skipn_app, skipn_all, Nat.sub_diag. cbn [app skipn length].
  replace (length a + S (length b) - S (length b)) with (length a) by lia.
  now rewrite firstn_app, firstn_all, Nat.sub_diag, app_nil_r.
Qed.

(** ** Discovery *)
Lemma firstn_prefix {A} `{Eqb A} (p c : list A) : (firstn (length p) c == p) = true <-> exists r, c = p ++ r.
Proof.
  rewrite eqb_eq. split.
  - intros E. exists (skipn (length p) c). rewrite <- E at 1. now rewrite firstn_skipn.
  - intros [r ->]. rewrite firstn_app, firstn_all, Nat.sub_diag. cbn. now rewrite app_nil_r.
Qed.
Lemma update_In stdlib set names m : In m stdlib ->
  (In m (recursively_update_modules_paths stdlib set names) <->
   In m set \/ exists n r, In n names /\ m = path_from_string n ++ r).
Proof.
  intros I. unfold recursively_update_modules_paths. rewrite !in_app_iff, filter_In, existsb_exists, in_map_iff. split.
  - intros [S|[(n & <- & J)|(_ & p & J & P)]]; [now left| |].
    + right. exists n, []. now rewrite app_nil_r.
    + apply in_map_iff in J as (n & <- & J). apply firstn_prefix in P as [r ->]. right. eauto.
  - intros [S|(n & r & J & ->)]; [now left|]. right. right. split; [exact I|]. exists (path_from_string n).
    split; [now apply in_map|]. apply firstn_prefix. eauto.
Qed.
Lemma updates_In stdlib ds set m : In m stdlib ->
  (In m (fold_left (recursively_update_modules_paths stdlib) ds set) <->
   In m set \/ exists names n r, In names ds /\ In n names /\ m = path_from_string n ++ r).
Proof.
  intros I. revert set. induction ds as [|d ds IH]; intros set; cbn [fold_left].
  - split; [now left|]. intros [S|(names & n & r & [] & _)]. exact S.
  - rewrite IH, (update_In stdlib set d m I). split.
    + intros [[S|(n & r & J & ->)]|(names & n & r & J & K & ->)]; [now left| |].
      * right. exists d, n, r. split; [now left|]. auto.
      * right. exists names, n, r. split; [now right|]. auto.
    + intros [S|(names & n & r & [<-|J] & K & ->)]; [auto| |]; [left; right; eauto|right; eauto 6].
Qed.
