(** Proofs about the names of cache files. *)
From Verif Require Import Base PyText Catalog SpecCatalog CatalogProofs Sources SourcesProofs Files CacheNames SpecCacheNames.

Lemma In_join c x ps : In x (join [c] ps) -> x = c \/ exists p, In p ps /\ In x p.
Proof.
  induction ps as [|p [|q ps] IH]; [intros []|intros H; right; exists p; split; [now left|exact H]|].
  rewrite join_cons. intros H. apply in_app_or in H as [H|H]; [right; exists p; split; [now left|exact H]|].
  destruct H as [<-|H]; [now left|]. destruct (IH H) as [->|(r & Hr & Hx)]; [now left|right]. exists r. split; [now right|exact Hx].
Qed.
Lemma repr_N_no c n : is_digit c = false -> ~ In c (repr_N n).
Proof. intros D H. pose proof (repr_N_digits n) as A. rewrite forallb_forall in A. rewrite (A _ H) in D. discriminate. Qed.
Lemma repr_N_inj n n' : repr_N n = repr_N n' -> n = n'.
Proof. intros E. now rewrite <- (repr_N_value n), <- (repr_N_value n'), E. Qed.

(** Dots replaced by underscores *)
Lemma replace_join s : replace_dots s = join [underscore] (split_on dot s).
Proof.
  rewrite <- (join_split dot s) at 1. pose proof (split_on_nonempty dot s) as N.
  assert (F : Forall (fun p => ~ In dot p) (split_on dot s)) by (apply (proj2 (spelled_parts (proj1 (split_spelled dot (split_on dot s) s) eq_refl)))).
  assert (X : forall p, ~ In dot p -> replace_dots p = p).
  { intros p Hp. unfold replace_dots. rewrite <- (map_id p) at 2. apply map_ext_in. intros c Hc.
    destruct (N.eqb_spec c dot) as [->|]; [contradiction|reflexivity]. }
  revert N F. generalize (split_on dot s). induction l as [|p [|q l] IH]; intros N F; [contradiction|inversion F; subst; now apply X|].
  rewrite !join_cons. inversion F; subst. unfold replace_dots at 1. rewrite !map_app. change (map _ p) with (replace_dots p). rewrite X by assumption.
  f_equal. cbn [map app]. f_equal. apply IH; [discriminate|assumption].
Qed.
Lemma replace_no c s : ~ In c s -> c <> underscore -> ~ In c (replace_dots s).
Proof.
  intros N U H. unfold replace_dots in H. rewrite in_map_iff in H. destruct H as (x & E & Hx). destruct (N.eqb_spec x dot) as [Ex|Ex]; [now rewrite <- E in U|]. subst c. contradiction.
Qed.
Lemma replace_no_dot s : ~ In dot (replace_dots s).
Proof.
  intros H. unfold replace_dots in H. rewrite in_map_iff in H. destruct H as (x & E & Hx). destruct (N.eqb_spec x dot) as [Ex|Ex]; [discriminate E|]. contradiction.
Qed.

Definition tail_parts (e : environment) (file : pystr) : list pystr :=
  [platform e; implementation e; repr_N (major e); repr_N (minor e); repr_N (micro e); releaselevel e; repr_N (serial e); with_suffix FILE_SUFFIX file].
Lemma join_app c ps qs : ps <> [] -> qs <> [] -> join [c] (ps ++ qs) = join [c] ps ++ [c] ++ join [c] qs.
Proof.
  intros N M. induction ps as [|p [|q ps] IH]; [contradiction| |].
  - destruct qs; [contradiction|]. cbn [app]. now rewrite join_cons.
  - cbn [app] in *. rewrite !join_cons, IH by discriminate. cbn [app]. rewrite <- !app_assoc. reflexivity.
Qed.
Lemma cache_name_parts e file : cache_name e file = join [underscore] ([[]; $"mypy"] ++ split_on dot (mypy_version e) ++ tail_parts e file).
Proof.
  rewrite join_app; [|discriminate|intros X; apply app_eq_nil in X as [X _]; now apply split_on_nonempty in X].
  rewrite join_app; [|apply split_on_nonempty|discriminate]. rewrite <- replace_join.
  unfold cache_name, version_text, tail_parts. rewrite !join_cons. cbn [join app]. repeat (rewrite <- !app_assoc; cbn [app]). reflexivity.
Qed.
Lemma split_parts s p : In p (split_on dot s) -> forall c, In c p -> In c s.
Proof.
  intros Hp c Hc. rewrite <- (join_split dot s). revert Hp c Hc. generalize (split_on dot s). induction l as [|q [|r l] IH]; intros Hp c Hc; [destruct Hp| |].
  - destruct Hp as [<-|[]]. exact Hc.
  - rewrite join_cons. destruct Hp as [<-|Hp]; [apply in_or_app; now left|]. apply in_or_app. right. right. now apply IH.
Qed.

Lemma names_separate e e' file file' : plain e -> plain e' -> ~ In underscore (with_suffix FILE_SUFFIX file) -> ~ In underscore (with_suffix FILE_SUFFIX file') ->
  cache_name e file = cache_name e' file' -> e = e' /\ with_suffix FILE_SUFFIX file = with_suffix FILE_SUFFIX file'.
Proof.
  assert (X : forall e file, plain e -> ~ In underscore (with_suffix FILE_SUFFIX file) ->
    split_on underscore (cache_name e file) = [[]; $"mypy"] ++ split_on dot (mypy_version e) ++ tail_parts e file).
  { intros e0 f0 (P1 & P2 & P3 & P4) F. rewrite cache_name_parts. apply split_join. split; [discriminate|].
    apply Forall_app. split; [repeat constructor; cbn; intuition discriminate|]. apply Forall_app. split.
    - apply Forall_forall. intros p Hp C. apply P1. eapply split_parts; eauto.
    - unfold tail_parts. repeat (constructor; [try assumption; try (apply repr_N_no; reflexivity)|]). constructor. }
  intros P P' F F' E. apply (f_equal (split_on underscore)) in E. rewrite !X in E by assumption.
  apply app_inv_head in E.
  assert (L : length (split_on dot (mypy_version e)) = length (split_on dot (mypy_version e'))).
  { apply (f_equal (@length _)) in E. rewrite !app_length in E. cbn [length tail_parts] in E. lia. }
  assert (S : split_on dot (mypy_version e) = split_on dot (mypy_version e') /\ tail_parts e file = tail_parts e' file').
  { revert L E. generalize (split_on dot (mypy_version e)) (split_on dot (mypy_version e')). clear.
    induction l as [|a l IH]; intros [|b l'] L E; try discriminate L; [auto|]. cbn [app] in E. injection E as <- E. injection L as L.
    destruct (IH _ L E) as [<- ?]. auto. }
  destruct S as [S T]. injection T as T1 T2 T3 T4 T5 T6 T7 T8. apply repr_N_inj in T3, T4, T5, T7.
  assert (V : mypy_version e = mypy_version e') by now rewrite <- (join_split dot (mypy_version e)), S, join_split.
  split; [|exact T8]. destruct e, e'. cbn in *. congruence.
Qed.

(** Names of modules *)
Lemma stem_suffix a : a <> [] -> stem (a ++ FILE_SUFFIX) = a.
Proof.
  intros N. unfold stem, suffix, FILE_SUFFIX. change (a ++ $".py") with (a ++ dot :: [112; 121]%N). rewrite rfind_dot_app by (cbn; intuition discriminate).
  assert (0 < length a) by (destruct a; [contradiction|cbn; lia]). rewrite app_length. cbn [length].
  rewrite (proj2 (Nat.ltb_lt 0 (length a))) by lia. rewrite (proj2 (Nat.ltb_lt _ _)) by lia. cbn [andb].
  rewrite skipn_length, app_length. cbn [length]. replace (_ - _) with (length a) by lia. now rewrite firstn_app, Nat.sub_diag, firstn_all, app_nil_r.
Qed.
Lemma before_last package n : ~ In dot n -> before_last_dot (package ++ dot :: n) = package.
Proof. intros N. unfold before_last_dot. rewrite rfind_dot_app by exact N. now rewrite firstn_app, Nat.sub_diag, firstn_all, app_nil_r. Qed.
Lemma name_without_dots e n : ~ In dot (platform e) -> ~ In dot (implementation e) -> ~ In dot (releaselevel e) -> ~ In dot n ->
  forall file, with_suffix FILE_SUFFIX file = n ++ FILE_SUFFIX ->
  exists m, cache_name e file = m ++ FILE_SUFFIX /\ ~ In dot m /\ m <> [].
Proof.
  intros P I R N file F. exists ($"_" ++ $"mypy" ++ $"_" ++ replace_dots (mypy_version e) ++ $"_" ++ platform e ++ $"_" ++ implementation e ++ $"_" ++ version_text e ++ $"_" ++ n).
  split; [unfold cache_name; rewrite F; repeat rewrite <- app_assoc; reflexivity|]. split; [|discriminate].
  assert (V : ~ In dot (version_text e)).
  { intros H. apply In_join in H as [H|(p & Hp & H)]; [discriminate|]. cbn [In] in Hp.
    repeat (destruct Hp as [<-|Hp]; [try (now apply repr_N_no in H); contradiction|]). exact Hp. }
  intros H. repeat (apply in_app_or in H as [H|H]; [try contradiction; try (now apply replace_no_dot in H); cbn in H; intuition discriminate|]). contradiction.
Qed.
