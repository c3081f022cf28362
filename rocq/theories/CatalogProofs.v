(** Proofs about dotted names. *)
From Verif Require Import Base Catalog SpecCatalog.
Set Implicit Arguments.

Lemma join_cons sep p q ps : join sep (p :: q :: ps) = p ++ sep ++ join sep (q :: ps).
Proof. reflexivity. Qed.

Lemma split_from_app c part p s : ~ In c p -> split_from c part (p ++ s) = split_from c (part ++ p) s.
Proof.
  revert part. induction p as [|x p IH]; intros part Hp; cbn; [now rewrite app_nil_r|].
  destruct (N.eqb_spec x c) as [->|Hx]; [exfalso; apply Hp; now left|].
  rewrite IH by (intros H; apply Hp; now right). now rewrite <- app_assoc.
Qed.
Lemma split_from_spelled c s : forall part, ~ In c part -> spelled c (split_from c part s) (part ++ s).
Proof.
  induction s as [|x s IH]; intros part Hp; cbn; [rewrite app_nil_r; now constructor|].
  destruct (N.eqb_spec x c) as [->|Hx].
  - constructor; [easy|]. apply (IH []). easy.
  - replace (part ++ x :: s) with ((part ++ [x]) ++ s) by (now rewrite <- app_assoc). apply IH.
    rewrite in_app_iff. intros [H|[H|[]]]; [easy | congruence].
Qed.
Lemma spelled_split c ps s : spelled c ps s -> split_on c s = ps.
Proof.
  unfold split_on. induction 1 as [p Hp|p ps s Hp Hs IH].
  - rewrite <- (app_nil_r p), split_from_app by easy. now rewrite app_nil_r.
  - rewrite split_from_app by easy. cbn. rewrite N.eqb_refl. now rewrite IH.
Qed.
Lemma split_spelled c ps s : split_on c s = ps <-> spelled c ps s.
Proof. split; [intros <-; now apply (@split_from_spelled c s []) | apply spelled_split]. Qed.
Lemma spelled_join c ps s : spelled c ps s -> join [c] ps = s.
Proof.
  induction 1 as [p Hp|p ps s Hp Hs IH]; [reflexivity|].
  destruct ps as [|q ps]; [inversion Hs|]. rewrite join_cons, IH. reflexivity.
Qed.
Lemma join_spelled c ps : ps <> [] -> Forall (fun p => ~ In c p) ps -> spelled c ps (join [c] ps).
Proof.
  intros Hn HF. induction HF as [|p ps Hp HF IH]; [easy|].
  destruct ps as [|q ps]; [now constructor|]. rewrite join_cons. constructor; [easy|]. now apply IH.
Qed.
Lemma spelled_parts c ps s : spelled c ps s -> ps <> [] /\ Forall (fun p => ~ In c p) ps.
Proof. induction 1 as [p Hp|p ps s Hp Hs [IH1 IH2]]; split; auto; discriminate. Qed.

Lemma join_split c s : join [c] (split_on c s) = s.
Proof. apply spelled_join, split_spelled. reflexivity. Qed.
Lemma split_join c ps : split_on c (join [c] ps) = ps <-> ps <> [] /\ Forall (fun p => ~ In c p) ps.
Proof.
  split.
  - intros H. apply split_spelled, spelled_parts in H. exact H.
  - intros [Hn HF]. now apply split_spelled, join_spelled.
Qed.
Lemma spelled_functional c ps s s' : spelled c ps s -> spelled c ps s' -> s = s'.
Proof. intros H H'. apply spelled_join in H, H'. congruence. Qed.
Lemma spelled_injective c ps ps' s : spelled c ps s -> spelled c ps' s -> ps = ps'.
Proof. intros H H'. apply spelled_split in H, H'. congruence. Qed.
Lemma split_on_nonempty c s : split_on c s <> [].
Proof. exact (proj1 (spelled_parts (@split_from_spelled c s [] (fun x : In c [] => x)))). Qed.
