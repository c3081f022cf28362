(** Python's [sorted] (a stable sort) and the order on strings and tuples. Not
    part of paradigm. *)
From Verif Require Import Base.
Set Implicit Arguments.

Section Sort.
Context {A : Type} (leb : A -> A -> bool).
Fixpoint insert (x : A) (xs : list A) : list A :=
  match xs with
  | [] => [x]
  | y :: ys => if leb x y then x :: xs else y :: insert x ys
  end.
Fixpoint sorted (xs : list A) : list A :=
  match xs with
  | [] => []
  | x :: xs' => insert x (sorted xs')
  end.

Lemma insert_perm x xs : Permutation (x :: xs) (insert x xs).
Proof.
  induction xs as [|y ys IH]; cbn; [constructor; constructor|]. destruct (leb x y); [apply Permutation_refl|].
  etransitivity; [apply perm_swap|]. now constructor.
Qed.
Lemma sorted_perm xs : Permutation xs (sorted xs).
Proof.
  induction xs as [|x xs IH]; cbn; [constructor|]. etransitivity; [apply perm_skip, IH | apply insert_perm].
Qed.

Hypothesis total : forall x y, leb x y = true \/ leb y x = true.
Hypothesis trans : forall x y z, leb x y = true -> leb y z = true -> leb x z = true.

Lemma insert_sorted x xs : StronglySorted (fun a b => leb a b = true) xs ->
  StronglySorted (fun a b => leb a b = true) (insert x xs).
Proof.
  induction 1 as [|y ys Hs IH Hy]; cbn; [constructor; constructor|]. destruct (leb x y) eqn:E.
  - constructor; [constructor; assumption|]. constructor; [exact E|].
    rewrite Forall_forall in *. intros z Hz. eauto.
  - constructor; [exact IH|]. rewrite Forall_forall in *. intros z Hz.
    apply (Permutation_in z (Permutation_sym (insert_perm x ys))) in Hz as [<-|Hz]; [|auto].
    destruct (total x y); congruence.
Qed.
Lemma sorted_sorted xs : StronglySorted (fun a b => leb a b = true) (sorted xs).
Proof. induction xs as [|x xs IH]; cbn; [constructor | now apply insert_sorted]. Qed.

Hypothesis antisym : forall x y, leb x y = true -> leb y x = true -> x = y.
(** Sorting depends on the multiset only. *)
Lemma sorted_unique xs ys : StronglySorted (fun a b => leb a b = true) xs ->
  StronglySorted (fun a b => leb a b = true) ys -> Permutation xs ys -> xs = ys.
Proof.
  intros Hx. revert ys. induction Hx as [|x xs Hx IH Fx]; intros ys Hy P.
  - now apply Permutation_nil in P.
  - destruct Hy as [|y ys Hy Fy]; [now apply Permutation_sym, Permutation_nil in P|].
    rewrite Forall_forall in *.
    assert (E : x = y).
    { destruct (Permutation_in x P ltac:(now left)) as [->|Hi]; [easy|].
      destruct (Permutation_in y (Permutation_sym P) ltac:(now left)) as [->|Hj]; [easy|]. auto. }
    subst y. f_equal. apply IH; [assumption|]. now apply Permutation_cons_inv in P.
Qed.
Lemma sorted_ext xs ys : Permutation xs ys -> sorted xs = sorted ys.
Proof.
  intros P. apply sorted_unique; [apply sorted_sorted | apply sorted_sorted|].
  etransitivity; [apply Permutation_sym, sorted_perm|]. etransitivity; [exact P | apply sorted_perm].
Qed.
End Sort.

(** ** Orders: [<=] on strings, tuples (element-wise, shorter first) *)
Section Lex.
Context {A : Type} `{Eqb A} (leb : A -> A -> bool).
Fixpoint lex_leb (xs ys : list A) : bool :=
  match xs, ys with
  | [], _ => true
  | _ :: _, [] => false
  | x :: xs', y :: ys' => if x == y then lex_leb xs' ys' else leb x y
  end.
Hypothesis total : forall x y, leb x y = true \/ leb y x = true.
Hypothesis trans : forall x y z, leb x y = true -> leb y z = true -> leb x z = true.
Hypothesis antisym : forall x y, leb x y = true -> leb y x = true -> x = y.

Lemma lex_total xs ys : lex_leb xs ys = true \/ lex_leb ys xs = true.
Proof.
  revert ys. induction xs as [|x xs IH]; intros [|y ys]; cbn; auto.
  rewrite (eqb_sym y x). destruct (x == y); auto.
Qed.
Lemma lex_trans xs ys zs : lex_leb xs ys = true -> lex_leb ys zs = true -> lex_leb xs zs = true.
Proof.
  revert ys zs. induction xs as [|x xs IH]; intros [|y ys] [|z zs]; cbn; auto; try easy.
  destruct (eqb_reflect x y) as [->|Nxy].
  - destruct (eqb_reflect y z) as [->|Nyz]; eauto.
  - destruct (eqb_reflect y z) as [->|Nyz].
    + apply eqb_neq in Nxy. now rewrite Nxy.
    + intros H1 H2. destruct (eqb_reflect x z) as [->|Nxz]; [|eauto].
      exfalso. apply Nxy. now apply antisym.
Qed.
Lemma lex_antisym xs ys : lex_leb xs ys = true -> lex_leb ys xs = true -> xs = ys.
Proof.
  revert ys. induction xs as [|x xs IH]; intros [|y ys]; cbn; auto; try easy.
  rewrite (eqb_sym y x). destruct (eqb_reflect x y) as [->|Nxy].
  - intros H1 H2. f_equal. auto.
  - intros H1 H2. exfalso. auto.
Qed.
End Lex.

Section Pair.
Context {A B : Type} `{Eqb A} (leA : A -> A -> bool) (leB : B -> B -> bool).
Definition pair_leb (x y : A * B) : bool :=
  if fst x == fst y then leB (snd x) (snd y) else leA (fst x) (fst y).
Hypothesis totalA : forall x y, leA x y = true \/ leA y x = true.
Hypothesis transA : forall x y z, leA x y = true -> leA y z = true -> leA x z = true.
Hypothesis antisymA : forall x y, leA x y = true -> leA y x = true -> x = y.
Hypothesis totalB : forall x y, leB x y = true \/ leB y x = true.
Hypothesis transB : forall x y z, leB x y = true -> leB y z = true -> leB x z = true.
Hypothesis antisymB : forall x y, leB x y = true -> leB y x = true -> x = y.
Lemma pair_total x y : pair_leb x y = true \/ pair_leb y x = true.
Proof. unfold pair_leb. rewrite (eqb_sym (fst y)). destruct (fst x == fst y); auto. Qed.
Lemma pair_trans x y z : pair_leb x y = true -> pair_leb y z = true -> pair_leb x z = true.
Proof.
  destruct x as [x x'], y as [y y'], z as [z z']. unfold pair_leb. cbn [fst snd].
  destruct (eqb_reflect x y) as [->|Nxy].
  - destruct (eqb_reflect y z) as [->|Nyz]; eauto.
  - destruct (eqb_reflect y z) as [->|Nyz].
    + apply eqb_neq in Nxy. now rewrite Nxy.
    + intros H1 H2. destruct (eqb_reflect x z) as [->|Nxz]; [|eauto].
      exfalso. apply Nxy. now apply antisymA.
Qed.
Lemma pair_antisym x y : pair_leb x y = true -> pair_leb y x = true -> x = y.
Proof.
  destruct x as [x x'], y as [y y']. unfold pair_leb. cbn [fst snd]. rewrite (eqb_sym y x).
  destruct (eqb_reflect x y) as [->|Nxy].
  - intros H1 H2. f_equal. auto.
  - intros H1 H2. exfalso. auto.
Qed.
End Pair.

(** [<=] on strings (code points), on [catalog.Path] and on [catalog.QualifiedPath] *)
Definition str_leb : pystr -> pystr -> bool := lex_leb N.leb.
Definition path_leb : path -> path -> bool := lex_leb str_leb.
Definition qualified_path_leb : qualified_path -> qualified_path -> bool := pair_leb path_leb path_leb.

Lemma N_total x y : (x <=? y)%N = true \/ (y <=? x)%N = true.
Proof. rewrite !N.leb_le. lia. Qed.
Lemma N_trans x y z : (x <=? y)%N = true -> (y <=? z)%N = true -> (x <=? z)%N = true.
Proof. rewrite !N.leb_le. lia. Qed.
Lemma N_antisym x y : (x <=? y)%N = true -> (y <=? x)%N = true -> x = y.
Proof. rewrite !N.leb_le. lia. Qed.

Lemma str_total x y : str_leb x y = true \/ str_leb y x = true.
Proof. apply lex_total, N_total. Qed.
Lemma str_trans x y z : str_leb x y = true -> str_leb y z = true -> str_leb x z = true.
Proof. apply lex_trans; [apply N_trans | apply N_antisym]. Qed.
Lemma str_antisym x y : str_leb x y = true -> str_leb y x = true -> x = y.
Proof. apply lex_antisym, N_antisym. Qed.
Lemma path_total x y : path_leb x y = true \/ path_leb y x = true.
Proof. apply lex_total, str_total. Qed.
Lemma path_trans x y z : path_leb x y = true -> path_leb y z = true -> path_leb x z = true.
Proof. apply lex_trans; [apply str_trans | apply str_antisym]. Qed.
Lemma path_antisym x y : path_leb x y = true -> path_leb y x = true -> x = y.
Proof. apply lex_antisym, str_antisym. Qed.
Lemma qualified_path_total x y : qualified_path_leb x y = true \/ qualified_path_leb y x = true.
Proof. apply pair_total; apply path_total. Qed.
Lemma qualified_path_trans x y z :
  qualified_path_leb x y = true -> qualified_path_leb y z = true -> qualified_path_leb x z = true.
Proof. apply pair_trans; try apply path_trans; apply path_antisym. Qed.
Lemma qualified_path_antisym x y :
  qualified_path_leb x y = true -> qualified_path_leb y x = true -> x = y.
Proof. apply pair_antisym; apply path_antisym. Qed.
