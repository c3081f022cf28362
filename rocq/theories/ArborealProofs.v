(** Proofs about relative imports and tree traversal. *)
From Coq Require Import Permutation.
From Verif Require Import Base Ast Catalog SpecCatalog CatalogProofs Arboreal SpecArboreal.
Set Implicit Arguments.

(** ** Relative imports *)
Lemma ascends_firstn p n q : ascends p n q <-> n < length p /\ q = firstn (length p - n) p.
Proof.
  split.
  - induction 1 as [p Hp|p name n q H [IH1 IH2]].
    + split; [destruct p; [easy|cbn; lia]|]. now rewrite Nat.sub_0_r, firstn_all.
    + rewrite app_length. cbn. split; [lia|]. rewrite IH2, firstn_app.
      replace (length p + 1 - S n - length p) with 0 by lia. cbn. rewrite app_nil_r. f_equal. lia.
  - revert p q. induction n as [|n IH]; intros p q [Hn ->].
    + rewrite Nat.sub_0_r, firstn_all. constructor. now destruct p.
    + destruct (@exists_last _ p) as [p' [name ->]]; [now destruct p|].
      rewrite app_length in *. cbn in *.
      rewrite firstn_app. replace (length p' + 1 - S n - length p') with 0 by lia. cbn. rewrite app_nil_r.
      constructor. apply IH. split; [lia|]. f_equal. lia.
Qed.
Lemma named_split module : forall tail, named module tail <-> tail = match module with None => [] | Some m => split_on dot m end.
Proof.
  intros tail. destruct module as [m|]; split; intros H.
  - inversion H as [|m' p Hp]; subst. symmetry. now apply spelled_split.
  - subst. constructor. now apply split_spelled.
  - now inversion H.
  - subst. constructor.
Qed.
Definition package_length (module_path : path) (is_package : bool) : nat :=
  if is_package then length module_path else pred (length module_path).
Lemma package_of_firstn m b p : package_of m b p <-> (b = false -> m <> []) /\ p = firstn (package_length m b) m.
Proof.
  split.
  - intros [|package name ->]; cbn.
    + split; [easy|]. now rewrite firstn_all.
    + split; [intros _; now destruct package|]. rewrite app_length, firstn_app. cbn.
      replace (pred (length package + 1)) with (length package) by lia.
      rewrite Nat.sub_diag, firstn_all. cbn. now rewrite app_nil_r.
  - intros [Hm ->]. destruct b; cbn; [rewrite firstn_all; constructor|].
    destruct (@exists_last _ m) as [m' [name ->]]; [now apply Hm|].
    econstructor. rewrite app_length, firstn_app. cbn.
    replace (pred (length m' + 1)) with (length m') by lia.
    rewrite Nat.sub_diag, firstn_all. cbn. now rewrite app_nil_r.
Qed.
Lemma package_length_le m b : package_length m b <= length m.
Proof. destruct b; cbn; lia. Qed.

Lemma imports_total level module m b p :
  imports m b level module p -> to_parent_module_path level module m b = Ok p.
Proof.
  intros [m' p' Hp|n module' package base tail HP HA HN].
  - cbn. f_equal. apply spelled_split. exact Hp.
  - apply package_of_firstn in HP. destruct HP as [Hb ->]. apply ascends_firstn in HA.
    destruct HA as [HA ->]. rewrite firstn_length, Nat.min_l in * by apply package_length_le.
    apply named_split in HN. subst tail. unfold to_parent_module_path. f_equal. f_equal.
    rewrite firstn_firstn, Nat.min_l by lia.
    assert (E : (Z.of_nat (length m) + (if b then 1 else 0) - Z.of_nat (S n))%Z
                = Z.of_nat (package_length m b - n)).
    { destruct b; cbn [package_length] in *; lia. }
    rewrite E. destruct (Z.eqb_spec (Z.of_nat (package_length m b - n)) 0) as [H0|H0]; [lia|].
    unfold slice_to. destruct (Z.ltb_spec (Z.of_nat (package_length m b - n)) 0); [lia|].
    now rewrite Nat2Z.id.
Qed.
(** Everything Python rejects, the code accepts. *)
Lemma imports_rejected_accepted n module m b :
  m <> [] -> (forall p, ~ imports m b (S n) module p) ->
  package_length m b <= n /\
  to_parent_module_path (S n) module m b
  = Ok (firstn (if n =? package_length m b then length m
                else length m - (n - package_length m b)) m
        ++ match module with None => [] | Some s => split_on dot s end).
Proof.
  intros Hm H. assert (HL : package_length m b <= n).
  { destruct (Nat.le_gt_cases (package_length m b) n) as [E|E]; [easy|]. exfalso.
    eapply H. eapply imports_relative.
    - apply package_of_firstn. split; [now intros _|reflexivity].
    - apply ascends_firstn. rewrite firstn_length, Nat.min_l by apply package_length_le. split; [exact E|reflexivity].
    - now apply named_split. }
  split; [exact HL|]. unfold to_parent_module_path. f_equal. f_equal.
  assert (Hl : 0 < length m) by (destruct m; [easy|cbn; lia]).
  assert (E : (Z.of_nat (length m) + (if b then 1 else 0) - Z.of_nat (S n))%Z
              = (Z.of_nat (package_length m b) - Z.of_nat n)%Z).
  { destruct b; cbn [package_length] in *; lia. }
  rewrite E. clear E. destruct (Nat.eqb_spec n (package_length m b)) as [->|Hn].
  - rewrite Z.sub_diag. cbn. now rewrite firstn_all.
  - destruct (Z.eqb_spec (Z.of_nat (package_length m b) - Z.of_nat n) 0); [lia|].
    unfold slice_to. destruct (Z.ltb_spec (Z.of_nat (package_length m b) - Z.of_nat n) 0); [|lia].
    f_equal. lia.
Qed.
Lemma imports_functional m b level module p p' :
  imports m b level module p -> imports m b level module p' -> p = p'.
Proof. intros H H'. apply imports_total in H, H'. congruence. Qed.

(** ** Traversal *)
Section Tree.
Context {A : Type}.
Implicit Types (t c d : tree A) (q : list (tree A)).

Lemma tree_ind' (P : tree A -> Prop) :
  (forall a ts, Forall P ts -> P (Node a ts)) -> forall t, P t.
Proof.
  intros H. fix IH 1. intros [a ts]. apply H. induction ts as [|t ts IHts]; constructor; [apply IH | exact IHts].
Qed.

Definition total q := fold_right (fun c n => size c + n) 0 q.
Definition tallest q := fold_right (fun c h => Nat.max (height c) h) 0 q.
Lemma total_app q q' : total (q ++ q') = total q + total q'.
Proof. induction q as [|c q IH]; cbn; [reflexivity|]. unfold total in *. cbn. lia. Qed.
Lemma tallest_app q q' : tallest (q ++ q') = Nat.max (tallest q) (tallest q').
Proof. induction q as [|c q IH]; cbn; [reflexivity|]. unfold tallest in *. cbn. lia. Qed.
Lemma size_children t : size t = S (total (children t)).
Proof. now destruct t. Qed.
Lemma height_children t : height t = S (tallest (children t)).
Proof. now destruct t. Qed.
Lemma total_children q : total q = length q + total (flat_map children q).
Proof.
  induction q as [|c q IH]; [reflexivity|]. cbn [flat_map length].
  rewrite total_app. change (total (c :: q)) with (size c + total q). rewrite size_children. lia.
Qed.
Lemma tallest_children q n : tallest q <= S n -> tallest (flat_map children q) <= n.
Proof.
  induction q as [|c q IH]; [cbn; lia|]. cbn [flat_map]. rewrite tallest_app.
  change (tallest (c :: q)) with (Nat.max (height c) (tallest q)). rewrite height_children.
  intros H. specialize (IH ltac:(lia)). lia.
Qed.
Lemma tallest_zero q : tallest q = 0 -> q = [].
Proof. destruct q as [|[a ts] q]; [reflexivity|]. cbn. destruct (fold_right _ 0 q); discriminate. Qed.

Lemma drain_round (r : list (tree A)) : forall nx fuel, length r <= fuel ->
  drain fuel (r ++ nx) = option_map (app r) (drain (fuel - length r) (nx ++ flat_map children r)).
Proof.
  induction r as [|c r IH]; intros nx fuel Hf.
  - cbn. rewrite app_nil_r, Nat.sub_0_r. now destruct (drain fuel nx).
  - destruct fuel as [|fuel]; cbn in Hf; [lia|]. cbn [app drain].
    rewrite <- app_assoc, IH by lia. cbn [flat_map length Nat.sub]. rewrite <- app_assoc.
    match goal with |- context [@drain _ ?f ?l] => now destruct (drain f l) end.
Qed.
Lemma flat_map_level k q : flat_map (level (S k)) q = flat_map (level k) (flat_map children q).
Proof.
  induction q as [|c q IH]; [reflexivity|].
  change (flat_map (level (S k)) (c :: q)) with (flat_map (level k) (children c) ++ flat_map (level (S k)) q).
  rewrite IH. cbn [flat_map]. now rewrite flat_map_app.
Qed.
Lemma flat_map_level_0 q : flat_map (level 0) q = q.
Proof. induction q as [|c q IH]; cbn; [reflexivity|]. now f_equal. Qed.

Lemma flat_map_seq {B} (f : nat -> list B) n : flat_map f (seq 1 n) = flat_map (fun k => f (S k)) (seq 0 n).
Proof. now rewrite <- seq_shift, !flat_map_concat_map, map_map. Qed.
Lemma flat_map_ext' {B C} (f g : B -> list C) l : (forall b, f b = g b) -> flat_map f l = flat_map g l.
Proof. intros H. induction l as [|b l IH]; cbn; [reflexivity|]. now rewrite H, IH. Qed.
Lemma drain_levels n : forall q fuel, tallest q <= n -> total q <= fuel ->
  drain fuel q = Some (flat_map (fun k => flat_map (level k) q) (seq 0 n)).
Proof.
  induction n as [|n IH]; intros q fuel Hn Hf.
  - rewrite (tallest_zero q (proj1 (Nat.le_0_r _) Hn)). now destruct fuel.
  - rewrite total_children in Hf. rewrite <- (app_nil_r q) at 1.
    rewrite drain_round by lia. cbn [app]. rewrite IH; [|now apply tallest_children|lia].
    cbn [option_map seq flat_map]. rewrite flat_map_level_0. f_equal. f_equal.
    rewrite flat_map_seq. apply flat_map_ext'. intros k. symmetry. apply flat_map_level.
Qed.

Lemma iterate_levels t fuel : size t <= S fuel ->
  recursively_iterate_children fuel t = Some (flat_map (fun k => level k t) (seq 1 (pred (height t)))).
Proof.
  intros Hf. unfold recursively_iterate_children. rewrite size_children in Hf.
  rewrite (@drain_levels (tallest (children t))) by lia. f_equal.
  rewrite height_children. cbn [pred]. now rewrite flat_map_seq.
Qed.

Lemma nodes_permutation q : Permutation (flat_map nodes_of q) (q ++ flat_map nodes_of (flat_map children q)).
Proof.
  induction q as [|[a ts] q IH]; [constructor|]. cbn [flat_map nodes_of children app].
  constructor. rewrite flat_map_app, IH.
  rewrite Permutation_app_comm, <- app_assoc. apply Permutation_app_head.
  apply Permutation_app_comm.
Qed.
Lemma levels_permutation n : forall q, tallest q <= n ->
  Permutation (flat_map (fun k => flat_map (level k) q) (seq 0 n)) (flat_map nodes_of q).
Proof.
  induction n as [|n IH]; intros q Hn.
  - rewrite (tallest_zero q (proj1 (Nat.le_0_r _) Hn)). constructor.
  - rewrite nodes_permutation. cbn [seq flat_map]. rewrite flat_map_level_0.
    apply Permutation_app_head. rewrite <- IH by now apply tallest_children.
    rewrite flat_map_seq. erewrite flat_map_ext'; [reflexivity|]. intros k. apply flat_map_level.
Qed.
Lemma iterate_permutation t fuel : size t <= S fuel ->
  exists yielded, recursively_iterate_children fuel t = Some yielded /\ Permutation yielded (descendants t).
Proof.
  intros Hf. eexists. split; [now apply iterate_levels|]. unfold descendants.
  rewrite <- (@levels_permutation (tallest (children t))) by lia. rewrite height_children. cbn [pred].
  now rewrite flat_map_seq.
Qed.
Lemma level_at_depth n : forall t d, In d (level n t) <-> at_depth n t d.
Proof.
  induction n as [|n IH]; intros t d; cbn.
  - split; [intros [->|[]]; constructor | intros H; inversion H; now left].
  - rewrite in_flat_map. split.
    + intros (c & Hc & Hd). econstructor; [exact Hc|]. now apply IH.
    + intros H. inversion H; subst. eexists. split; [eassumption|]. now apply IH.
Qed.
Lemma descendants_at_depth t d : In d (descendants t) <-> exists n, at_depth (S n) t d.
Proof.
  destruct (@iterate_permutation t (size t)) as (ys & Hy & HP); [lia|].
  rewrite iterate_levels in Hy by lia. injection Hy as <-.
  assert (HI : In d (descendants t) <-> In d (flat_map (fun k => level k t) (seq 1 (pred (height t))))).
  { split; intros H; [eapply Permutation_in; [symmetry; exact HP|exact H] | eapply Permutation_in; [exact HP|exact H]]. }
  rewrite HI, in_flat_map. split.
  - intros (k & Hk & Hd). apply in_seq in Hk. destruct k as [|k]; [lia|]. exists k. now apply level_at_depth.
  - intros (n & Hn). exists (S n). split; [|now apply level_at_depth]. apply in_seq.
    enough (S n < height t) by lia. clear -Hn. remember (S n) as m eqn:E. clear E n.
    induction Hn as [t|n t c d Hc Hd IH]; [destruct t; cbn; lia|].
    rewrite height_children. apply -> Nat.succ_lt_mono.
    eapply Nat.lt_le_trans; [exact IH|]. clear -Hc. induction (children t) as [|x q IH]; [easy|].
    change (tallest (x :: q)) with (Nat.max (height x) (tallest q)). destruct Hc as [->|Hc]; [lia|]. specialize (IH Hc). lia.
Qed.
Lemma iterate_once (t : tree A) fuel yielded : size t <= S fuel ->
  NoDup (map label (descendants t)) ->
  recursively_iterate_children fuel t = Some yielded -> NoDup (map label yielded).
Proof.
  intros Hf HN Hy. destruct (iterate_permutation _ Hf) as (ys & Hy' & HP). assert (ys = yielded) by congruence. subst.
  eapply Permutation_NoDup; [|exact HN]. symmetry. now apply Permutation_map.
Qed.
End Tree.
