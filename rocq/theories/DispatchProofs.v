(** Proofs about where callables are looked for. *)
From Verif Require Import Base Models Catalog CatalogProofs Scoping Stubs Signatures SpecSignatures LocationProofs Indexing SpecIndexing
  SpecDispatch.
From Verif Require Import Whole SpecWhole.
From Verif Require P_Indexing.

(** The table of modules.py: the index of the modules, as far as stubs know the locations
    (modules.py:57-88) *)
Definition computed_table {O} {E : Eqb O} (h : heap O) (import_module : path -> option O) (modules : list path) (fuel : nat)
    (names : database) (limit : nat) (table : index) : Prop :=
  exists found, from_modules h import_module fuel modules = Ok found
    /\ to_supported_qualified_paths (contains_object_path names limit) found = Ok table.

Section Table.
Context {O : Type} {E : Eqb O}.
Variables (h : heap O) (import_module : path -> option O) (modules : list path) (fuel : nat) (names : database) (limit : nat).
Variable table : index.
Hypothesis T : computed_table h import_module modules fuel names limit table.

Lemma listed_locations q l : locations table q l <-> exists cs, listed table q = Some cs /\ In l cs.
Proof.
  unfold locations, listed. unfold index, dict in *. split.
  - intros (os & ls & A & B & C). exists ls. split; [|exact C]. now rewrite A.
  - intros (cs & A & B). destruct (dget (fst q) table) as [os|]; [|discriminate]. eauto.
Qed.
Lemma located q c : locations table q c <-> place h import_module modules names limit q c.
Proof.
  destruct T as (found & F & S). destruct (P_Indexing.C60_index_well_formed _ _ h import_module fuel modules found F) as [N U].
  destruct (P_Indexing.C60_exactly_resolvable names limit found table N U S) as [X _]. rewrite X.
  destruct c as [m p]. rewrite (P_Indexing.C59_sound_and_complete _ _ h import_module fuel modules found F).
  unfold place. cbn [fst snd]. tauto.
Qed.
Lemma listed_none q : listed table q = None <-> forall c, ~ place h import_module modules names limit q c.
Proof.
  split.
  - intros L c P. apply located, listed_locations in P as (cs & P & _). congruence.
  - intros N. destruct (listed table q) as [[|c cs]|] eqn:L; [| |reflexivity]; exfalso.
    + destruct T as (found & F & S). destruct (P_Indexing.C60_index_well_formed _ _ h import_module fuel modules found F) as [W U].
      unfold listed in L. destruct (dget (fst q) table) as [os|] eqn:D; [|discriminate].
      apply dget_Some_In in D. apply dget_Some_In in L.
      destruct (P_Indexing.C60_no_empty_entries names limit found table W U S _ _ D) as [_ X]. now apply (X _ _ L).
    + apply (N c), located, listed_locations. exists (c :: cs). split; [exact L|now left].
Qed.
Lemma candidates {O'} (sys_modules : dict pystr O') getattr v q c :
  candidate sys_modules getattr table v q c <-> looked_for h import_module modules names limit sys_modules getattr v q c.
Proof.
  unfold looked_for. split.
  - intros [cs c' L I P|L N]; [left|right].
    + split; [|exact P]. apply located, listed_locations. eauto.
    + split; [now apply listed_none|auto].
  - intros [[P X]|(N & Q & ->)].
    + apply located, listed_locations in P as (cs & L & I). eapply ca_listed; eauto.
    + apply ca_itself; [now apply listed_none|exact Q].
Qed.
Lemma lives_found {O'} st (sys_modules : dict pystr O') getattr own v q :
  db st = names -> lives_at h import_module modules names limit sys_modules getattr v (own v) q ->
  found_at limit st sys_modules getattr table own v q.
Proof.
  intros D [[c C] L]. split.
  - exists c. now apply candidates.
  - intros c' C'. rewrite D. apply L. now apply candidates.
Qed.
Lemma lives_found_first {O'} st (sys_modules : dict pystr O') getattr own v q :
  db st = names -> lives_first h import_module modules names limit sys_modules getattr v (own v) q ->
  found_first limit st sys_modules getattr table own v q.
Proof.
  intros D [(c & C & R) L]. split.
  - exists c. rewrite D. split; [now apply candidates|exact R].
  - intros c' C'. rewrite D. apply L. now apply candidates.
Qed.
Lemma lives_places {O'} st (sys_modules : dict pystr O') getattr own v q :
  db st = names ->
  place_of limit st sys_modules getattr table own v q
  <-> lives_among h import_module modules names limit sys_modules getattr v (own v) q.
Proof.
  intros D. unfold place_of, lives_among. rewrite D. split.
  - intros (c & C & R & N1 & N2). split; [exact N1|]. split; [exact N2|]. exists c. split; [now apply candidates|exact R].
  - intros (N1 & N2 & c & C & R). exists c. split; [now apply candidates|auto].
Qed.
Lemma lives_has_places {O'} st (sys_modules : dict pystr O') getattr own v q :
  db st = names -> lives_among h import_module modules names limit sys_modules getattr v (own v) q ->
  all_looked_up h import_module modules names limit sys_modules getattr v (own v) ->
  has_places limit st sys_modules getattr table own v.
Proof.
  intros D L A. split; [exists q; now apply lives_places|].
  intros c C e. rewrite D. apply A. now apply candidates.
Qed.
(** Objects without a name have no places. *)
Lemma nameless q c : fst q = [] -> snd q = [] -> ~ place h import_module modules names limit q c.
Proof.
  intros Q1 Q2 (_ & (module & v & _ & _ & I & [(t & D)|N]) & _); [|now apply N].
  rewrite D in I. cbn in I. subst q. cbn in Q2. unfold path_from_string in Q2. now apply split_on_nonempty in Q2.
Qed.
End Table.
