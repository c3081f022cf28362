(** Properties C42 and C43: relative imports, and the traversal of syntax trees. *)
From Verif Require Import Base Catalog SpecCatalog Arboreal SpecArboreal ArborealProofs.
From Coq Require Import Permutation.

(** ** C42 *)
(** Everything Python accepts is resolved as Python does. *)
Theorem C42_accepted_imports_resolve_as_in_python :
  forall level module module_path is_package p,
    imports module_path is_package level module p ->
    to_parent_module_path level module module_path is_package = Ok p.
Proof. exact @imports_total. Qed.
Print Assumptions C42_accepted_imports_resolve_as_in_python.

(** Imports beyond the top-level package are not rejected, ever: they give the
    module itself (at exactly one step too far) or a shortened path. *)
Theorem C42_beyond_top_level_accepted_partial :
  forall n module module_path is_package,
    module_path <> [] ->
    (forall p, ~ imports module_path is_package (S n) module p) ->
    package_length module_path is_package <= n /\
    to_parent_module_path (S n) module module_path is_package
    = Ok (firstn (if n =? package_length module_path is_package then length module_path
                  else length module_path - (n - package_length module_path is_package)) module_path
          ++ match module with None => [] | Some s => split_on dot s end).
Proof. exact @imports_rejected_accepted. Qed.
Print Assumptions C42_beyond_top_level_accepted_partial.

(** [from .. import x] in the package [a]: Python raises ImportError, paradigm
    takes [a]. [from ... import x] in the module [a.b]: paradigm takes [a.b]. *)
Theorem C42_beyond_top_level_refuted :
  (forall p, ~ imports [$"a"] true 2 None p)
  /\ to_parent_module_path 2 None [$"a"] true = Ok [$"a"]
  /\ (forall p, ~ imports [$"a"; $"b"] false 2 None p)
  /\ to_parent_module_path 2 None [$"a"; $"b"] false = Ok [$"a"; $"b"]
  /\ (forall p, ~ imports [$"a"; $"b"; $"c"] true 5 None p)
  /\ to_parent_module_path 5 None [$"a"; $"b"; $"c"] true = Ok [$"a"; $"b"].
Proof.
  repeat split; try reflexivity.
  all: intros p H; inv H;
    match goal with H : package_of _ _ _ |- _ => apply package_of_firstn in H; destruct H as [_ ->] end;
    match goal with H : ascends _ _ _ |- _ => apply ascends_firstn in H; cbn in H; destruct H; lia end.
Qed.
Print Assumptions C42_beyond_top_level_refuted.

(** Python's rules determine the module. *)
Theorem C42_python_is_deterministic :
  forall module_path is_package level module p p',
    imports module_path is_package level module p ->
    imports module_path is_package level module p' -> p = p'.
Proof. exact @imports_functional. Qed.
Print Assumptions C42_python_is_deterministic.

(** [from ..c import x] in the module [a.b.m], and in the package [a.b] *)
Example C42_example :
  imports [$"a"; $"b"; $"m"] false 2 (Some $"c") [$"a"; $"c"]
  /\ to_parent_module_path 2 (Some $"c") [$"a"; $"b"; $"m"] false = Ok [$"a"; $"c"]
  /\ imports [$"a"; $"b"] true 2 (Some $"c") [$"a"; $"c"]
  /\ to_parent_module_path 2 (Some $"c") [$"a"; $"b"] true = Ok [$"a"; $"c"].
Proof.
  repeat split; try reflexivity.
  - apply (imports_relative [$"a"; $"b"; $"m"] false 1 (Some $"c") [$"a"; $"b"] [$"a"] [$"c"]).
    + apply (package_parent [$"a"; $"b"; $"m"] [$"a"; $"b"] $"m"). reflexivity.
    + apply (ascends_more [$"a"] $"b" 0 [$"a"]). constructor. discriminate.
    + constructor. constructor. vm_compute. intuition discriminate.
  - apply (imports_relative [$"a"; $"b"] true 1 (Some $"c") [$"a"; $"b"] [$"a"] [$"c"]).
    + constructor.
    + apply (ascends_more [$"a"] $"b" 0 [$"a"]). constructor. discriminate.
    + constructor. constructor. vm_compute. intuition discriminate.
Qed.

(** ** C43 *)
(** With enough rounds (the number of nodes) the loop ends; more rounds change
    nothing. The result is the levels one after the other. *)
Theorem C43_level_by_level :
  forall A (t : tree A) fuel, size t <= S fuel ->
    recursively_iterate_children fuel t = Some (flat_map (fun k => level k t) (seq 1 (pred (height t)))).
Proof. exact @iterate_levels. Qed.
Print Assumptions C43_level_by_level.

(** A level is what is at that distance. *)
Theorem C43_levels_are_distances :
  forall A n (t d : tree A), In d (level n t) <-> at_depth n t d.
Proof. exact @level_at_depth. Qed.
Print Assumptions C43_levels_are_distances.

(** Every position in the tree below the root exactly once. *)
Theorem C43_every_descendant_once :
  forall A (t : tree A) fuel, size t <= S fuel ->
    exists yielded, recursively_iterate_children fuel t = Some yielded
                    /\ Permutation yielded (descendants t).
Proof. exact @iterate_permutation. Qed.
Print Assumptions C43_every_descendant_once.

Theorem C43_descendants_are_all_below :
  forall A (t d : tree A), In d (descendants t) <-> exists n, at_depth (S n) t d.
Proof. exact @descendants_at_depth. Qed.
Print Assumptions C43_descendants_are_all_below.

(** Nodes with different identities are not repeated. *)
Theorem C43_no_repetition :
  forall A (t : tree A) fuel yielded, size t <= S fuel ->
    NoDup (map label (descendants t)) ->
    recursively_iterate_children fuel t = Some yielded -> NoDup (map label yielded).
Proof. exact @iterate_once. Qed.
Print Assumptions C43_no_repetition.

Example C43_example :
  let t := Node 0 [Node 1 [Node 3 [Node 5 []]; Node 4 []]; Node 2 []] in
  option_map (map (@label nat)) (recursively_iterate_children 5 t) = Some [1; 2; 3; 4; 5]
  /\ size t = 6.
Proof. split; reflexivity. Qed.
