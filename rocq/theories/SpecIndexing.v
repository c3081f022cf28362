(** What indexing objects should do, independently of how it is done. *)
From Verif Require Import Base Catalog Indexing.

Section Spec.
Context {O : Type}.
Variable h : heap O.

Definition is_class (v : O) : Prop := exists t, describe h v = TypeValue t.
(** Going from a namespace along names passes these objects. *)
Inductive walk : O -> path -> list O -> Prop :=
| walk_nil ns : walk ns [] []
| walk_cons ns name v p vs : In (name, v) (members h ns) -> walk v p vs -> walk ns (name :: p) (v :: vs).
(** A path leads to an object through distinct classes. *)
Definition reaches (ns : O) (p : path) (v : O) : Prop :=
  exists classes, walk ns p (classes ++ [v]) /\ Forall is_class classes /\ NoDup classes
                  /\ (is_class v -> ~ In v classes).
(** Objects an index has entries for: classes and all with a qualified name *)
Definition indexed (v : O) (q : qualified_path) : Prop :=
  qualified_path_from (describe h v) = q /\ (is_class v \/ snd q <> []).

(** The locations an index has for a qualified path *)
Definition locations (paths : list (path * list (path * list qualified_path))) (q l : qualified_path) : Prop :=
  exists objects ls, dget (fst q) paths = Some objects /\ dget (snd q) objects = Some ls /\ In l ls.
End Spec.
