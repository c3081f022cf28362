(** Independent descriptions: Python's resolution of [from ... import], and what
    it means to visit a tree level by level. *)
From Verif Require Import Base SpecCatalog Arboreal.

(** The Python language reference, "Package Relative Imports", and
    [importlib._bootstrap._resolve_name]: a relative import starts from the
    package of the importing module - the module itself if it is a package,
    otherwise its parent; one dot is that package, each further dot its parent;
    beyond the top-level package it is an error. The named module is appended. *)
Inductive package_of (module_path : path) : bool -> path -> Prop :=
| package_itself : package_of module_path true module_path
| package_parent package name : module_path = package ++ [name] -> package_of module_path false package.
Inductive ascends : path -> nat -> path -> Prop :=
| ascends_none p : p <> [] -> ascends p 0 p
| ascends_more p name n q : ascends p n q -> ascends (p ++ [name]) (S n) q.
Inductive named : option pystr -> path -> Prop :=
| named_nothing : named None []
| named_module m p : spelled 46 p m -> named (Some m) p.
Inductive imports (module_path : path) (is_package : bool) : nat -> option pystr -> path -> Prop :=
| imports_absolute m p : spelled 46 p m -> imports module_path is_package 0 (Some m) p
| imports_relative n module package base tail :
    package_of module_path is_package package ->
    ascends package n base ->
    named module tail ->
    imports module_path is_package (S n) module (base ++ tail).

(** Proper descendants at distance [n], and all of them. *)
Inductive at_depth {A} : nat -> tree A -> tree A -> Prop :=
| at_depth_here t : at_depth 0 t t
| at_depth_below n t c d : In c (children t) -> at_depth n c d -> at_depth (S n) t d.
(** The nodes below [t] at distance [n], left to right. *)
Fixpoint level {A} (n : nat) (t : tree A) : list (tree A) :=
  match n with
  | O => [t]
  | S n => flat_map (level n) (children t)
  end.
Fixpoint height {A} (t : tree A) : nat :=
  match t with Node _ ts => S (fold_right (fun c h => Nat.max (height c) h) 0 ts) end.
Fixpoint size {A} (t : tree A) : nat :=
  match t with Node _ ts => S (fold_right (fun c n => size c + n) 0 ts) end.
(** All proper descendants, parents before children, left to right (one
    occurrence per position in the tree). *)
Fixpoint nodes_of {A} (t : tree A) : list (tree A) :=
  match t with Node _ ts => t :: flat_map nodes_of ts end.
Definition descendants {A} (t : tree A) : list (tree A) := flat_map nodes_of (children t).
