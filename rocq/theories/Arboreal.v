(** Model of paradigm/_core/arboreal/utils.py ([subscript_to_item] for Python
    3.9+ is the [slice] field itself; [is_dependency_name] is [dependency_name]
    below) and of [ast.iter_child_nodes] for the expressions of [Ast]. *)
From Verif Require Import Base Ast Catalog.

(** A syntax node as far as traversal sees it: some payload and its child nodes
    in the order [ast.iter_child_nodes] gives them. *)
Inductive tree (A : Type) := Node (label : A) (children : list (tree A)).
Arguments Node {A}.
Definition label {A} (t : tree A) : A := match t with Node a _ => a end.
Definition children {A} (t : tree A) : list (tree A) := match t with Node _ ts => ts end.

(** The loop of [recursively_iterate_children] (utils.py:12-17): [popleft], yield,
    [extend]. [fuel] bounds the number of rounds. *)
Fixpoint drain {A} (fuel : nat) (candidates : list (tree A)) : option (list (tree A)) :=
  match candidates with
  | [] => Some []
  | candidate :: rest =>
      match fuel with
      | O => None
      | S fuel =>
          match drain fuel (rest ++ children candidate) with
          | Some yielded => Some (candidate :: yielded)
          | None => None
          end
      end
  end.
(** [recursively_iterate_children] (utils.py:12-17) *)
Definition recursively_iterate_children {A} (fuel : nat) (t : tree A) : option (list (tree A)) :=
  drain fuel (children t).

(** [seq[:depth]] with a possibly negative [depth] *)
Definition slice_to {A} (depth : Z) (xs : list A) : list A :=
  if Z.ltb depth 0 then firstn (Z.to_nat (Z.of_nat (length xs) + depth)) xs
  else firstn (Z.to_nat depth) xs.

(** [to_parent_module_path] (utils.py:20-37); [is_package] is the result of
    [sources.is_package(parent_module_path)]. [0 or None] is [None], i.e. the
    whole sequence. *)
Definition to_parent_module_path (level : nat) (module : option pystr) (parent_module_path : path)
    (is_package : bool) : res path :=
  match level with
  | O => match module with
         | None => Err AssertionError
         | Some m => Ok (path_from_string m)
         end
  | S _ =>
      let depth := (Z.of_nat (length parent_module_path) + (if is_package then 1 else 0)
                    - Z.of_nat level)%Z in
      let sliced := if Z.eqb depth 0 then parent_module_path else slice_to depth parent_module_path in
      Ok (sliced ++ match module with None => [] | Some m => split_on dot m end)
  end.
