(** Model of paradigm/_core/index.py and of the filter in paradigm/_core/modules.py.

    Run-time objects are elements of a type with decidable equality (identity);
    a heap gives for each what [qualified_path_from] reads of it ([Catalog.value])
    and its [vars(...).items()]. A module that cannot be imported has no object.
    Warnings are not modelled. *)
From Verif Require Import Base Catalog Scoping Stubs.

Record heap (O : Type) := mk_heap {
  describe : O -> Catalog.value;
  members : O -> list (pystr * O)
}.
Arguments describe {O}.
Arguments members {O}.

(** [index.QualifiedPaths] (index.py:9-11) *)
Definition index := dict path (dict path (list qualified_path)).

(** [paths.setdefault(..., {}).setdefault(..., []).append(...)] (index.py:39-41, 53-55) *)
Definition add_location (q location : qualified_path) (paths : index) : index :=
  dmodify (fst q) [] (dmodify (snd q) [] (fun l => l ++ [location])) paths.

Section Index.
Context {O : Type} `{Eqb O}.
Variable h : heap O.

(** [isinstance(value, type)] (index.py:29) *)
Definition is_type (v : O) : bool :=
  match describe h v with TypeValue _ => true | _ => false end.
Definition qualified (v : O) : qualified_path := qualified_path_from (describe h v).

Section Members.
(** [_index_module_or_type] for a class, with [parent_path] and [visited_classes] *)
Variable inner : O -> path -> list O -> index -> res index.
Variable module_path : path.
(** The loop of [_index_module_or_type] (index.py:28-55) *)
Fixpoint index_members (parent : path) (visited : list O) (items : list (pystr * O)) (paths : index) : res index :=
  match items with
  | [] => Ok paths
  | (name, v) :: r =>
      let object_path := parent ++ [name] in
      let q := qualified v in
      if is_type v
      then if mem v visited
           then index_members parent visited r paths
           else if is_nil (fst q) && is_nil (snd q)                            (* :35-37 *)
                then Err AssertionError
                else let* paths := inner v object_path (v :: visited)
                                     (add_location q (module_path, object_path) paths) in
                     index_members parent visited r paths
      else index_members parent visited r
             (if is_nil (snd q) then paths else add_location q (module_path, object_path) paths)
  end.
End Members.

(** [_index_module_or_type] (index.py:22-55) *)
Fixpoint index_module_or_type (fuel : nat) (module_path : path) (namespace : O) (parent : path)
    (visited : list O) (paths : index) : res index :=
  match fuel with
  | 0 => Err RecursionError
  | S fuel => index_members (fun v p s => index_module_or_type fuel module_path v p s)
                module_path parent visited (members h namespace) paths
  end.

(** [_index_module_path] (index.py:58-74) *)
Definition index_module_path (import_module : path -> option O) (fuel : nat) (module_path : path) (paths : index)
  : res index :=
  match import_module module_path with
  | None => Ok paths
  | Some module => index_module_or_type fuel module_path module [] [] paths
  end.
(** [from_modules] (index.py:14-19) *)
Fixpoint index_modules (import_module : path -> option O) (fuel : nat) (modules : list path) (paths : index) : res index :=
  match modules with
  | [] => Ok paths
  | m :: r => let* paths := index_module_path import_module fuel m paths in index_modules import_module fuel r paths
  end.
Definition from_modules (import_module : path -> option O) (fuel : nat) (modules : list path) : res index :=
  index_modules import_module fuel modules [].
End Index.

(** [_to_supported_qualified_paths] (modules.py:44-81); [contains]:
    [contains_object_path] with the tables of stubs *)
Section Supported.
Variable contains : path -> path -> path -> res bool.
Fixpoint supported_locations (locations : list qualified_path) : res (list qualified_path) :=
  match locations with
  | [] => Ok []
  | (m, o) :: r =>
      let* found := contains m [] o in
      let* rest := supported_locations r in
      Ok (if found then (m, o) :: rest else rest)
  end.
(** The loop of modules.py:62-76; [result]: [supported_module_qualified_paths] *)
Fixpoint supported_objects (items : list (path * list qualified_path)) (result : dict path (list qualified_path))
  : res (dict path (list qualified_path)) :=
  match items with
  | [] => Ok result
  | (o, locations) :: r =>
      let* supported := supported_locations locations in
      supported_objects r (if is_nil supported then result else dset o supported result)
  end.
(** The loop of modules.py:58-78 *)
Fixpoint supported_modules (items : list (path * dict path (list qualified_path))) (result : index) : res index :=
  match items with
  | [] => Ok result
  | (m, objects) :: r =>
      let* supported := supported_objects objects [] in
      supported_modules r (if is_nil supported then result else dset m supported result)
  end.
Definition to_supported_qualified_paths (paths : index) : res index := supported_modules paths [].
End Supported.
