(** Model of how the database of stubs goes through its cache file: what is handed to
    [_caching.save] (stubs.py:981-988) and what is made of what [_caching.load] gives
    (stubs.py:41-61), with arboreal/kind.py. In Python the tables and the data in the file are the same
    objects; here the functions [.._data] say which data they are. *)
From Verif Require Import Base PyText SpecData Pretty Scoping Signatures.

(** The six tables (stubs.py:34-39); of nodes, the text is stored (C77). *)
Record tables := mk_tables {
  stored : database;
  nodes_kinds : dict path (dict path node_kind);
  raw_ast_nodes : dict path (dict path (list pystr))
}.

Definition path_data (p : path) : data := DTuple (map DStr p).
Definition qualified_path_data (q : qualified_path) : data := DTuple [path_data (fst q); path_data (snd q)].
Definition dict_data {K A} (key : K -> data) (value : A -> data) (d : dict K A) : data :=
  DDict (map (fun kv => (key (fst kv), value (snd kv))) d).
Fixpoint scope_data (s : scope) : data :=
  match s with Scope es => DDict (map (fun e => (DStr (fst e), scope_data (snd e))) es) end.
Definition list_data {A} (value : A -> data) (l : list A) : data := DList (map value l).

(** [NodeKind] (arboreal/kind.py:5-10): [auto()] counts from one. *)
Definition kind_value (k : node_kind) : Z :=
  match k with
  | ANNOTATED_ASSIGNMENT => 1 | ASSIGNMENT => 2 | ASYNC_FUNCTION => 3 | CLASS => 4 | FUNCTION => 5
  end%Z.
(** [NodeKind(value)]; [None]: ValueError *)
Definition kind_of_value (z : Z) : option node_kind :=
  find (fun k => (kind_value k =? z)%Z) [ANNOTATED_ASSIGNMENT; ASSIGNMENT; ASYNC_FUNCTION; CLASS; FUNCTION].

(** The names of the values in the file (stubs.py:24-30); the version comes last. *)
Definition table_names : list pystr :=
  [$"definitions"; $"nodes_kinds"; $"raw_ast_nodes"; $"references"; $"submodules"; $"superclasses"].
Definition version_name : pystr := $"version".
(** What is saved (stubs.py:981-988); [NodeKind.__repr__] (arboreal/kind.py:12-13) is the text of the
    number. [definitions], ... are passed in the order of [table_names]. *)
Definition saved_data (t : tables) (kinds : dict path (dict path Z)) : list data :=
  [dict_data path_data scope_data (definitions (stored t));
   dict_data path_data (dict_data path_data DInt) kinds;
   dict_data path_data (dict_data path_data (list_data DStr)) (raw_ast_nodes t);
   dict_data path_data (dict_data path_data qualified_path_data) (references (stored t));
   dict_data path_data (list_data path_data) (submodules (stored t));
   dict_data path_data (dict_data path_data (list_data qualified_path_data)) (superclasses (stored t))].
Definition raw_kinds (kinds : dict path (dict path node_kind)) : dict path (dict path Z) :=
  map (fun m => (fst m, map (fun o => (fst o, kind_value (snd o))) (snd m))) kinds.
Definition saved (t : tables) : list data := saved_data t (raw_kinds (nodes_kinds t)).

(** The dict comprehension of stubs.py:55-61 *)
Fixpoint kinds_from_raw_objects (objects_kinds : dict path Z) : option (dict path node_kind) :=
  match objects_kinds with
  | [] => Some []
  | (object_path, raw_node_kind) :: r =>
      match kind_of_value raw_node_kind, kinds_from_raw_objects r with
      | Some k, Some r => Some ((object_path, k) :: r)
      | _, _ => None
      end
  end.
Fixpoint kinds_from_raw (raw : dict path (dict path Z)) : option (dict path (dict path node_kind)) :=
  match raw with
  | [] => Some []
  | (module_path, objects_kinds) :: r =>
      match kinds_from_raw_objects objects_kinds, kinds_from_raw r with
      | Some ks, Some r => Some ((module_path, ks) :: r)
      | _, _ => None
      end
  end.

(** What a process works with after loading [values] (stubs.py:41-61): the tables as
    they are, but for the kinds *)
Definition uses (values : list data) (t : tables) : Prop :=
  exists kinds, values = saved_data t kinds /\ kinds_from_raw kinds = Some (nodes_kinds t).
