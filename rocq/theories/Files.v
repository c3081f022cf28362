(** Model of paradigm/_core/file_system.py, the rest of paradigm/_core/sources.py and
    paradigm/_core/namespacing.py.

    A directory is the list of its entries in the order of [os.scandir]. Directories
    that cannot be listed are empty (os.walk ignores errors by default). *)
From Verif Require Import Base Catalog Sources.

Inductive entry :=
| File
| Directory (entries : list (pystr * entry))
| LinkToDirectory. (* listed among the directories, not followed *)

Section Walk.
(** [os.walk(directory)], top-down, and [find_files_paths] (file_system.py:14-20):
    the files of a directory, then those of its directories in order. Paths are
    relative to the root, with the file name apart. *)
Definition files_in (parents : path) (entries : list (pystr * entry)) : list (path * pystr) :=
  flat_map (fun e => match snd e with File => [(parents, fst e)] | _ => [] end) entries.
Fixpoint find_files (parents : path) (e : entry) : list (path * pystr) :=
  match e with
  | Directory entries =>
      files_in parents entries
      ++ (fix below entries := match entries with
          | [] => []
          | (name, e) :: r => find_files (parents ++ [name]) e ++ below r
          end) entries
  | _ => []
  end.
End Walk.

(** [PurePath.stem] of a file name *)
Definition stem (name : pystr) : pystr := firstn (length name - length (suffix name)) name.

Section Packages.
Variable all_suffixes : list pystr.
(** [importlib.util.find_spec]: [None], or a specification whose origin is the path of
    a file; it may raise. *)
Variable find_spec : path -> res (option (option (path * pystr))).

(** [_stubs_cache] (sources.py:49-61, 79) *)
Definition stubs_cache (root : entry) : dict path (path * pystr) := to_stubs_cache all_suffixes (find_files [] root).
(** [from_module_path] (sources.py:23-27) *)
Definition from_module_path (root : entry) (m : path) : option (path * pystr) := dget m (stubs_cache root).
(** [is_package] (sources.py:30-38) *)
Definition is_package (root : entry) (m : path) : res bool :=
  match from_module_path root m with
  | Some source => Ok (stem (snd source) == init_module_name)
  | None =>
      let* spec := find_spec m in
      match spec with
      | Some (Some source) => Ok (stem (snd source) == init_module_name)
      | _ => Ok false
      end
  end.
End Packages.

Section Search.
Variable O : Type.
(** [getattr] *)
Variable getattr : O -> pystr -> res O.
(** [reduce(getattr, object_path, module_or_type)] *)
Fixpoint reduce_getattr (names : path) (value : O) : res O :=
  match names with
  | [] => Ok value
  | name :: r => let* value := getattr value name in reduce_getattr r value
  end.
(** [search] (namespacing.py:15-19); [None] is [namespacing.ObjectNotFound]. *)
Definition search (value : O) (names : path) : res (option O) :=
  match reduce_getattr names value with
  | Ok value => Ok (Some value)
  | Err AttributeError => Ok None
  | Err e => Err e
  end.
End Search.
