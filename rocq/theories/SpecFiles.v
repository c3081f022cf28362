(** Specification of files, stubs and attributes (C85, C86). *)
From Verif Require Import Base Catalog Files.

(** The file [name] is in the directory [parents] of a directory (links to
    directories are not followed). *)
Inductive is_file : entry -> path -> pystr -> Prop :=
| if_here entries name : In (name, File) entries -> is_file (Directory entries) [] name
| if_below entries directory e parents name :
    In (directory, e) entries -> is_file e parents name -> is_file (Directory entries) (directory :: parents) name.
(** In a directory names occur once. *)
Inductive distinct : entry -> Prop :=
| di_file : distinct File
| di_link : distinct LinkToDirectory
| di_directory entries :
    NoDup (map fst entries) -> (forall name e, In (name, e) entries -> distinct e) -> distinct (Directory entries).

(** A name without dots, or with dots at its start only *)
Definition undotted (n : pystr) : Prop := exists dots s, s <> [] /\ ~ In dot s /\ n = repeat dot dots ++ s.

(** [source] is the stub of [m]: that of the package if there is one, otherwise that
    of the module, as when modules are imported. *)
Definition package_stub (root : entry) (m : path) : Prop := is_file root m $"__init__.pyi".
Definition module_stub (root : entry) (parents : path) (n : pystr) : Prop :=
  undotted n /\ n <> $"__init__" /\ is_file root parents (n ++ $".pyi").
Definition stub_of (root : entry) (m : path) (source : path * pystr) : Prop :=
  (package_stub root m /\ source = (m, $"__init__.pyi"))
  \/ (~ package_stub root m
      /\ exists parents n, m = parents ++ [n] /\ module_stub root parents n /\ source = (parents, n ++ $".pyi")).

(** [value'] is reached from [value] by the attributes [names]. *)
Inductive attributes {O} (getattr : O -> pystr -> res O) : O -> path -> O -> Prop :=
| at_self value : attributes getattr value [] value
| at_attribute value name value' names value'' :
    getattr value name = Ok value' -> attributes getattr value' names value'' -> attributes getattr value (name :: names) value''.
