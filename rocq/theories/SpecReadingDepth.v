(** Star imports as written in stubs *)
From Verif Require Import Base Ast Catalog Arboreal Scoping Stubs.

(** A statement in another one, at any depth *)
Inductive written_in (s : stmt) : stmt -> Prop :=
| written_itself : written_in s s
| written_in_class name bases body s' : In s' body -> written_in s s' -> written_in s (SClassDef name bases body)
| written_in_if test body orelse s' : In s' (body ++ orelse) -> written_in s s' -> written_in s (SIf test body orelse)
| written_in_other children s' : In s' children -> written_in s s' -> written_in s (SOther children).

(** [from x import *] in the stub of [m], whatever conditions it is subject to *)
Definition stars (is_package : path -> bool) (m x : path) (s : stmt) : Prop :=
  exists module names level a, written_in (SImportFrom module names level) s /\ In a names /\ alias_name a = $"*"
    /\ to_parent_module_path level module m (is_package m) = Ok x.
Definition star_import (source : path -> option (list stmt)) (is_package : path -> bool) (m x : path) : Prop :=
  exists body s, source m = Some body /\ In s body /\ stars is_package m x s.

(** [import x], [import x.y], [import x as z], [from x import ...] in the stub of [m]: the modules that
    statement [s] names.  [import a.b] names [a] too, but [import a.b as c] only [a.b]. *)
Inductive names_module (is_package : path -> bool) (m x : path) : stmt -> Prop :=
| names_imported names a rest : In a names -> alias_asname a = None -> x <> [] -> path_from_string (alias_name a) = x ++ rest ->
    names_module is_package m x (SImport names)
| names_imported_as names a name : In a names -> alias_asname a = Some name -> path_from_string (alias_name a) = x ->
    names_module is_package m x (SImport names)
| names_imported_from module names level : to_parent_module_path level module m (is_package m) = Ok x ->
    names_module is_package m x (SImportFrom module names level).

(** The modules that some modules need if these are [read]: themselves, [builtins] and what stubs import
    of modules that are needed and read *)
Inductive needed (source : path -> option (list stmt)) (is_package : path -> bool) (modules read : list path) : path -> Prop :=
| needed_builtins : needed source is_package modules read builtins_path
| needed_itself m : In m modules -> needed source is_package modules read m
| needed_import m x body s s' : needed source is_package modules read m -> In m read -> source m = Some body -> In s' body ->
    written_in s s' -> names_module is_package m x s -> needed source is_package modules read x.
