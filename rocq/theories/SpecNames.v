(** Specification only: what a name in a stub stands for while stubs are read. *)
From Verif Require Import Base Ast Scoping SpecScoping Stubs SpecStubs.

(** The name is defined neither in the scope [parent] of [m] nor in [m] itself. *)
Definition undefined_in (st : state) (m parent : path) (n : pystr) : Prop :=
  ~ defined (db st) m (parent ++ [n]) /\ ~ defined (db st) m [n].
(** The longest initial part of [o] that is imported in [m] *)
Definition imported_as (st : state) (m o : path) (q : qualified_path) (rest : path) : Prop :=
  exists p, p <> [] /\ o = p ++ rest /\ reference (db st) m p = Some q
    /\ forall p' rest', o = p' ++ rest' -> length p < length p' -> reference (db st) m p' = None.
Definition not_imported (st : state) (m o : path) : Prop :=
  forall p rest, p <> [] -> o = p ++ rest -> reference (db st) m p = None.

(** [found given_up st m parent o r]: with the tables of [st], the dotted name [o]
    in the scope [parent] of the module [m] is [r] ([None]: it is not found). A
    name in a module whose reading was given up is not found. *)
Inductive found (given_up : path -> Prop) (st : state) : path -> path -> path -> option qualified_path -> Prop :=
| fo_enclosing m parent n r :
    In m (visited st) -> defined (db st) m (parent ++ [n]) ->
    found given_up st m parent (n :: r) (Some (m, parent ++ n :: r))
| fo_module m parent n r :
    In m (visited st) -> ~ defined (db st) m (parent ++ [n]) -> defined (db st) m [n] ->
    found given_up st m parent (n :: r) (Some (m, n :: r))
| fo_star m parent n r before s after q :
    In m (visited st) -> undefined_in st m parent n ->
    star_imports (db st) m = before ++ s :: after ->
    (forall b, In b before -> found given_up st b [] (n :: r) None) ->
    found given_up st s [] (n :: r) (Some q) ->
    found given_up st m parent (n :: r) (Some q)
| fo_import m parent n r q rest :
    In m (visited st) -> undefined_in st m parent n ->
    (forall s, In s (star_imports (db st) m) -> found given_up st s [] (n :: r) None) ->
    imported_as st m (n :: r) q rest ->
    found given_up st m parent (n :: r) (Some (fst q, snd q ++ rest))
| fo_builtin m parent n r :
    In m (visited st) -> undefined_in st m parent n ->
    (forall s, In s (star_imports (db st) m) -> found given_up st s [] (n :: r) None) ->
    not_imported st m (n :: r) -> defined (db st) builtins_path (n :: r) ->
    found given_up st m parent (n :: r) (Some (builtins_path, n :: r))
| fo_nothing m parent n r :
    In m (visited st) -> undefined_in st m parent n ->
    (forall s, In s (star_imports (db st) m) -> found given_up st s [] (n :: r) None) ->
    not_imported st m (n :: r) -> ~ defined (db st) builtins_path (n :: r) ->
    found given_up st m parent (n :: r) None
| fo_given_up m parent o : given_up m -> found given_up st m parent o None.

(** The reading of the stub of [m] is given up at some later time. *)
Definition gives_up (parse : path -> state -> step scope) (st0 : state) (m : path) : Prop :=
  exists st st', incl (visited st0) (visited st) /\ ~ In m (visited st) /\ parse m st = Missing st'.

(** Nothing has changed for the modules that had been begun. *)
Definition unchanged (st st' : state) : Prop :=
  forall x, In x (visited st) ->
    In x (visited st')
    /\ (forall o, o <> [] -> (defined (db st') x o <-> defined (db st) x o))
    /\ star_imports (db st') x = star_imports (db st) x
    /\ (forall p, reference (db st') x p = reference (db st) x p)
    /\ (forall o, nodes_of_object st' x o = nodes_of_object st x o)
    /\ (forall o, kind_of_object st' x o = kind_of_object st x o)
    /\ (forall o, dget (x, o) (bases_of st') = dget (x, o) (bases_of st))
    /\ (forall o, dget (x, o) (parameters_of st') = dget (x, o) (parameters_of st))
    /\ (forall o, bases (db st') (x, o) = bases (db st) (x, o)).

(** Modules reached through star imports *)
Inductive starred (st : state) : path -> path -> Prop :=
| st_self m : starred st m m
| st_step m m' s : In m' (star_imports (db st) m) -> starred st m' s -> starred st m s.
(** ... have all been read. *)
Definition all_read (st : state) (m : path) : Prop :=
  forall s, starred st m s ->
    In s (visited st) /\ known (db st) s /\ has_references (db st) s.
(** ... without coming back. *)
Definition no_cycle (st : state) (m : path) : Prop :=
  Acc (fun s' s => In s' (star_imports (db st) s)) m.

(** To look for the name [o] in the scope [x] (module, parent) is to look for it in
    [y]: [o] is defined in neither place of [x], and [y] is a module that is star
    imported there, before which there are none that have [o]. *)
Inductive asks (st : state) (o : path) : path * path -> path * path -> Prop :=
| asks_star m parent n r before s after :
    o = n :: r -> undefined_in st m parent n ->
    star_imports (db st) m = before ++ s :: after ->
    (forall b, In b before -> found (fun _ => False) st b [] o None) ->
    asks st o (s, []) (m, parent).
(** It comes to an end. *)
Definition comes_to_an_end (st : state) (m parent o : path) : Prop := Acc (asks st o) (m, parent).

(** ** The names the parser finds, for the resolver of scoping.py *)
(** What [q] is resolved to, whatever the modules visited before *)
Definition leads_to (db : database) (q q' : qualified_path) : Prop :=
  forall v, resolves db (fst q) [] (snd q) v (Resolved q').
(** ... or the module of that name *)
Definition refers_to (db : database) (q q' : qualified_path) : Prop :=
  forall v, referent db q v q'.
(** Names are imported from where they are defined, if members of them are named. *)
Definition imports_direct (st : state) (m o : path) : Prop :=
  forall s q rest, starred st m s -> imported_as st s o q rest -> rest = [] \/ defined (db st) (fst q) (snd q).
