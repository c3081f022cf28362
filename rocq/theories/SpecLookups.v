(** Specification only: which lookups a lookup of scoping.py leads to. *)
From Verif Require Import Base Scoping SpecScoping.

(** Module, scope in it, name, modules visited before *)
Definition lookup : Type := path * path * path * list path.

(** [leads db y x]: the lookup [x] cannot be answered without [y]. *)
Inductive leads (db : database) : lookup -> lookup -> Prop :=
| le_enclosing m parent n rest v :
    parent <> [] -> defined db m (parent ++ [n]) ->
    leads db (m, [], parent ++ n :: rest, v) (m, parent, n :: rest, v)
| le_base m parent n mid a rest v before b after :
    (* [n.mid] is a class without the attribute [a], nor do bases before [b] have it *)
    defined db m parent -> not_enclosed db m parent n ->
    defined db m (n :: mid) -> ~ defined db m (n :: mid ++ [a]) ->
    bases db (m, n :: mid) = before ++ b :: after ->
    (forall b', In b' before -> resolves db (fst b') [] (snd b' ++ a :: rest) (v ++ [m]) ObjectNotFound) ->
    leads db (fst b, [], snd b ++ a :: rest, v ++ [m]) (m, parent, n :: mid ++ a :: rest, v)
| le_object m parent n mid a rest v :
    defined db m parent -> not_enclosed db m parent n ->
    defined db m (n :: mid) -> ~ defined db m (n :: mid ++ [a]) ->
    (forall b, In b (bases db (m, n :: mid)) ->
       resolves db (fst b) [] (snd b ++ a :: rest) (v ++ [m]) ObjectNotFound) ->
    n <> object_name ->
    leads db (builtins_path, [], object_name :: a :: rest, v) (m, parent, n :: mid ++ a :: rest, v)
| le_star m parent n rest v before s after :
    defined db m parent -> not_enclosed db m parent n -> ~ defined db m [n] ->
    star_imports db m = before ++ s :: after ->
    (forall s', In s' before -> skipped db m (n :: rest) v s') -> ~ In s v ->
    leads db (s, [], n :: rest, v ++ [m]) (m, parent, n :: rest, v)
| le_referent m parent n rest v k q :
    (* the longest part of the name that is imported *)
    defined db m parent -> not_enclosed db m parent n -> ~ defined db m [n] ->
    (forall s, In s (star_imports db m) -> skipped db m (n :: rest) v s) ->
    0 < k <= length (n :: rest) -> reference db m (firstn k (n :: rest)) = Some q ->
    (forall j, k < j <= length (n :: rest) -> reference db m (firstn j (n :: rest)) = None) ->
    leads db (fst q, [], snd q, v ++ [m]) (m, parent, n :: rest, v)
| le_continue m parent n rest v k q q' :
    (* ... and the rest of the name *)
    defined db m parent -> not_enclosed db m parent n -> ~ defined db m [n] ->
    (forall s, In s (star_imports db m) -> skipped db m (n :: rest) v s) ->
    0 < k <= length (n :: rest) -> reference db m (firstn k (n :: rest)) = Some q ->
    (forall j, k < j <= length (n :: rest) -> reference db m (firstn j (n :: rest)) = None) ->
    referent db q (v ++ [m]) q' ->
    leads db (fst q', [], snd q' ++ skipn k (n :: rest), v ++ [m]) (m, parent, n :: rest, v).
