(** Specification only: what "defined", "found in a base class" and "resolves"
    mean, without the functions of the model of scoping.py. *)
From Verif Require Import Base Scoping.

(** ** Definitions *)
Inductive has_path : scope -> path -> Prop :=
| hp_here s : has_path s []
| hp_down s n s' p : dget n (entries s) = Some s' -> has_path s' p -> has_path s (n :: p).

Definition known (db : database) (m : path) : Prop := In m (dkeys (definitions db)).
Definition defined (db : database) (m o : path) : Prop :=
  exists s, dget m (definitions db) = Some s /\ has_path s o.

(** ** Tables *)
Definition star_imports (db : database) (m : path) : list path :=
  match dget m (submodules db) with Some ms => ms | None => [] end.
Definition bases (db : database) (c : qualified_path) : list qualified_path :=
  match dget (fst c) (superclasses db) with
  | Some t => match dget (snd c) t with Some bs => bs | None => [] end
  | None => []
  end.
Definition reference (db : database) (m p : path) : option qualified_path :=
  match dget m (references db) with
  | Some t => dget p t
  | None => None
  end.
Definition has_references (db : database) (m : path) : Prop := In m (dkeys (references db)).

(** ** Outcomes: [resolves] holds for every sufficiently deep recursion limit. *)
Definition resolves (db : database) (m parent o : path) (visited : list path) (r : resolution) : Prop :=
  r <> Raises RecursionError
  /\ exists n, forall fuel, n <= fuel -> resolve_object_path db fuel m parent o visited = r.

(** The resolution terminates: result, [ObjectNotFound] or another exception,
    whatever the recursion limit above some bound. *)
Definition terminates (db : database) (m parent o : path) (visited : list path) : Prop :=
  exists r, resolves db m parent o visited r.

(** The enclosing scope does not define the first name. *)
Definition not_enclosed (db : database) (m parent : path) (name : pystr) : Prop :=
  parent = [] \/ ~ defined db m (parent ++ [name]).

(** ** Attribute lookup in a class hierarchy: depth first, bases in declaration
    order. [Some c]: the class whose body defines the attribute. *)
Inductive inherits (db : database) (a : pystr) : qualified_path -> option qualified_path -> Prop :=
| in_here m c : defined db m (c ++ [a]) -> inherits db a (m, c) (Some (m, c))
| in_base m c before b after r :
    ~ defined db m (c ++ [a]) -> bases db (m, c) = before ++ b :: after ->
    (forall b', In b' before -> inherits db a b' None) ->
    inherits db a b (Some r) -> inherits db a (m, c) (Some r)
| in_none m c :
    ~ defined db m (c ++ [a]) -> (forall b, In b (bases db (m, c)) -> inherits db a b None) ->
    inherits db a (m, c) None.

(** The class itself, its first base, the first base of that and so on: the
    first one that defines the attribute, [object] after the last. *)
Inductive along_first_bases (db : database) (a : pystr) : qualified_path -> qualified_path -> Prop :=
| first_here m c : defined db m (c ++ [a]) -> along_first_bases db a (m, c) (m, c)
| first_base m c b after r :
    ~ defined db m (c ++ [a]) -> bases db (m, c) = b :: after ->
    along_first_bases db a b r -> along_first_bases db a (m, c) r
| first_object m c :
    ~ defined db m (c ++ [a]) -> bases db (m, c) = [] -> @hd pystr [] c <> object_name ->
    along_first_bases db a (m, c) (builtins_path, [object_name]).

(** Every class in the hierarchy is defined where it is said to be, and its
    path is not empty. *)
Inductive reaches (db : database) : qualified_path -> qualified_path -> Prop :=
| re_self c : reaches db c c
| re_base c b d : In b (bases db c) -> reaches db b d -> reaches db c d.
Definition well_placed (db : database) (c : qualified_path) : Prop :=
  forall d, reaches db c d -> snd d <> [] /\ defined db (fst d) (snd d).

(** ** Links followed by a resolution *)
(** Star-import link: the first name is not defined in [m]. *)
Definition star_link (db : database) (x y : qualified_path) : Prop :=
  In (fst y) (star_imports db (fst x)) /\ snd y = snd x
  /\ forall n rest, snd x = n :: rest -> ~ defined db (fst x) [n].

(** Base-class and reference links *)
Inductive link (db : database) : qualified_path -> qualified_path -> Prop :=
| l_base m o1 o2 b :
    (* [o1.o2] is looked up, the object [o1] has the base [b] *)
    o1 <> [] -> o2 <> [] -> defined db m o1 -> ~ defined db m (o1 ++ [@hd pystr [] o2]) ->
    In b (bases db (m, o1)) ->
    link db (m, o1 ++ o2) (fst b, snd b ++ o2)
| l_object m o1 o2 :
    o1 <> [] -> o2 <> [] -> defined db m o1 -> ~ defined db m (o1 ++ [@hd pystr [] o2]) ->
    @hd pystr [] o1 <> object_name ->
    link db (m, o1 ++ o2) (builtins_path, object_name :: o2)
| l_referent m o1 o2 q :
    o1 <> [] -> ~ defined db m [@hd pystr [] o1] -> reference db m o1 = Some q ->
    link db (m, o1 ++ o2) q
| l_continue m o1 o2 q q' visited :
    o1 <> [] -> ~ defined db m [@hd pystr [] o1] -> reference db m o1 = Some q ->
    (resolves db (fst q) [] (snd q) visited (Resolved q')
     \/ (known db (fst q') /\ q' = (fst q ++ snd q, []))) ->
    link db (m, o1 ++ o2) (fst q', snd q' ++ o2).

Inductive star_links (db : database) : qualified_path -> qualified_path -> Prop :=
| ss_refl x : star_links db x x
| ss_step x y z : star_link db x y -> star_links db y z -> star_links db x z.

(** Some star imports, then another link *)
Definition hop (db : database) (y x : qualified_path) : Prop :=
  exists z, star_links db x z /\ link db z y.

(** The star-imported modules before the chosen one do not have the name. *)
Definition skipped (db : database) (m o : path) (v : list path) (s : path) : Prop :=
  In s v \/ resolves db s [] o (v ++ [m]) ObjectNotFound.

(** What the referent stands for: the object it resolves to, or the module of that name. *)
Definition referent (db : database) (q : qualified_path) (v : list path) (q' : qualified_path) : Prop :=
  resolves db (fst q) [] (snd q) v (Resolved q')
  \/ (resolves db (fst q) [] (snd q) v ObjectNotFound
      /\ length (snd q) = 1 /\ known db (fst q ++ snd q) /\ q' = (fst q ++ snd q, [])).

(** No references and no base classes recorded *)
Definition no_links (db : database) : Prop :=
  (forall m p, reference db m p = None) /\ (forall c, bases db c = []).

(** [object] is an ordinary class of builtins, without the attribute [a]. *)
Definition object_lacks (db : database) (a : pystr) : Prop :=
  defined db builtins_path [object_name] /\ ~ defined db builtins_path [object_name; a]
  /\ bases db (builtins_path, [object_name]) = [].

(** [s] is reachable from [m] through star imports of modules that do not
    define [name]. *)
Inductive star_reach (db : database) (name : pystr) : path -> path -> Prop :=
| sr_here m : star_reach db name m m
| sr_step m m' s :
    known db m -> ~ defined db m [name] -> In m' (star_imports db m) ->
    star_reach db name m' s -> star_reach db name m s.

(** Every module has its table of references, and builtins is known. *)
Definition complete_tables (db : database) : Prop :=
  known db builtins_path /\ forall m, known db m -> has_references db m.
