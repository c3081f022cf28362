(** Model of paradigm/_core/scoping.py.

    The four tables of the stub database are association lists; they come from
    [stubs.py] and are arbitrary here. [ObjectNotFound] (scoping.py:15-16) is an
    outcome of its own because the code catches it; every other exception is
    [Raises]. Python's recursion is explicit [fuel]: running out of it is
    [Raises RecursionError], which, as in Python, no [except ObjectNotFound]
    catches. *)
From Verif Require Import Base.

(** [Scope = Mapping[str, 'Scope']] (scoping.py:12) *)
Inductive scope := Scope (entries : list (pystr * scope)).
Definition entries (s : scope) : dict pystr scope := match s with Scope es => es end.

(** The mappings handed to [resolve_object_path] (scoping.py:7-11, 52-55) *)
Record database := mk_database {
  definitions : dict path scope;
  references : dict path (dict path qualified_path);
  submodules : dict path (list path);
  superclasses : dict path (dict path (list qualified_path))
}.

Inductive resolution :=
| Resolved (q : qualified_path)
| ObjectNotFound
| Raises (e : exc).

(** [mapping.get(key, default)] *)
Definition dget_or {K A} `{Eqb K} (k : K) (default : A) (d : dict K A) : A :=
  match dget k d with Some a => a | None => default end.

(** [scope_contains_path] (scoping.py:19-25) *)
Fixpoint scope_contains_path (s : scope) (p : path) : bool :=
  match p with
  | [] => true
  | part :: r => match dget part (entries s) with
                 | Some s' => scope_contains_path s' r
                 | None => false
                 end
  end.

(** [catalog.module_path_from_module(builtins)] (scoping.py:57-58) and
    [object.__name__] *)
Definition builtins_path : path := [$"builtins"].
Definition object_name : pystr := $"object".

(** The loop of scoping.py:79-84: walks down [scope] along [rest]; at the first
    name not in scope gives [object_path[:index]] and [object_path[index:]]. *)
Fixpoint first_missing (s : scope) (before rest : path) : option (path * path) :=
  match rest with
  | [] => None
  | sub_name :: r =>
      match dget sub_name (entries s) with
      | Some s' => first_missing s' (before ++ [sub_name]) r
      | None => Some (before, rest)
      end
  end.

(** [for x in xs: try: return f(x) except ObjectNotFound: continue], then
    [otherwise] (scoping.py:90-103, 116-126) *)
Fixpoint try_each {A} (f : A -> resolution) (xs : list A) (otherwise : resolution) : resolution :=
  match xs with
  | [] => otherwise
  | x :: r => match f x with
              | ObjectNotFound => try_each f r otherwise
              | outcome => outcome
              end
  end.

(** The loop of scoping.py:128-136, over [object_path[:n]] for [n] down to 1:
    the referent and [object_path[n:]]. *)
Fixpoint longest_reference (refs : dict path qualified_path) (o : path) (n : nat)
  : option (qualified_path * path) :=
  match n with
  | O => None
  | S n' => match dget (firstn n o) refs with
            | Some referent => Some (referent, skipn n o)
            | None => longest_reference refs o n'
            end
  end.

(** [resolve_object_path] (scoping.py:48-165) *)
Fixpoint resolve_object_path (db : database) (fuel : nat)
    (module_path parent_path object_path : path) (visited : list path) {struct fuel} : resolution :=
  match fuel with
  | O => Raises RecursionError
  | S fuel =>
      match dget module_path (definitions db) with
      | None => ObjectNotFound                                             (* 60-63 *)
      | Some module_definitions =>
          match object_path with
          | [] => Resolved (module_path, object_path)                      (* 64-65 *)
          | name :: rest =>
              if negb (scope_contains_path module_definitions parent_path)
              then Raises AssertionError                                   (* 66 *)
              else if negb (is_nil parent_path)
                      && scope_contains_path module_definitions (parent_path ++ [name])
              then resolve_object_path db fuel module_path [] (parent_path ++ object_path)
                     visited                                               (* 67-73 *)
              else
                match dget name (entries module_definitions) with
                | Some scope =>                                            (* 74-114 *)
                    match first_missing scope [name] rest with
                    | None => Resolved (module_path, object_path)
                    | Some (sub_path, remaining) =>
                        try_each
                          (fun base : qualified_path =>
                             resolve_object_path db fuel (fst base) [] (snd base ++ remaining)
                               (visited ++ [module_path]))
                          (dget_or sub_path []
                             (dget_or module_path ([] : dict path (list qualified_path))
                                (superclasses db)))
                          (if negb (name == object_name)
                           then resolve_object_path db fuel builtins_path []
                                  (object_name :: remaining) visited
                           else ObjectNotFound)
                    end
                | None =>                                                  (* 115-165 *)
                    try_each
                      (fun sub_module_path =>
                         if negb (mem sub_module_path visited)
                         then resolve_object_path db fuel sub_module_path [] object_path
                                (visited ++ [module_path])
                         else ObjectNotFound (* [continue]: same as not found *))
                      (dget_or module_path [] (submodules db))
                      (match dget module_path (references db) with
                       | None => Raises KeyError                           (* 127 *)
                       | Some module_references =>
                           match longest_reference module_references object_path
                                   (length object_path) with
                           | Some (referent, remaining) =>
                               match
                                 match resolve_object_path db fuel (fst referent) [] (snd referent)
                                         (visited ++ [module_path]) with
                                 | ObjectNotFound =>                       (* 146-153 *)
                                     if negb (length (snd referent) == 1)
                                     then Raises AssertionError
                                     else if negb (dmem (fst referent ++ snd referent)
                                                        (definitions db))
                                     then Raises AssertionError
                                     else Resolved (fst referent ++ snd referent, [])
                                 | outcome => outcome
                                 end
                               with
                               | Resolved referent =>                      (* 154-161 *)
                                   resolve_object_path db fuel (fst referent) []
                                     (snd referent ++ remaining) (visited ++ [module_path])
                               | outcome => outcome
                               end
                           | None =>
                               match dget builtins_path (definitions db) with
                               | None => Raises KeyError                   (* 162 *)
                               | Some builtins_definitions =>
                                   if scope_contains_path builtins_definitions object_path
                                   then Resolved (builtins_path, object_path)
                                   else ObjectNotFound
                               end
                           end
                       end)
                end
          end
      end
  end.

(** [contains_object_path] (scoping.py:28-45); any other exception passes
    through. *)
Definition contains_object_path (db : database) (fuel : nat)
    (module_path parent_path object_path : path) : res bool :=
  match resolve_object_path db fuel module_path parent_path object_path [] with
  | Resolved _ => Ok true
  | ObjectNotFound => Ok false
  | Raises e => Err e
  end.
