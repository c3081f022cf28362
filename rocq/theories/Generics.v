(** Model of the part of paradigm/_core/stubs.py that deals with the type
    arguments of base classes: [_unpack_ast_node], [_collect_type_args],
    [_SpecializeGeneric]. *)
From Verif Require Import Base Ast Conversion.

(** [_unpack_ast_node] (stubs.py:600-608) *)
Definition unpack_ast_node (e : expr) : list expr :=
  match e with Tuple elts => elts | _ => [e] end.

(** [_is_generic_specialization] (stubs.py:156-159) *)
Definition is_generic_specialization (e : expr) : bool :=
  match e with Subscript _ _ => true | _ => false end.

(** The inner loop of [_collect_type_args] (stubs.py:618-622), over
    [reversed(candidates)]: what is appended to [queue] and to [args]. *)
Fixpoint sort_candidates (reversed : list expr) (queue args : list expr) : list expr * list expr :=
  match reversed with
  | [] => (queue, args)
  | Subscript _ slice :: rest => sort_candidates rest (queue ++ [slice]) args
  | candidate :: rest => sort_candidates rest queue (args ++ [candidate])
  end.

(** [queue.pop()]: the last element and the rest *)
Fixpoint pop_last {A} (xs : list A) : option (list A * A) :=
  match xs with
  | [] => None
  | x :: r => match pop_last r with
              | None => Some ([], x)
              | Some (front, last) => Some (x :: front, last)
              end
  end.

(** The outer loop (stubs.py:615-622); [fuel] bounds the number of rounds. *)
Fixpoint collect_loop (fuel : nat) (queue args : list expr) : option (list expr) :=
  match pop_last queue with
  | None => Some args
  | Some (queue, specialization_node) =>
      match fuel with
      | O => None
      | S fuel =>
          let '(queue, args) :=
            sort_candidates (rev (unpack_ast_node specialization_node)) queue args in
          collect_loop fuel queue args
      end
  end.

(** The number of subscripts the loop meets; more rounds are never needed. *)
Fixpoint weight (e : expr) : nat :=
  match e with
  | Subscript _ s => S (match s with Tuple es => list_sum (map weight es) | _ => weight s end)
  | _ => 0
  end.

(** [_collect_type_args] (stubs.py:611-625) *)
Definition collect_type_args (fuel : nat) (e : expr) : option (list expr) :=
  match e with
  | Subscript _ slice =>
      match collect_loop fuel [slice] [] with
      | Some args => Some (rev args)
      | None => None
      end
  | _ => Some []
  end.

(** [_SpecializeGeneric(table).visit] on a loaded expression (stubs.py:628-646):
    [visit_Name] and [visit_Attribute] look the dotted path up and do not descend;
    every other node is visited field by field by [NodeTransformer.generic_visit].
    [to_path] raises on an attribute of something that is not a dotted path. *)
Fixpoint specialize (table : dict path expr) (e : expr) : res expr :=
  match e with
  | Name id => Ok (match dget [id] table with Some candidate => candidate | None => e end)
  | Attribute _ _ =>
      let* p := to_path e in
      Ok (match dget p table with Some candidate => candidate | None => e end)
  | Subscript value slice =>
      let* value := specialize table value in
      let* slice := specialize table slice in
      Ok (Subscript value slice)
  | Tuple elts => let* elts := map_m (specialize table) elts in Ok (Tuple elts)
  | List elts => let* elts := map_m (specialize table) elts in Ok (List elts)
  | Dict items =>
      let* items := map_m (fun i => let* k := match fst i with
                                              | Some k => let* k := specialize table k in Ok (Some k)
                                              | None => Ok None
                                              end in
                                    let* v := specialize table (snd i) in Ok (k, v)) items in
      Ok (Dict items)
  | Call func args keywords =>
      let* func := specialize table func in
      let* args := map_m (specialize table) args in
      let* keywords := map_m (fun k : option pystr * expr =>
                                let* v := specialize table (snd k) in Ok (fst k, v)) keywords in
      Ok (Call func args keywords)
  | BinOp lhs op rhs =>
      let* lhs := specialize table lhs in
      let* rhs := specialize table rhs in
      Ok (BinOp lhs op rhs)
  | UnaryOp op operand => let* operand := specialize table operand in Ok (UnaryOp op operand)
  | Constant c => Ok (Constant c)
  | OtherExpr children => let* children := map_m (specialize table) children in Ok (OtherExpr children)
  end.

(** ... on an optional expression, e.g. an annotation *)
Definition specialize_opt (table : dict path expr) (e : option expr) : res (option expr) :=
  match e with
  | None => Ok None
  | Some e => let* e := specialize table e in Ok (Some e)
  end.
(** ... on the nodes of a function definition (bodies of stubs carry no
    information and are not modelled) *)
Definition specialize_arg (table : dict path expr) (a : arg) : res arg :=
  let* annotation := specialize_opt table (arg_annotation a) in
  Ok (mk_arg (arg_name a) annotation).
Definition specialize_opt_arg (table : dict path expr) (a : option arg) : res (option arg) :=
  match a with
  | None => Ok None
  | Some a => let* a := specialize_arg table a in Ok (Some a)
  end.
Definition specialize_arguments (table : dict path expr) (a : arguments) : res arguments :=
  let* posonly := map_m (specialize_arg table) (posonlyargs a) in
  let* args := map_m (specialize_arg table) (args a) in
  let* vararg := specialize_opt_arg table (vararg a) in
  let* kwonly := map_m (specialize_arg table) (kwonlyargs a) in
  let* kw_defaults := map_m (specialize_opt table) (kw_defaults a) in
  let* kwarg := specialize_opt_arg table (kwarg a) in
  let* defaults := map_m (specialize table) (defaults a) in
  Ok (mk_arguments posonly args vararg kwonly kw_defaults kwarg defaults).
Definition specialize_function (table : dict path expr) (f : function_def) : res function_def :=
  let* arguments := specialize_arguments table (fd_args f) in
  let* decorators := map_m (specialize table) (fd_decorators f) in
  let* returns := specialize_opt table (fd_returns f) in
  Ok (mk_function_def (fd_name f) arguments decorators returns).
