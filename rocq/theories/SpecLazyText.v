(** Specification only: reading a part of Python's expression grammar (names,
    attributes, subscripts, tuples, lists, strings, integers, [...], unary plus and minus, and the
    operators [|], [^], [&] with their precedence) into syntax trees. Written without
    [to_str]. The reader accepts a subset of what Python accepts, and gives it
    Python's meaning. *)
From Verif Require Import Base PyText PyNumbers PyExpr Ast.

Definition keyword_names : list pystr :=
  [$"False"; $"None"; $"True"; $"and"; $"as"; $"assert"; $"async"; $"await"; $"break"; $"class"; $"continue";
   $"def"; $"del"; $"elif"; $"else"; $"except"; $"finally"; $"for"; $"from"; $"global"; $"if"; $"import"; $"in";
   $"is"; $"lambda"; $"nonlocal"; $"not"; $"or"; $"pass"; $"raise"; $"return"; $"try"; $"while"; $"with"; $"yield"].
Definition word (s : pystr) : option expr :=
  if s == $"None" then Some (Constant CNone)
  else if s == $"True" then Some (Constant CTrue)
  else if s == $"False" then Some (Constant CFalse)
  else if mem s keyword_names then None
  else Some (Name s).

(** The operators, by precedence *)
Definition operator_at (level : nat) : N * operator :=
  match level with
  | 0 => (124%N, BitOr)
  | 1 => (94%N, BitXor)
  | _ => (38%N, BitAnd)
  end.

Definition in_parentheses (es : list expr) (comma : bool) : expr :=
  match es with
  | [e] => if comma then Tuple [e] else e
  | _ => Tuple es
  end.
Definition is_integer (e : expr) : bool := match e with Constant (CInt _) => true | _ => false end.
Definition number (s : pystr) : option (expr * pystr) :=
  let digits := fst (span is_digit s) in
  let rest := snd (span is_digit s) in
  if is_nil digits || leading_zero digits then None
  else match rest with
       | c :: _ => if is_ident_char c then None else Some (Constant (CInt (Z.of_N (digits_value digits))), rest)
       | [] => Some (Constant (CInt (Z.of_N (digits_value digits))), rest)
       end.

(** [level]: 0, 1, 2 operands of operators, 3 unary operators, 4 atoms with trailers *)
Fixpoint tree (fuel level : nat) (s : pystr) : option (expr * pystr) :=
  match fuel with
  | O => None
  | S fuel =>
      match level with
      | 0 | 1 | 2 =>
          match tree fuel (S level) s with
          | Some (e, r) => operands fuel level e r
          | None => None
          end
      | 3 =>
          match s with
          | [] => None
          | c :: r =>
              if c == 43%N then with_rest (fun e => Some (UnaryOp UAdd e)) (tree fuel 3 (skip r))
              else if c == 45%N then with_rest (fun e => Some (UnaryOp USub e)) (tree fuel 3 (skip r))
              else tree fuel 4 s
          end
      | _ =>
          match s with
          | [] => None
          | c :: r =>
              match
                (if (c == QUOTE) || (c == DOUBLE_QUOTE) then
                   with_rest (fun x => Some (Constant (CStr x))) (read_string c Plain_char r)
                 else if is_digit c then number s
                 else if is_letter c then
                   match word (fst (span is_ident_char s)) with
                   | Some e => Some (e, snd (span is_ident_char s))
                   | None => None
                   end
                 else if c == 40%N then
                   with_rest (fun x => Some (in_parentheses (fst x) (snd x))) (trees fuel 41 r)
                 else if c == 91%N then
                   with_rest (fun x => Some (List (fst x))) (trees fuel 93 r)
                 else if c == 46%N then
                   match r with
                   | 46%N :: 46%N :: r => Some (Constant CEllipsis, r)
                   | _ => None
                   end
                 else None)
              with
              | Some (e, r) => trailers fuel e r
              | None => None
              end
          end
      end
  end
with operands (fuel level : nat) (e : expr) (s : pystr) : option (expr * pystr) :=
  match fuel with
  | O => None
  | S fuel =>
      match skip s with
      | [] => Some (e, s)
      | c :: r =>
          if c == fst (operator_at level) then
            match tree fuel (S level) (skip r) with
            | Some (e', r') => operands fuel level (BinOp e (snd (operator_at level)) e') r'
            | None => None
            end
          else Some (e, s)
      end
  end
with trailers (fuel : nat) (e : expr) (s : pystr) : option (expr * pystr) :=
  match fuel with
  | O => None
  | S fuel =>
      match s with
      | [] => Some (e, [])
      | c :: r =>
          if c == 46%N then
            let name := fst (span is_ident_char r) in
            if is_identifier name && negb (mem name keyword_names) && negb (is_integer e)
            then trailers fuel (Attribute e name) (snd (span is_ident_char r))
            else None
          else if c == 91%N then
            match trees fuel 93 r with
            | Some (([], _), _) | None => None
            | Some ((es, comma), r') => trailers fuel (Subscript e (in_parentheses es comma)) r'
            end
          else if c == 40%N then None                                   (* calls are not in this part *)
          else Some (e, s)
      end
  end
with trees (fuel : nat) (close : N) (s : pystr) : option ((list expr * bool) * pystr) :=
  match fuel with
  | O => None
  | S fuel =>
      match skip s with
      | [] => None
      | c :: r =>
          if c == close then Some (([], false), r)
          else
            match tree fuel 0 (c :: r) with
            | None => None
            | Some (e, r') =>
                match skip r' with
                | [] => None
                | d :: r'' =>
                    if d == close then Some (([e], false), r'')
                    else if d == 44%N then
                      match trees fuel close r'' with
                      | Some ((es, _), r3) => Some ((e :: es, true), r3)
                      | None => None
                      end
                    else None
                end
            end
      end
  end.

(** The whole text is the expression [e]. *)
Definition reads_as (text : pystr) (e : expr) : Prop :=
  exists n, forall fuel, n <= fuel -> tree fuel 0 text = Some (e, []).

(** ** Expressions that need no parentheses other than around tuples and operands of
    unary operators, and no quotes *)
Definition level_of (e : expr) : nat :=
  match e with
  | BinOp _ BitOr _ => 0
  | BinOp _ BitXor _ => 1
  | BinOp _ _ _ => 2
  | UnaryOp _ _ => 3
  | _ => 4
  end.
Definition name_ok (n : pystr) : Prop := is_identifier n = true /\ ~ In n keyword_names.
Inductive plain : expr -> Prop :=
| pl_name n : name_ok n -> plain (Name n)
| pl_attribute v a : plain v -> level_of v = 4 -> is_integer v = false -> name_ok a -> plain (Attribute v a)
| pl_subscript v s : plain v -> level_of v = 4 -> plain s -> plain (Subscript v s)
| pl_tuple es : Forall plain es -> plain (Tuple es)
| pl_list es : Forall plain es -> plain (List es)
| pl_operator l op r : op <> OtherOperator -> plain l -> plain r ->
    level_of (BinOp l op r) <= level_of l -> level_of (BinOp l op r) < level_of r -> plain (BinOp l op r)
| pl_unary op e : op <> OtherUnary -> plain e -> plain (UnaryOp op e)
| pl_none : plain (Constant CNone)
| pl_true : plain (Constant CTrue)
| pl_false : plain (Constant CFalse)
| pl_integer z : (0 <= z)%Z -> plain (Constant (CInt z)).

(** ** Functions with texts for annotations *)
Inductive text_for : option expr -> option expr -> Prop :=
| tf_none : text_for None None
| tf_text e text : reads_as text e -> text_for (Some e) (Some (Constant (CStr text)))
| tf_string text : text_for (Some (Constant (CStr text))) (Some (Constant (CStr text))).
Inductive texts_for_arg : arg -> arg -> Prop :=
| ta n a a' : text_for a a' -> texts_for_arg (mk_arg n a) (mk_arg n a').
Inductive texts_for_opt : option arg -> option arg -> Prop :=
| to_none : texts_for_opt None None
| to_some a a' : texts_for_arg a a' -> texts_for_opt (Some a) (Some a').
(** Nothing but the annotations is changed. *)
Definition texts_for_function (f f' : function_def) : Prop :=
  fd_name f' = fd_name f /\ fd_decorators f' = fd_decorators f /\ text_for (fd_returns f) (fd_returns f')
  /\ Forall2 texts_for_arg (posonlyargs (fd_args f)) (posonlyargs (fd_args f'))
  /\ Forall2 texts_for_arg (args (fd_args f)) (args (fd_args f'))
  /\ texts_for_opt (vararg (fd_args f)) (vararg (fd_args f'))
  /\ Forall2 texts_for_arg (kwonlyargs (fd_args f)) (kwonlyargs (fd_args f'))
  /\ texts_for_opt (kwarg (fd_args f)) (kwarg (fd_args f'))
  /\ kw_defaults (fd_args f') = kw_defaults (fd_args f) /\ defaults (fd_args f') = defaults (fd_args f).

(** The annotations of a function: plain expressions or strings *)
Definition lazy_ok (a : option expr) : Prop :=
  match a with
  | None | Some (Constant (CStr _)) => True
  | Some e => plain e
  end.
Definition arg_ok (a : arg) : Prop := lazy_ok (arg_annotation a).
Definition opt_ok (a : option arg) : Prop := match a with Some a => arg_ok a | None => True end.
Definition function_ok (f : function_def) : Prop :=
  lazy_ok (fd_returns f) /\ Forall arg_ok (posonlyargs (fd_args f)) /\ Forall arg_ok (args (fd_args f))
  /\ opt_ok (vararg (fd_args f)) /\ Forall arg_ok (kwonlyargs (fd_args f)) /\ opt_ok (kwarg (fd_args f)).
