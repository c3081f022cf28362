(** What statements of Python do, as far as conditions and function definitions need it:
    values of expressions where names stand for something, and functions made from their
    definitions. *)
From Verif Require Import Base Ast Scoping Stubs Evaluation LazyText Executing.

Section Values.
Context {V : Type}.
Variable py : python V.
Variable machine : interpreter V.
(** What names stand for *)
Variable named : pystr -> option V.

Inductive has_value : expr -> V -> Prop :=
| hv_name n v : named n = Some v -> has_value (Name n) v
| hv_constant k : has_value (Constant k) (of_constant py k)
| hv_attribute e a v w : has_value e v -> getattr py v a = Ok w -> has_value (Attribute e a) w
| hv_item e i v w x : has_value e v -> has_value i w -> getitem py v w = Ok x -> has_value (Subscript e i) x
| hv_tuple es vs : have_values es vs -> has_value (Tuple es) (tuple_of py vs)
| hv_list es vs : have_values es vs -> has_value (List es) (list_of py vs)
| hv_dict items ws x : have_items items ws -> dict_of py ws = Ok x -> has_value (Dict items) x
| hv_call f es ks g vs ws x :
    has_value f g -> have_values es vs -> have_values (map snd ks) ws -> call py g vs (combine (map fst ks) ws) = Ok x ->
    has_value (Call f es ks) x
| hv_binary l o r v w x : has_value l v -> has_value r w -> binary py o v w = Ok x -> has_value (BinOp l o r) x
| hv_unary o e v x : has_value e v -> unary py o v = Ok x -> has_value (UnaryOp o e) x
| hv_other es v : other machine es (map (fun n => (n, named n)) (flat_map names_in es)) = Ok v -> has_value (OtherExpr es) v
with have_values : list expr -> list V -> Prop :=
| hvs_nil : have_values [] []
| hvs_cons e es v vs : has_value e v -> have_values es vs -> have_values (e :: es) (v :: vs)
with have_items : list (option expr * expr) -> list (option V * V) -> Prop :=
| hi_nil : have_items [] []
| hi_cons k e items w v ws : has_value k w -> has_value e v -> have_items items ws -> have_items ((Some k, e) :: items) ((Some w, v) :: ws)
| hi_unpacked e items v ws : has_value e v -> have_items items ws -> have_items ((None, e) :: items) ((None, v) :: ws).

(** A function wrapped by its decorators, the last one first *)
Inductive wrapped : list V -> V -> V -> Prop :=
| w_nil f : wrapped [] f f
| w_cons d ds f g h : wrapped ds f g -> call py d [g] [] = Ok h -> wrapped (d :: ds) f h.

(** Parameters in the order in which Python looks at their annotations *)
Definition present {A} (o : option A) : list A := match o with Some a => [a] | None => [] end.
Definition parameters_of (a : arguments) : list arg :=
  args a ++ posonlyargs a ++ present (vararg a) ++ kwonlyargs a ++ present (kwarg a).
(** The texts of annotations as values *)
Inductive texts : list (pystr * option expr) -> list (pystr * V) -> Prop :=
| t_nil : texts [] []
| t_skip n r vs : texts r vs -> texts ((n, None) :: r) vs
| t_text n e text r vs : to_str e = Ok text -> texts r vs -> texts ((n, Some e) :: r) ((n, of_constant py (CStr text)) :: vs).
(** Keyword-only parameters and their defaults *)
Inductive keyword_values : list (arg * option expr) -> list (pystr * V) -> Prop :=
| k_nil : keyword_values [] []
| k_skip a r vs : keyword_values r vs -> keyword_values ((a, None) :: r) vs
| k_value a e v r vs : has_value e v -> keyword_values r vs -> keyword_values ((a, Some e) :: r) ((arg_name a, v) :: vs).

(** What a function definition gives: decorators and defaults are evaluated, annotations
    are texts. *)
Definition function_gives (asynchronous : bool) (f : function_def) (v : V) : Prop :=
  exists f' ds vs ks ans,
    lazy_function f = Ok f'
    /\ have_values (fd_decorators f) ds /\ have_values (defaults (fd_args f)) vs
    /\ keyword_values (combine (kwonlyargs (fd_args f)) (kw_defaults (fd_args f))) ks
    /\ texts (map (fun a => (arg_name a, arg_annotation a)) (parameters_of (fd_args f)) ++ [($"return", fd_returns f)]) ans
    /\ wrapped ds (make_function machine asynchronous f' vs ks ans) v.
End Values.

(** What names stand for in executed code: first the names at hand, then builtins *)
Definition seen {V} (machine : interpreter V) (ns : dict pystr V) (n : pystr) : option V :=
  match dget n (ns ++ [($"__builtins__", builtins_namespace machine)]) with
  | Some v => Some v
  | None => builtin machine (builtins_namespace machine) n
  end.
