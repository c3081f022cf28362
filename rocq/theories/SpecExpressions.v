(** Specification only: the signature of a value whose stub is an expression or an
    assignment. Uses the data types of the model, resolution of names (C34-C40),
    signatures of definitions (C25-C27), [bind] and [from_signatures] (C07-C17). *)
From Verif Require Import Base PyText Models SpecCall Ast Scoping Signatures SpecSignatures.

Section Meaning.
Context {V : Type}.
Variables (is_NONE : V -> bool) (Any : V) (evaluate : expr -> path -> path -> res V).
Variables (stubs : stubs_tables) (limit : nat).
(** the value itself *)
Variable value : V.
(** The signature of a definition in a module and scope *)
Variable definition_signature : function_def -> path -> path -> signature V -> Prop.

Definition kind_at (q : qualified_path) (k : node_kind) : Prop :=
  exists t, dget (fst q) (nodes_kinds stubs) = Some t /\ dget (snd q) t = Some k.
(** [_0], [_1], ... *)
Definition unnamed (n : nat) (annotation : V) : parameter V :=
  RequiredParameter annotation POSITIONAL_ONLY ($"_" ++ repr_int (Z.of_nat n)).
Definition unnamed_parameters (annotations : list V) : list (parameter V) :=
  map (fun x => unnamed (fst x) (snd x)) (number 0 annotations).
(** the first keyword [bound] *)
Inductive bound_of : list (option pystr * expr) -> expr -> Prop :=
| bo_here e r : bound_of ((Some $"bound", e) :: r) e
| bo_later k e r b : k <> Some $"bound" -> bound_of r b -> bound_of ((k, e) :: r) b.
Definition no_bound (keywords : list (option pystr * expr)) : Prop := ~ In (Some $"bound") (map fst keywords).

(** [means m parent e s]: objects described by [e], written in the scope [parent] of the
    module [m], have the signature [s]. [states] is the same for a statement. *)
Inductive means : path -> path -> expr -> signature V -> Prop :=
(* another name of something with one definition *)
| me_alias m parent e q k node s :
    denotes stubs limit m parent e q -> kind_at q k -> k <> CLASS ->
    nodes_at stubs q [node] -> states (fst q) [] node s ->
    means m parent e s
(* an instance of a class: what its [__call__] leaves after the instance *)
| me_instance m parent e q nodes signatures rests s :
    denotes stubs limit m parent e q -> kind_at q CLASS ->
    nodes_at stubs (fst q, snd q ++ [$"__call__"]) nodes ->
    all_state (fst q) [] nodes signatures ->
    Forall2 (fun s rest => bind is_NONE s [value] [] = Ok rest) signatures rests ->
    from_signatures rests = Ok s ->
    means m parent e s
(* type variables: their bound or any of their constraints *)
| me_bound m parent f arguments keywords bound s :
    denotes stubs limit m parent f ([$"typing"], [$"TypeVar"]) -> bound_of keywords bound ->
    means m parent bound s ->
    means m parent (Call f arguments keywords) s
| me_constraints m parent f arguments keywords signatures s :
    denotes stubs limit m parent f ([$"typing"], [$"TypeVar"]) -> no_bound keywords ->
    all_mean m parent (tl arguments) signatures -> from_signatures signatures = Ok s ->
    means m parent (Call f arguments keywords) s
(* [Callable[[annotations], returns]] *)
| me_callable m parent e annotations returns values r :
    denotes stubs limit m parent e ([$"typing"], [$"Callable"]) ->
    Forall2 (fun a v => evaluate a m parent = Ok v) annotations values -> evaluate returns m parent = Ok r ->
    means m parent (Subscript e (Tuple [List annotations; returns])) (Plain (mk_plain (unnamed_parameters values) r))
(* [Callable[..., returns]] *)
| me_any_callable m parent e dots returns r :
    denotes stubs limit m parent e ([$"typing"], [$"Callable"]) ->
    (forall annotations, dots <> List annotations) -> evaluate returns m parent = Ok r ->
    means m parent (Subscript e (Tuple [dots; returns]))
      (Plain (mk_plain [OptionalParameter Any None VARIADIC_POSITIONAL $"args";
                        OptionalParameter Any None VARIADIC_KEYWORD $"kwargs"] r))
with states : path -> path -> statement -> signature V -> Prop :=
| st_annotated m parent annotation s : means m parent annotation s -> states m parent (AnnAssign annotation None) s
| st_annotated_value m parent annotation value s :
    means m parent value s -> states m parent (AnnAssign annotation (Some value)) s
| st_assigned m parent value s : means m parent value s -> states m parent (Assign value) s
| st_definition m parent fd s : definition_signature fd m parent s -> states m parent (FunctionDef fd) s
with all_mean : path -> path -> list expr -> list (signature V) -> Prop :=
| am_nil m parent : all_mean m parent [] []
| am_cons m parent e es s ss : means m parent e s -> all_mean m parent es ss -> all_mean m parent (e :: es) (s :: ss)
with all_state : path -> path -> list statement -> list (signature V) -> Prop :=
| as_nil m parent : all_state m parent [] []
| as_cons m parent n ns s ss : states m parent n s -> all_state m parent ns ss -> all_state m parent (n :: ns) (s :: ss).
End Meaning.
