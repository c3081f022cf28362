(** Specification only: well-formed signatures. Uses the parameters and calls of
    SpecCall.v; none of the functions of the model. *)
From Verif Require Import Base Models SpecCall.

Section WellFormed.
Context {V : Type}.
Variable is_NONE : V -> bool.
(** Required parameters are not variadic; variadic ones have no default; the private
    sentinel of models.py is no default. *)
Definition proper (p : parameter V) : Prop :=
  match p with
  | RequiredParameter _ k _ => k <> VARIADIC_POSITIONAL /\ k <> VARIADIC_KEYWORD
  | OptionalParameter _ d k _ =>
      (k = VARIADIC_POSITIONAL \/ k = VARIADIC_KEYWORD -> d = None)
      /\ forall v, d = Some v -> is_NONE v = false
  end.
Definition well_formed (s : signature V) : Prop :=
  Forall (fun p => Forall proper (parameters p) /\ legal_parameters (views (parameters p)))
    (match s with Plain p => [p] | Overloaded ps => ps end)
  /\ match s with Plain _ => True | Overloaded ps => 2 <= length ps end.
End WellFormed.
