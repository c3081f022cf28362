(** Specification only: Python's own rules for parameter lists and calls
    (language reference, "Function definitions" 8.7 and "Calls" 6.3.4), written
    without any function of the model. A parameter is seen only through
    [pview]: its kind, whether it must be supplied, and its name. *)
From Verif Require Import Base.
From Verif Require Import Models.

Record pview := mk_view {
  v_kind : kind;
  v_required : bool;
  v_name : pystr
}.

(** ** Legal parameter lists *)

Definition positional (p : pview) : Prop :=
  v_kind p = POSITIONAL_ONLY \/ v_kind p = POSITIONAL_OR_KEYWORD.
Definition keyword_capable (p : pview) : Prop :=
  v_kind p = POSITIONAL_OR_KEYWORD \/ v_kind p = KEYWORD_ONLY.

(** "p somewhere before q implies R p q" *)
Definition ordered {A} (R : A -> A -> Prop) (xs : list A) : Prop :=
  forall l1 p l2 q l3, xs = l1 ++ p :: l2 ++ q :: l3 -> R p q.

(** The order in which the kinds are written *)
Definition rank (k : kind) : nat :=
  match k with
  | POSITIONAL_ONLY => 0
  | POSITIONAL_OR_KEYWORD => 1
  | VARIADIC_POSITIONAL => 2
  | KEYWORD_ONLY => 3
  | VARIADIC_KEYWORD => 4
  end.

Definition legal_parameters (ps : list pview) : Prop :=
  NoDup (map v_name ps)
  /\ ordered (fun p q => rank (v_kind p) <= rank (v_kind q)) ps
  /\ ordered (fun p q => positional p -> positional q ->
                         v_required q = true -> v_required p = true) ps
  /\ ordered (fun p q => v_kind p = VARIADIC_POSITIONAL -> v_kind q <> VARIADIC_POSITIONAL) ps
  /\ ordered (fun p q => v_kind p = VARIADIC_KEYWORD -> v_kind q <> VARIADIC_KEYWORD) ps.

(** ** Calls: [n] positional arguments and keywords [kws] *)

Definition positionalb (p : pview) : bool :=
  match v_kind p with
  | POSITIONAL_ONLY | POSITIONAL_OR_KEYWORD => true
  | _ => false
  end.

(** The positional parameters, in order; the first [n] are filled by [n]
    positional arguments. *)
Definition positionals (ps : list pview) : list pview := filter positionalb ps.
Definition filled (ps : list pview) (n : nat) (p : pview) : Prop :=
  In p (firstn n (positionals ps)).

Definition takes_extra_positionals (ps : list pview) : Prop :=
  exists p, In p ps /\ v_kind p = VARIADIC_POSITIONAL.
Definition takes_extra_keywords (ps : list pview) : Prop :=
  exists p, In p ps /\ v_kind p = VARIADIC_KEYWORD.

(** No surplus positional argument *)
Definition positionals_fit (ps : list pview) (n : nat) : Prop :=
  n <= length (positionals ps) \/ takes_extra_positionals ps.

(** Each keyword goes to a keyword-capable parameter that is not filled
    already, or to [**kwargs]; a keyword naming a keyword-capable parameter never
    goes to [**kwargs]. *)
Definition keywords_fit (ps : list pview) (n : nat) (kws : list pystr) : Prop :=
  forall kw, In kw kws ->
    (exists p, In p ps /\ keyword_capable p /\ v_name p = kw /\ ~ filled ps n p)
    \/ (takes_extra_keywords ps
        /\ forall p, In p ps -> keyword_capable p -> v_name p <> kw).

(** Every required parameter gets an argument *)
Definition nothing_missing (ps : list pview) (n : nat) (kws : list pystr) : Prop :=
  forall p, In p ps -> v_required p = true ->
    filled ps n p \/ (keyword_capable p /\ In (v_name p) kws).

(** The call [f(a_1, ..., a_n, kw_1=..., ...)] binds. *)
Definition accepts (ps : list pview) (n : nat) (kws : list pystr) : Prop :=
  positionals_fit ps n /\ keywords_fit ps n kws /\ nothing_missing ps n kws.

(** A partial call is viable: some further arguments make it bind. *)
Definition completable (ps : list pview) (n : nat) (kws : list pystr) : Prop :=
  exists n' kws', NoDup (kws ++ kws') /\ accepts ps (n + n') (kws ++ kws').

(** A keyword names a keyword-capable parameter that is filled positionally. *)
Definition clash (ps : list pview) (n : nat) (kws : list pystr) : Prop :=
  exists p, filled ps n p /\ keyword_capable p /\ In (v_name p) kws.

(** A keyword has the name of a parameter (of either positional kind) that is
    filled positionally. *)
Definition names_filled (ps : list pview) (n : nat) (kws : list pystr) : Prop :=
  exists p, filled ps n p /\ In (v_name p) kws.

(** ** How the model's objects are seen *)
Section View.
Context {V : Type}.
Variable is_NONE : V -> bool.

Definition view (p : parameter V) : pview :=
  match p with
  | RequiredParameter _ k n => mk_view k true n
  | OptionalParameter _ _ k n => mk_view k false n
  end.
Definition views (ps : list (parameter V)) : list pview := map view ps.
Definition sviews (s : plain_signature V) : list pview := views (parameters s).

(** Objects a user can obtain from the public constructors. *)
Definition built_parameter (p : parameter V) : Prop :=
  (exists a kd n, new_required a kd n = Ok p)
  \/ (exists a d kd n, new_optional is_NONE a d kd n = Ok p).
Definition built_plain (s : plain_signature V) : Prop :=
  exists ps r, Forall built_parameter ps /\ new_plain ps r = Ok s.
Definition built (s : signature V) : Prop :=
  match s with
  | Plain p => built_plain p
  | Overloaded _ =>
      exists ss, Forall built_plain ss /\ new_overloaded (map Plain ss) = Ok s
  end.

(** A Python [**kwargs] never repeats a name. *)
Definition legal_kwargs (kwargs : dict pystr V) : Prop := NoDup (dkeys kwargs).

(** ** What binding does to one parameter *)
Definition bound_by_keyword (kwargs : dict pystr V) (p : parameter V) : Prop :=
  keyword_capable (view p) /\ In (p_name p) (dkeys kwargs).

(** [p'] is [p] after a keyword has been bound to it or to a parameter before it. *)
Record rebound (kwargs : dict pystr V) (p p' : parameter V) : Prop := {
  rb_name : p_name p' = p_name p;
  rb_annotation : p_annotation p' = p_annotation p;
  rb_keyword_only : p_kind p = POSITIONAL_OR_KEYWORD -> p_kind p' = KEYWORD_ONLY;
  rb_other_kinds : p_kind p <> POSITIONAL_OR_KEYWORD -> p_kind p' = p_kind p;
  rb_required :
    v_required (view p') = true
    <-> v_required (view p) = true /\ ~ bound_by_keyword kwargs p;
  rb_old_default : forall d, p_default p = Some d -> p_default p' = Some d;
  rb_no_default : p_default p = None -> ~ bound_by_keyword kwargs p -> p_default p' = None;
  rb_new_default : forall v, p_default p = None -> bound_by_keyword kwargs p ->
    In (p_name p, v) kwargs -> is_NONE v = false -> p_default p' = Some v
}.

(** [{**k1, **k2}] *)
Definition merge (k1 k2 : dict pystr V) : dict pystr V :=
  fold_left (fun d ka => dset (fst ka) (snd ka) d) k2 k1.
End View.
