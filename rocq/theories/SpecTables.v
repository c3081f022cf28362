(** Specification only: when two databases answer every lookup alike. *)
From Verif Require Import Base PyText Scoping StoredTables.

Definition same_lookups {K A B} `{Eqb K} (same : A -> B -> Prop) (d : dict K A) (d' : dict K B) : Prop :=
  forall k, match dget k d, dget k d' with
            | Some a, Some a' => same a a'
            | None, None => True
            | _, _ => False
            end.
(** Scopes: the same paths lead somewhere *)
Inductive same_scope : scope -> scope -> Prop :=
| same_scope_intro s s' :
    (forall n x, dget n (entries s) = Some x -> exists x', dget n (entries s') = Some x' /\ same_scope x x') ->
    (forall n, dget n (entries s) = None -> dget n (entries s') = None) ->
    same_scope s s'.
Definition same_database (d d' : database) : Prop :=
  same_lookups same_scope (definitions d) (definitions d')
  /\ same_lookups (same_lookups eq) (references d) (references d')
  /\ same_lookups eq (submodules d) (submodules d')
  /\ same_lookups (same_lookups eq) (superclasses d) (superclasses d').
Definition same_tables (t t' : tables) : Prop :=
  same_database (stored t) (stored t')
  /\ same_lookups (same_lookups eq) (nodes_kinds t) (nodes_kinds t')
  /\ same_lookups (same_lookups eq) (raw_ast_nodes t) (raw_ast_nodes t').

(** Tables that can exist in Python: the keys of dictionaries are distinct, and strings
    are Python's. *)
Definition is_dict {K A} (key : K -> Prop) (value : A -> Prop) (d : dict K A) : Prop :=
  NoDup (dkeys d) /\ Forall (fun ka => key (fst ka) /\ value (snd ka)) d.
Definition valid_path (p : path) : Prop := Forall valid_str p.
Definition valid_qualified (q : qualified_path) : Prop := valid_path (fst q) /\ valid_path (snd q).
Inductive valid_scope : scope -> Prop :=
| valid_scope_intro es : NoDup (dkeys es) -> (forall n s, In (n, s) es -> valid_str n /\ valid_scope s) -> valid_scope (Scope es).
Definition valid_database (d : database) : Prop :=
  is_dict valid_path valid_scope (definitions d)
  /\ is_dict valid_path (is_dict valid_path valid_qualified) (references d)
  /\ is_dict valid_path (Forall valid_path) (submodules d)
  /\ is_dict valid_path (is_dict valid_path (Forall valid_qualified)) (superclasses d).
Definition valid_tables (t : tables) : Prop :=
  valid_database (stored t)
  /\ is_dict valid_path (is_dict valid_path (fun _ => True)) (nodes_kinds t)
  /\ is_dict valid_path (is_dict valid_path (Forall valid_str)) (raw_ast_nodes t).
