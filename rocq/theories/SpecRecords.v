(** C91: what is recorded for an object *)
From Verif Require Import Base Ast Conversion Generics SpecCatalog SpecArboreal Scoping SpecScoping Signatures SpecSignatures SpecGenerics Stubs SpecStubs.

(** A definition, of a kind *)
Inductive definition : stmt -> node_kind -> Prop :=
| de_annotation t a v : definition (SAnnAssign t a v) ANNOTATED_ASSIGNMENT
| de_assign ts v : definition (SAssign ts v) ASSIGNMENT
| de_function f : definition (SFunctionDef f) FUNCTION
| de_async f : definition (SAsyncFunctionDef f) ASYNC_FUNCTION.

(** The entries for objects are not empty and consist of definitions, the last of
    which is of the kind of the object, if that is not a class. *)
Definition well_recorded (st : state) : Prop :=
  (forall m table o l, dget m (nodes st) = Some table -> dget o table = Some l ->
     l <> [] /\ Forall (fun s => exists k, definition s k) l)
  /\ (forall m o k, kind_of_object st m o = Some k -> k <> CLASS ->
        exists l s, nodes_of_object st m o = l ++ [s] /\ definition s k).
