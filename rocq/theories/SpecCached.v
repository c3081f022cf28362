(** Specification only: processes that work with stored tables. *)
From Verif Require Import Base Scoping Stubs RawNodes SpecRaw Reading SpecTables.
From Verif Require StoredTables.

(** The nodes of [st] are what the trees look like. *)
Definition describes (node_classes : classes) (trees : dict path (dict path (list value))) (st : state) : Prop :=
  same_lookups (same_lookups (Forall2 (fun v s => tree node_classes v /\ see node_classes v = SeenStmt s))) trees (nodes st).
Definition reads_as (node_classes : classes) (raw : pystr) (s : stmt) : Prop :=
  exists n, forall fuel, n <= fuel -> statement_from_raw node_classes fuel raw = Some s.
(** A process whose tables are [t] sees the nodes of [st]. *)
Definition works_with (node_classes : classes) (t : StoredTables.tables) (st : state) : Prop :=
  db st = StoredTables.stored t /\ kinds st = StoredTables.nodes_kinds t
  /\ same_lookups (same_lookups (Forall2 (reads_as node_classes))) (StoredTables.raw_ast_nodes t) (nodes st).
(** Two states that answer every lookup alike *)
Definition same_state (st st' : state) : Prop :=
  same_database (db st) (db st')
  /\ same_lookups (same_lookups eq) (kinds st) (kinds st')
  /\ same_lookups (same_lookups eq) (nodes st) (nodes st').
