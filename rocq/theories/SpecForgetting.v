(** What the evaluator's weak dictionaries may lose, independently of how it evaluates. *)
From Verif Require Import Base Ast Catalog Scoping Stubs Evaluation.

Section Forgetting.
Context {V : Type}.
(** Entries of the caches of modules and of classes (/repo/paradigm/_core/arboreal/evaluation.py:302-305,
    two [weakref.WeakValueDictionary]s) are lost at any time, but for those of classes that are the
    value of a global name: the module's globals hold them. Nothing else is lost. *)
Definition forgets (c c' : memory V) : Prop :=
  exists (kept : qualified_path -> bool) (kept_module : path -> bool),
    (forall q v name, dget q (classes c) = Some v -> dget name (globals c) = Some v -> kept q = true)
    /\ c' = mk_memory (aliases c) (filter (fun x => kept (fst x)) (classes c)) (filter (fun x => kept_module (fst x)) (modules c))
              (names c) (globals c) (attributes c) (annotations c) (new_classes c).

(** [asked questions c c']: an evaluator that remembers [c] is asked these questions one after
    another, loses entries whenever it does, and remembers [c'] then. *)
Variable answer : path * path * expr -> memory V -> memory V.
Inductive asked : list (path * path * expr) -> memory V -> memory V -> Prop :=
| asked_all c : asked [] c c
| asked_next question questions c c' : asked questions (answer question c) c' -> asked (question :: questions) c c'
| asked_forgets questions c c1 c' : forgets c c1 -> asked questions c1 c' -> asked questions c c'.
End Forgetting.
