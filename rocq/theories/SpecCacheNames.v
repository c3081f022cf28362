(** Specification only: environments in which names of cache files are to be told apart. *)
From Verif Require Import Base CacheNames.

(** Versions of mypy, platforms, implementations and levels of releases are named without
    underscores. *)
Definition plain (e : environment) : Prop :=
  ~ In underscore (mypy_version e) /\ ~ In underscore (platform e)
  /\ ~ In underscore (implementation e) /\ ~ In underscore (releaselevel e).
