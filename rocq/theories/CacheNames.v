(** Model of the names of the cache files: paradigm/_core/modules.py:12-18,
    paradigm/_core/stubs.py:15-22, and of the module that [caching.load] imports. *)
From Verif Require Import Base PyText Catalog Sources Files.

(** What the names depend on: [mypy.version.__version__], [sys.platform],
    [sys.implementation.name] and [sys.version_info] *)
Record environment := mk_environment {
  mypy_version : pystr;
  platform : pystr;
  implementation : pystr;
  major : N; minor : N; micro : N; releaselevel : pystr; serial : N
}.

Definition underscore : N := 95.
(** [value.replace('.', '_')] (modules.py:13) *)
Definition replace_dots (value : pystr) : pystr := map (fun c => if (c =? dot)%N then underscore else c) value.
(** [FILE_SUFFIX], [SOURCE_SUFFIXES[0]] (caching.py:12) *)
Definition FILE_SUFFIX : pystr := $".py".
(** ['_'.join(map(str, sys.version_info))] (modules.py:16, stubs.py:20) *)
Definition version_text (e : environment) : pystr :=
  join [underscore] [repr_N (major e); repr_N (minor e); repr_N (micro e); releaselevel e; repr_N (serial e)].
(** The name of [_CACHE_PATH] (modules.py:12-18, stubs.py:16-22); [file]: the name of
    [__file__], the source of the module or a file compiled from it *)
Definition cache_name (e : environment) (file : pystr) : pystr :=
  $"_" ++ $"mypy" ++ $"_" ++ replace_dots (mypy_version e)
  ++ $"_" ++ platform e
  ++ $"_" ++ implementation e
  ++ $"_" ++ version_text e
  ++ $"_" ++ with_suffix FILE_SUFFIX file.

(** [name.rsplit('.', maxsplit=1)[0]] *)
Definition before_last_dot (name : pystr) : pystr :=
  match rfind_dot name with
  | Some k => firstn k name
  | None => name
  end.
(** The name that [load] imports (caching.py:16-21); [name]: [__name__] of caching.py *)
Definition loaded_module (name : pystr) (file : pystr) : pystr :=
  (if mem name [$"__main__"; $"__mp_main__"] then [] else before_last_dot name ++ $".") ++ stem file.
