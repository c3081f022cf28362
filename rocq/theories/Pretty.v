(** Model of paradigm/_core/pretty.py:11-67 ([repr_from]) on literal data, and of
    paradigm/_core/caching.py together with the module-level cache logic of
    stubs.py:41-62, 975-993 and modules.py:22-33, 84-99. [format_exception]
    (pretty.py:6-8) is not modelled. *)
From Verif Require Import Base PySort PyText PyExpr SpecData.

Section Pretty.
Variable printable : N -> bool.

(** [indent * ' ' * depth] *)
Definition spaces (indent depth : nat) : pystr := repeat 32%N (indent * depth).

(** [',\n'.join(entries)] between an opening bracket with a line break and a line
    break, indentation and the closing bracket *)
Definition block (opening closing : N) (indent depth : nat) (entries : list pystr) : pystr :=
  [opening; NEWLINE] ++ join [44%N; NEWLINE] entries ++ [NEWLINE] ++ spaces indent depth ++ [closing].

(** [repr_from] (pretty.py:12-14 for strings and integers, 16-31 [dict],
    34-42 [list], 45-56 [tuple], 59-67 [set]) *)
Fixpoint repr_from (value : data) (indent depth : nat) : pystr :=
  match value with
  | DStr s => repr_str printable s
  | DInt z => repr_int z
  | DDict [] => $"{}"
  | DDict items =>
      block 123 125 indent depth
        (sorted str_leb
           (map (fun kv => spaces indent (depth + 1) ++ repr_from (fst kv) indent (depth + 1)
                           ++ $": " ++ repr_from (snd kv) indent (depth + 1)) items))
  | DList [] => $"[]"
  | DList l =>
      block 91 93 indent depth
        (map (fun x => spaces indent (depth + 1) ++ repr_from x indent (depth + 1)) l)
  | DTuple [] => $"()"
  | DTuple [x] => [40%N] ++ repr_from x indent depth ++ $",)"
  | DTuple l =>
      block 40 41 indent depth
        (map (fun x => spaces indent (depth + 1) ++ repr_from x indent (depth + 1)) l)
  | DSet [] => $"set()"
  | DSet l =>
      block 123 125 indent depth
        (map (fun x => spaces indent (depth + 1) ++ repr_from x indent (depth + 1)) l)
  end.

(** ** caching.py *)

(** The text written by [save] (caching.py:25-32). Write errors are an early stop:
    the file then holds a prefix of this text, cf. [C51]. *)
Definition file_text (values : list (pystr * data)) : pystr :=
  flat_map (fun nv => fst nv ++ $" = " ++ repr_from (snd nv) 4 0 ++ [NEWLINE]) values.
End Pretty.

(** Executing every assignment; any failure is an exception at import *)
Fixpoint run_bindings (bindings : list (pystr * expr)) : option (list (pystr * data)) :=
  match bindings with
  | [] => Some []
  | (n, e) :: r =>
      match evaluate e, run_bindings r with
      | Some d, Some ds => Some ((n, d) :: ds)
      | _, _ => None
      end
  end.
(** The attribute of the module object: the last assignment counts *)
Fixpoint attribute (name : pystr) (namespace : list (pystr * data)) : option data :=
  match namespace with
  | [] => None
  | (n, d) :: r =>
      match attribute name r with
      | Some d' => Some d'
      | None => if name == n then Some d else None
      end
  end.
Fixpoint attributes (names : list pystr) (namespace : list (pystr * data)) : option (list data) :=
  match names with
  | [] => Some []
  | n :: r =>
      match attribute n namespace, attributes r namespace with
      | Some d, Some ds => Some (d :: ds)
      | _, _ => None
      end
  end.

(** [load] (caching.py:16-22): [None] is any exception. [fuel] as in [read]. *)
Definition load (fuel : nat) (names : list pystr) (file : option pystr) : option (list data) :=
  match file with
  | None => None
  | Some text =>
      match read_module fuel text with
      | None => None
      | Some bindings =>
          match run_bindings bindings with
          | None => None
          | Some namespace => attributes names namespace
          end
      end
  end.

(** The cache logic at import time: [names] are the data fields, [version_name] the
    version field; [build] are the freshly built data; [main] is
    [is_main_process()]. The result: the data used, whether they were rebuilt, and the
    file afterwards (the complete text; for interrupted writes see the properties).
    (stubs.py:41-62, 975-993; modules.py:22-33, 84-99; the conversion of node kinds
    at stubs.py:55-61 is left out.) *)
Record start_result := mk_start { used : list data; rebuilt : bool; file_after : option pystr }.

Definition start (printable : N -> bool) (fuel : nat) (names : list pystr) (version_name : pystr)
    (version : data) (main : bool) (build : list data) (file : option pystr) : start_result :=
  let rebuild :=
    if main
    then mk_start build true
           (Some (file_text printable (combine names build ++ [(version_name, version)])))
    else mk_start (map (fun _ => DDict []) names) true file in
  match load fuel (names ++ [version_name]) file with
  | None => rebuild
  | Some values =>
      match rev values with
      | cached_version :: data_rev =>
          if cached_version == version then mk_start (rev data_rev) false file else rebuild
      | [] => rebuild
      end
  end.
