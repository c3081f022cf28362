(** Model of paradigm/_core/sources.py and paradigm/_core/discovery.py.

    Files are given by their path relative to the root, as a list of parts; the
    listing of a directory is a list of these. [all_suffixes] is
    [importlib.machinery.all_suffixes()], [is_identifier] is [str.isidentifier].
    The pathlib and inspect functions used are modelled after CPython 3.8-3.12. *)
From Verif Require Import Base Catalog.

(** [s.startswith(p)] and [s.endswith(p)] *)
Definition starts_with (p s : pystr) : bool := firstn (length p) s == p.
Definition ends_with (p s : pystr) : bool :=
  (length p <=? length s)%nat && (skipn (length s - length p) s == p).

(** [PurePath.suffixes] for a file name *)
Fixpoint lstrip_dots (s : pystr) : pystr :=
  match s with
  | x :: r => if N.eqb x dot then lstrip_dots r else s
  | [] => []
  end.
Definition suffixes (name : pystr) : list pystr :=
  if ends_with $"." name then []
  else map (fun s => dot :: s) (tl (split_on dot (lstrip_dots name))).
(** [name.rfind('.')] *)
Fixpoint rfind_dot (s : pystr) : option nat :=
  match s with
  | [] => None
  | x :: r => match rfind_dot r with
              | Some i => Some (S i)
              | None => if N.eqb x dot then Some 0 else None
              end
  end.
(** [PurePath.suffix] and [PurePath.with_suffix] for a file name *)
Definition suffix (name : pystr) : pystr :=
  match rfind_dot name with
  | Some i => if (0 <? i)%nat && (i <? length name - 1)%nat then skipn i name else []
  | None => []
  end.
Definition with_suffix (new name : pystr) : pystr :=
  firstn (length name - length (suffix name)) name ++ new.

(** [INIT_MODULE_NAME] (file_system.py:11) *)
Definition init_module_name : pystr := $"__init__".
(** [_is_stub] (sources.py:64-65) *)
Definition is_stub (name : pystr) : bool := suffixes name == [$".pyi"].

Section Names.
Variable all_suffixes : list pystr.
(** [inspect.getmodulename] for a file name: the longest suffix comes first.
    Suffixes of the same length are not ordered here: at most one of them fits. *)
Fixpoint insert_suffix (s : pystr) (sorted : list pystr) : list pystr :=
  match sorted with
  | [] => [s]
  | x :: r => if (length x <? length s)%nat then s :: sorted else x :: insert_suffix s r
  end.
Definition sorted_suffixes : list pystr := fold_right insert_suffix [] all_suffixes.
Definition getmodulename (name : pystr) : option pystr :=
  match find (fun s => ends_with s name) sorted_suffixes with
  | Some s => Some (firstn (length name - length s) name)
  | None => None
  end.

(** [_relative_file_path_to_module_path] (sources.py:68-76); the directory and the
    file name are given separately. *)
Definition relative_file_path_to_module_path (parents : path) (name : pystr) : path :=
  match getmodulename name with
  | None => parents
  | Some module_name => if module_name == init_module_name then parents else parents ++ [module_name]
  end.

(** [to_module_path] of [_to_stubs_cache] (sources.py:54-57) *)
Definition stub_to_module_path (parents : path) (name : pystr) : path :=
  relative_file_path_to_module_path parents (with_suffix $".py" name).
(** [_to_stubs_cache] (sources.py:49-61) *)
Definition to_stubs_cache (files : list (path * pystr)) : dict path (path * pystr) :=
  dict_of (map (fun f => (stub_to_module_path (fst f) (snd f), f)) (filter (fun f => is_stub (snd f)) files)).

(** [is_source_path] of [_to_modules_paths] (sources.py:89-95); [suffixes] there:
    [SOURCE_SUFFIXES + EXTENSION_SUFFIXES] *)
Definition is_source (source_suffixes : list pystr) (name : pystr) : bool :=
  mem (concat (suffixes name)) source_suffixes.
(** [_to_modules_paths] (sources.py:86-104), a set *)
Definition to_modules_paths (source_suffixes : list pystr) (files : list (path * pystr)) : list path :=
  map (fun f => relative_file_path_to_module_path (fst f) (snd f))
    (filter (fun f => is_source source_suffixes (snd f)) files).
End Names.

Section Valid.
Variable is_identifier : pystr -> bool.
(** [_is_valid_module_path] (sources.py:107-115) *)
Definition is_valid_module_path (m : path) : bool :=
  negb (is_nil m)
  && negb (mem $"test" m)
  && negb (mem $"tests" m)
  && negb (last m [] == $"__main__")
  && forallb (fun part => is_identifier part
                          && negb (starts_with $"_test" part || starts_with $"test_" part)
                          && negb (ends_with $"_test" part)) m.
(** [stdlib_modules_paths] (sources.py:118-125): the keys of a dictionary. *)
Definition stdlib_modules_paths (builtin_module_names : list pystr) (modules : list path) : list path :=
  dkeys (dict_of (map (fun m => (m, tt))
                    (map path_from_string builtin_module_names ++ filter is_valid_module_path modules))).
End Valid.

(** ** discovery.py *)
Section Discovery.
Variable stdlib : list path.
(** [_recursively_update_modules_paths] (discovery.py:10-18); sets are lists here. *)
Definition recursively_update_modules_paths (set : list path) (names : list pystr) : list path :=
  let paths := map path_from_string names in
  set ++ paths ++ filter (fun candidate => existsb (fun p => firstn (length p) candidate == p) paths) stdlib.

(** What the branches of discovery.py depend on *)
Inductive platform := Win32 | Darwin | OtherPlatform.
Record interpreter := mk_interpreter {
  is_pypy : bool;
  on : platform;
  minor_version : nat (* of 3.x *)
}.

(** discovery.py:23-154: the names given to each call, in order *)
Definition declarations (i : interpreter) : list (list pystr) :=
  [[$"antigravity"; $"crypt"; $"idlelib"; $"lib2to3.pgen2.conv"; $"this"; $"tkinter"; $"turtle"; $"turtledemo"]]
  ++ if is_pypy i
     then [[$"__decimal"; $"_crypt"; $"_curses_build"; $"_scproxy"; $"future_builtins"; $"identity_dict"; $"msilib";
            $"symtable"; $"tracemalloc"]]
          ++ match on i with
             | Win32 =>
                 [[$"_curses"; $"_curses_panel"; $"_dbm"; $"_gdbm"; $"_posixshmem"; $"_resource_build"; $"_sqlite3_build";
                   $"_sysconfigdata"; $"_tkinter"; $"asyncio.unix_events"; $"cffi._pycparser._build_tables";
                   $"ctypes_support"; $"curses"; $"dbm.gnu"; $"dbm.ndbm"; $"distutils.command.bdist_msi";
                   $"distutils.command.bdist_wininst"; $"distutils.sysconfig_cpython"; $"distutils.sysconfig_pypy"; $"grp";
                   $"multiprocessing.popen_fork"; $"multiprocessing.popen_forkserver"; $"multiprocessing.popen_spawn_posix";
                   $"pty"; $"pyrepl._minimal_curses"; $"pyrepl.curses"; $"pyrepl.fancy_termios"; $"pyrepl.keymaps";
                   $"pyrepl.pygame_console"; $"pyrepl.pygame_keymap"; $"pyrepl.readline"; $"pyrepl.simple_interact";
                   $"pyrepl.unix_console"; $"pyrepl.unix_eventqueue"; $"readline"; $"resource"; $"syslog"; $"tty"]]
             | _ =>
                 [[$"_overlapped"; $"_tkinter"; $"_winapi"; $"asyncio.windows_events"; $"asyncio.windows_utils";
                   $"cffi._pycparser._build_tables"; $"distutils._msvccompiler"; $"distutils.command.bdist_wininst";
                   $"distutils.command.bdist_msi"; $"distutils.msvc9compiler"; $"distutils.sysconfig_cpython";
                   $"distutils.sysconfig_pypy"; $"encodings.mbcs"; $"encodings.oem"; $"msvcrt";
                   $"multiprocessing.popen_spawn_win32"; $"pyrepl.keymaps"; $"pyrepl.pygame_console"; $"pyrepl.pygame_keymap"]]
             end
          ++ (if (9 <=? minor_version i)%nat then [[$"_cffi_ssl._cffi_src.build_openssl"; $"_ssl_build"]] else [])
     else [[$"distutils._msvccompiler"; $"distutils.command.bdist_msi"]]
          ++ (if (minor_version i <? 10)%nat then [[$"distutils.command.bdist_wininst"]] else [])
          ++ match on i with
             | Win32 =>
                 [[$"curses"; $"pty"; $"tty"];
                  [$"asyncio.unix_events"; $"dbm.gnu"; $"dbm.ndbm"; $"multiprocessing.popen_fork";
                   $"multiprocessing.popen_forkserver"; $"multiprocessing.popen_spawn_posix"]]
             | p =>
                 [[$"asyncio.windows_events"; $"asyncio.windows_utils"; $"ctypes.wintypes"; $"distutils.msvc9compiler";
                   $"encodings.mbcs"; $"encodings.oem"; $"multiprocessing.popen_spawn_win32"]]
                 ++ match p with Darwin => [[$"dbm.gnu"; $"distutils._msvccompiler"]] | _ => [] end
             end.
(** The condition of discovery.py:45-49; [path[0]] of an empty path raises, but
    there is none in [stdlib_modules_paths]. *)
Definition is_pypy_path (m : path) : bool :=
  match m with
  | [] => false
  | part :: _ => existsb (fun p => starts_with p part) [$"__pypy"; $"_hpy"; $"_pypy"; $"hpy"]
  end || mem $"__pycache__" m.
(** [unsupported_stdlib_modules_paths] (discovery.py:22-154) *)
Definition unsupported_stdlib_modules_paths (i : interpreter) : list path :=
  fold_left recursively_update_modules_paths (declarations i) []
  ++ if is_pypy i then filter is_pypy_path stdlib else [].
(** [supported_stdlib_modules_paths] (discovery.py:156-160) *)
Definition supported_stdlib_modules_paths (i : interpreter) : list path :=
  filter (fun m => negb (mem m (unsupported_stdlib_modules_paths i))) stdlib.
End Discovery.
