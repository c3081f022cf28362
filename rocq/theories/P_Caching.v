(** Properties C50-C53 of the cache files. [printable] is [str.isprintable] on one
    character: the theorems hold whatever it is. *)
From Verif Require Import Base PySort PyText PyExpr PyExprProofs SpecData Pretty PrettyProofs CachingProofs.

(** ** C50 *)
Theorem C50_cached_values_read_back :
  forall printable d indent depth, proper d ->
    exists d', text_value (repr_from printable d indent depth) d' /\ data_equal d d'.
Proof. exact @repr_from_text_value. Qed.
Print Assumptions C50_cached_values_read_back.
(** ... through a file, next to other values *)
Theorem C50_cache_file_reads_back :
  forall printable values version s,
    Forall (fun nv => is_identifier (fst nv) = true /\ proper (snd nv)) values ->
    is_identifier version = true -> valid_str s -> NoDup (map fst values ++ [version]) ->
    exists ds n, Forall2 data_equal (map snd values) ds /\
      forall fuel, n <= fuel ->
        load fuel (map fst values ++ [version])
          (Some (file_text printable (values ++ [(version, DStr s)]))) = Some (ds ++ [DStr s]).
Proof.
  intros printable values version s H1 H2 H3 H4.
  destruct (@load_saved printable _ _ _ H1 H2 H3 H4) as [ds [Hd [[n Hn] _]]]. exists ds, n. auto.
Qed.
Print Assumptions C50_cache_file_reads_back.

Definition ascii_printable (c : N) : bool := ((32 <=? c) && (c <=? 126))%N.
Definition sample : data :=
  DDict [(DTuple [DStr $"os"; DStr $"path"], DDict [(DTuple [], DList [DInt (-7); DInt 0])]);
         (DTuple [DStr $"a'b\"], DSet [DStr $"x"; DTuple [DInt 1]]);
         (DStr [10; 233; 8364; 128512]%N, DSet [])].
Example C50_proper : proper sample.
Proof.
  cbn. repeat split;
    try (repeat constructor; cbn; lia);
    repeat (constructor; [cbn; intuition discriminate|]); constructor.
Qed.
Example C50_value :
  match read 40 (repr_from ascii_printable sample 4 0) with
  | Some (e, []) => evaluate e
  | _ => None
  end
  = Some (DDict [(DStr [10; 233; 8364; 128512]%N, DSet []);
                 (DTuple [DStr $"os"; DStr $"path"], DDict [(DTuple [], DList [DInt (-7); DInt 0])]);
                 (DTuple [DStr $"a'b\"], DSet [DStr $"x"; DTuple [DInt 1]])]).
Proof. vm_compute. reflexivity. Qed.

(** ** C51 *)
Theorem C51_cut_file_is_never_used :
  forall printable names version_name,
    Forall (fun n => is_identifier n = true) names -> is_identifier version_name = true ->
    NoDup (names ++ [version_name]) ->
    forall fuel build0 s p more version main build,
      length build0 = length names -> Forall proper build0 -> valid_str s ->
      p ++ more = file_text printable (combine names build0 ++ [(version_name, DStr s)]) ->
      let r := start printable fuel names version_name version main build (Some p) in
      rebuilt r = false ->
      Forall2 data_equal build0 (used r) /\ version = DStr s /\ (more = [] \/ more = [NEWLINE]).
Proof. exact @start_cut. Qed.
Print Assumptions C51_cut_file_is_never_used.
(** So a start after a stop before the last line break rebuilds. *)
Theorem C51_cut_file_rebuilds :
  forall printable names version_name,
    Forall (fun n => is_identifier n = true) names -> is_identifier version_name = true ->
    NoDup (names ++ [version_name]) ->
    forall fuel build0 s p more version build,
      length build0 = length names -> Forall proper build0 -> valid_str s ->
      p ++ more = file_text printable (combine names build0 ++ [(version_name, DStr s)]) ->
      1 < length more ->
      let r := start printable fuel names version_name version true build (Some p) in
      rebuilt r = true /\ used r = build.
Proof.
  intros printable names version_name H1 H2 H3 fuel build0 s p more version build Hl Hp Hs E Hm r.
  assert (R : rebuilt r = true).
  { destruct (rebuilt r) eqn:R; [easy|]. 
    destruct (@start_cut printable names version_name H1 H2 H3 fuel build0 s p more version true build Hl Hp Hs E R) as [_ [_ [->| ->]]]; cbn in Hm; lia. }
  split; [exact R|]. exact (proj1 (start_rebuilt_main printable names version_name fuel (Some p) version build R)).
Qed.
Print Assumptions C51_cut_file_rebuilds.

Definition names1 : list pystr := [$"definitions"; $"references"].
Definition build1 : list data := [DDict [(DStr $"x", DInt 12)]; DDict []].
Definition full1 := file_text ascii_printable (combine names1 build1 ++ [($"version", DStr $"1.2")]).
(** Every cut of a file: all rebuild but the last two *)
Example C51_every_cut :
  map (fun n => rebuilt (start ascii_printable 60 names1 $"version" (DStr $"1.2") true build1 (Some (firstn n full1))))
      (seq 0 (length full1 + 1))
  = repeat true (length full1 - 1) ++ [false; false].
Proof. vm_compute. reflexivity. Qed.
(** Without the version in the last line this would be wrong: a cut integer reads. *)
Example C51_last_line_matters :
  load 60 [$"version"; $"count"]
    (Some (removelast (removelast (file_text ascii_printable [($"version", DStr $"1.2"); ($"count", DInt 123)]))))
  = Some [DStr $"1.2"; DInt 12].
Proof. vm_compute. reflexivity. Qed.

(** ** C52 *)
(** Over every history of starts and interrupted writes: data taken from the file are
    data that were built by this very version. *)
Theorem C52_loaded_data_are_of_this_version :
  forall printable names version_name,
    Forall (fun n => is_identifier n = true) names -> is_identifier version_name = true ->
    NoDup (names ++ [version_name]) ->
    forall log file fuel version main build,
      history printable names version_name log file ->
      let r := start printable fuel names version_name version main build file in
      rebuilt r = false ->
      exists s build0, In (s, build0) log /\ version = DStr s /\ Forall2 data_equal build0 (used r).
Proof. exact @history_start. Qed.
Print Assumptions C52_loaded_data_are_of_this_version.
(** In any state of the file: used only if it says so. *)
Theorem C52_only_the_same_version :
  forall printable names version_name fuel file version main build,
    let r := start printable fuel names version_name version main build file in
    rebuilt r = false ->
    exists ds, load fuel (names ++ [version_name]) file = Some (ds ++ [version]) /\ used r = ds.
Proof. exact @start_other_version. Qed.
Print Assumptions C52_only_the_same_version.
(** Otherwise the main process rebuilds and saves, and the next start uses that. *)
Theorem C52_rebuilt_and_saved_partial :
  forall printable names version_name fuel file version build,
    let r := start printable fuel names version_name version true build file in
    rebuilt r = true ->
    used r = build
    /\ file_after r = Some (file_text printable (combine names build ++ [(version_name, version)])).
Proof. exact @start_rebuilt_main. Qed.
Print Assumptions C52_rebuilt_and_saved_partial.
Theorem C52_next_start_uses_the_file :
  forall printable names version_name,
    Forall (fun n => is_identifier n = true) names -> is_identifier version_name = true ->
    NoDup (names ++ [version_name]) ->
    forall build0 s, length build0 = length names -> Forall proper build0 -> valid_str s ->
    exists n, forall fuel, n <= fuel -> forall main build,
      let file := file_text printable (combine names build0 ++ [(version_name, DStr s)]) in
      let r := start printable fuel names version_name (DStr s) main build (Some file) in
      rebuilt r = false /\ Forall2 data_equal build0 (used r) /\ file_after r = Some file.
Proof. exact @start_again. Qed.
Print Assumptions C52_next_start_uses_the_file.
(** A process that is not the main one neither rebuilds nor saves: it goes on with
    empty data (stubs.py:989-993, modules.py:98-99). *)
Theorem C52_other_processes_refuted :
  exists printable fuel names version_name version build,
    let r := start printable fuel names version_name version false build None in
    used r <> build /\ used r = map (fun _ => DDict []) names /\ file_after r = None.
Proof.
  exists ascii_printable, 60, names1, $"version", (DStr $"1.2"), build1.
  cbn. repeat split; discriminate.
Qed.
Print Assumptions C52_other_processes_refuted.
Example C52_history :
  let r := start ascii_printable 60 names1 $"version" (DStr $"1.2") true build1 None in
  history ascii_printable names1 $"version" [($"1.2", build1)] (file_after r)
  /\ rebuilt (start ascii_printable 60 names1 $"version" (DStr $"1.2") true build1 (file_after r)) = false
  /\ rebuilt (start ascii_printable 60 names1 $"version" (DStr $"1.3") true build1 (file_after r)) = true.
Proof.
  split; [|vm_compute; easy].
  eapply (@h_write _ _ _ [] None 60 $"1.2" build1 _ full1 []); try reflexivity.
  - constructor.
  - repeat constructor; cbn; lia.
  - repeat constructor; cbn; try lia; easy.
Qed.

(** ** C53 *)
(** Entries come back in the order of their texts. *)
Theorem C53_refuted :
  exists d fuel d', proper d /\
    load fuel [$"references"; $"version"]
      (Some (file_text ascii_printable [($"references", d); ($"version", DStr $"1")])) = Some [d'; DStr $"1"]
    /\ d' <> d.
Proof.
  exists (DDict [(DStr $"b", DInt 1); (DStr $"a", DInt 2)]), 40, (DDict [(DStr $"a", DInt 2); (DStr $"b", DInt 1)]).
  split; [|split; [vm_compute; reflexivity | discriminate]].
  cbn. repeat split; try (repeat constructor; cbn; lia).
  repeat constructor; cbn; try easy. intros [H|H]; [discriminate H | easy].
Qed.
Print Assumptions C53_refuted.
(** The order is kept if every dictionary is in that order already. *)
Theorem C53_ordered_partial :
  forall printable d indent depth, proper d -> ordered printable d indent depth ->
    text_value (repr_from printable d indent depth) d
    /\ forall d', text_value (repr_from printable d indent depth) d' -> d' = d.
Proof.
  intros printable d indent depth H O. pose proof (repr_from_text_value_ordered printable d indent depth H O) as V.
  split; [exact V|]. intros d' V'. exact (text_value_unique V' V).
Qed.
Print Assumptions C53_ordered_partial.
Example C53_order :
  ordered ascii_printable (DDict [(DStr $"a", DInt 2); (DStr $"b", DInt 1)]) 4 0.
Proof. cbn [ordered fold_right fst snd]. repeat split. repeat constructor; vm_compute; reflexivity. Qed.
