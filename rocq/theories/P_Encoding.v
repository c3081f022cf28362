(** C105: files stand for the same text whatever the locale. *)
From Verif Require Import Base PyText PyExpr SpecData Pretty CachingProofs Encoding SpecEncoding EncodingProofs.
From Coq Require Import Lia.

(** ** Sources of Python *)
(** What the compiler reads (the cache files, when they are imported) *)
Theorem C105_sources :
  forall bytes, Forall (fun b => (b < 256)%N) bytes -> forall text, read_source bytes = Some text <-> source_text bytes text.
Proof. exact read_source_spec. Qed.
Print Assumptions C105_sources.

(** What is written is UTF-8, and fails for surrogates only ([C105_surrogate]). *)
Theorem C105_written : forall text bytes, encode text = Some bytes <-> encoded text bytes.
Proof. exact encode_spec. Qed.
Print Assumptions C105_written.
Example C105_surrogate : encode [65; 55296]%N = None /\ encode [65; 55295]%N = Some [65; 237; 159; 191]%N.
Proof. split; reflexivity. Qed.

(** ** Cache files *)
Lemma saved_values names version_name (build0 : list data) s :
  Forall (fun n => is_identifier n = true /\ Forall (fun c => (c < 128)%N) n) (names ++ [version_name]) ->
  Forall proper build0 -> valid_str s ->
  Forall (fun nv => Forall (fun c => (c < 128)%N) (fst nv) /\ is_identifier (fst nv) = true /\ proper (snd nv))
    (combine names build0 ++ [(version_name, DStr s)]).
Proof.
  intros I B S. apply Forall_app in I as [I J]. inversion J as [|? ? [J1 J2] _]; subst. apply Forall_app. split.
  - rewrite Forall_forall in *. intros [n d] H. pose proof (in_combine_l _ _ _ _ H) as Hn. pose proof (in_combine_r _ _ _ _ H) as Hd.
    destruct (I n Hn). cbn [fst snd]. auto.
  - repeat constructor; auto.
Qed.
(** What is saved can be encoded, whatever the strings in it, and stands for the text that was
    written, on every platform; so the next start uses the data. *)
Theorem C105_cache_files :
  forall printable linesep names version_name,
    (forall c, (55296 <= c < 57344)%N -> printable c = false) -> linesep = [10%N] \/ linesep = [13%N; 10%N] ->
    Forall (fun n => is_identifier n = true /\ Forall (fun c => (c < 128)%N) n) (names ++ [version_name]) ->
    NoDup (names ++ [version_name]) ->
    forall build0 s, length build0 = length names -> Forall proper build0 -> valid_str s ->
    exists bytes n, save_bytes printable linesep (combine names build0 ++ [(version_name, DStr s)]) = Some bytes
      /\ source_text bytes (file_text printable (combine names build0 ++ [(version_name, DStr s)]))
      /\ forall fuel, n <= fuel -> forall main build,
           let r := start_bytes printable fuel names version_name (DStr s) main build (Some bytes) in
           rebuilt r = false /\ Forall2 data_equal build0 (used r).
Proof.
  intros printable ls names vn Su Se I ND build0 s L B S. set (values := combine names build0 ++ [(vn, DStr s)]).
  pose proof (saved_values names vn build0 s I B S) as V. fold values in V.
  pose proof (file_text_plain printable Su values V) as P.
  destruct (encode_encoded _ (expand_scalar ls _ Se P)) as (bytes & E & C).
  destruct (written_read ls _ _ Se P (file_text_starts printable values V) C) as [R _].
  assert (I1 : Forall (fun n => is_identifier n = true) names).
  { apply Forall_app in I as [I _]. eapply Forall_impl; [|exact I]. now intros n [X _]. }
  assert (I2 : is_identifier vn = true).
  { apply Forall_app in I as [_ I]. now inversion I as [|? ? [X _] _]. }
  destruct (@start_again printable names vn I1 I2 ND build0 s L B S) as [n Hn].
  exists bytes, n. split; [exact E|]. split.
  - destruct (skip_mark_cases bytes) as [(r & -> & _)|[Sk M]].
    + exfalso. destruct (file_text_starts printable values V) as [X|(c & r' & X & X1 & X2)]; rewrite X in C.
      * inversion C.
      * unfold expand in C. cbn [flat_map] in C. destruct (N.eqb_spec c 10) as [|_]; [contradiction|]. cbn [app] in C.
        destruct (encoded_starts _ _ _ C X1) as [r2 Y]. injection Y as <- _. lia.
    + apply plain_source with (expand ls (file_text printable values)); [| exact C |].
      * intros c r X ->. rewrite X in C. inversion C as [|? u ? b U _]; subst. apply mark_bytes in U as ->. now apply (M b).
      * rewrite <- (universal_expand ls (file_text printable values) Se) at 2; [now apply (universal_same_lines (length (expand ls (file_text printable values))))|].
        rewrite Forall_forall in P. intros X. now apply P in X as [_ X].
  - intros fuel F main build. unfold start_bytes. rewrite R. destruct (Hn fuel F main build) as (X & Y & _). now split.
Qed.
Print Assumptions C105_cache_files.

(** Writing may stop within a character: C51 for bytes. *)
Theorem C105_cut_files :
  forall printable linesep names version_name,
    (forall c, (55296 <= c < 57344)%N -> printable c = false) -> linesep = [10%N] \/ linesep = [13%N; 10%N] ->
    Forall (fun n => is_identifier n = true /\ Forall (fun c => (c < 128)%N) n) (names ++ [version_name]) ->
    NoDup (names ++ [version_name]) ->
    forall fuel build0 s bytes p more version main build,
      length build0 = length names -> Forall proper build0 -> valid_str s ->
      save_bytes printable linesep (combine names build0 ++ [(version_name, DStr s)]) = Some bytes -> p ++ more = bytes ->
      let r := start_bytes printable fuel names version_name version main build (Some p) in
      rebuilt r = false -> Forall2 data_equal build0 (used r) /\ version = DStr s.
Proof.
  intros printable ls names vn Su Se I ND fuel build0 s bytes p more version main build L B S Sv E r R.
  pose proof (saved_values names vn build0 s I B S) as V.
  pose proof (file_text_plain printable Su _ V) as P.
  destruct (encode_encoded _ (expand_scalar ls _ Se P)) as (bytes' & E' & C).
  assert (bytes' = bytes) as -> by (unfold save_bytes in Sv; congruence).
  destruct (written_read ls _ _ Se P (file_text_starts printable _ V) C) as [_ Cut].
  assert (I1 : Forall (fun n => is_identifier n = true) names).
  { apply Forall_app in I as [I _]. eapply Forall_impl; [|exact I]. now intros n [X _]. }
  assert (I2 : is_identifier vn = true).
  { apply Forall_app in I as [_ I]. now inversion I as [|? ? [X _] _]. }
  unfold r, start_bytes in *. destruct (read_source p) as [t|] eqn:T.
  - destruct (Cut p more t E T) as [t' X].
    destruct (@start_cut printable names vn I1 I2 ND fuel build0 s t t' version main build L B S (eq_sym X) R) as (A & A' & _). now split.
  - exfalso. unfold start in R. cbn [load] in R. destruct main; discriminate R.
Qed.
Print Assumptions C105_cut_files.

(** ** Stubs *)
(** Stubs are read in the encoding of the locale. If that is UTF-8, or if a stub is plain ASCII, what is
    parsed is the text of the source. *)
Theorem C105_stubs_partial :
  forall A (parse : pystr -> res A) locale bytes text,
    source_text bytes text -> (forall r, bytes <> 239%N :: 187%N :: 191%N :: r) -> Forall (fun b => (b < 256)%N) bytes ->
    locale = UTF8 \/ Forall (fun b => (b < 128)%N) bytes /\ (exists table, locale = Charmap table /\ forall b, (b < 128)%N -> table b = Some b) ->
    from_source_path parse locale bytes = parse text.
Proof.
  intros A parse locale bytes text S M B H. apply (unmarked_source bytes B M) in S. unfold from_source_path, read_text.
  destruct H as [->|(As & table & -> & T)]; [now rewrite S|].
  destruct (decode_by_ascii table bytes T As) as [E1 E2]. rewrite E2 in S. now rewrite E1, S.
Qed.
Print Assumptions C105_stubs_partial.

(** In other locales every stub with another character is read as another text, or not at all. *)
Theorem C105_locale_refuted :
  forall table, (forall b, (b < 128)%N -> table b = Some b) -> (forall b c, (128 <= b)%N -> table b = Some c -> (128 <= c)%N) ->
    forall t bytes text, encoded t bytes -> same_lines t text -> (exists c, In c t /\ (128 <= c)%N) ->
      (forall A (parse : pystr -> res A), from_source_path parse (Charmap table) bytes = Err ValueError)
      \/ exists other, (forall A (parse : pystr -> res A), from_source_path parse (Charmap table) bytes = parse other) /\ length text < length other.
Proof.
  intros table T1 T2 t bytes text E S C. unfold from_source_path, read_text. destruct (decode_by table bytes) as [other|] eqn:D; [right|now left].
  exists (universal other). split; [reflexivity|]. rewrite (same_lines_unique _ _ S).
  exact (proj2 (charmap_longer table T1 T2 (length t) t bytes other (le_n _) E D) C).
Qed.
Print Assumptions C105_locale_refuted.

(** In UTF-8 locales the byte order mark, which Python skips, is a character of the text
    ([ast.parse] raises SyntaxError for it). *)
Theorem C105_mark_refuted :
  forall bytes t text, encoded t bytes -> same_lines t text ->
    source_text (239%N :: 187%N :: 191%N :: bytes) text
    /\ forall A (parse : pystr -> res A), from_source_path parse UTF8 (239%N :: 187%N :: 191%N :: bytes) = parse (65279%N :: text).
Proof.
  intros bytes t text E S. split; [now apply marked_source with t|]. intros A parse. unfold from_source_path, read_text. rewrite decoded_mark, (decode_encoded _ _ E). cbn [option_map universal].
  replace (65279 =? 13)%N with false by reflexivity. now rewrite (same_lines_unique _ _ S).
Qed.
Print Assumptions C105_mark_refuted.

(** ** Examples *)
(** [x = 'é€😀'] with a line break *)
Definition text1 : pystr := $"x = '" ++ [233; 8364; 128512]%N ++ $"'" ++ [13; 10]%N.
Definition bytes1 : list N := $"x = '" ++ [195; 169; 226; 130; 172; 240; 159; 152; 128]%N ++ $"'" ++ [13; 10]%N.
Example C105_encode : encode text1 = Some bytes1.
Proof. vm_compute. reflexivity. Qed.
Example C105_read : read_source bytes1 = Some ($"x = '" ++ [233; 8364; 128512]%N ++ $"'" ++ [10]%N).
Proof. vm_compute. reflexivity. Qed.
Example C105_same : exists t, same_lines text1 t /\ encoded text1 bytes1.
Proof.
  exists (universal text1). split; [now apply (universal_same_lines 100); vm_compute; lia|].
  apply (decode_sound (length bytes1)); [reflexivity|repeat constructor|vm_compute; reflexivity].
Qed.
(** Overlong, surrogates, too large, stray, cut *)
Example C105_wrong_bytes :
  map decode [[192; 128]; [224; 159; 191]; [237; 160; 128]; [244; 144; 128; 128]; [128]; [226; 130]; [245; 128; 128; 128]]%N
  = repeat None 7.
Proof. vm_compute. reflexivity. Qed.
(** Latin-1 *)
Example C105_latin : read_text (Charmap (fun b => if (b <? 256)%N then Some b else None)) [39; 195; 169; 39]%N = Some [39; 195; 169; 39]%N.
Proof. vm_compute. reflexivity. Qed.
(** ASCII, as in the C locale of old: not at all *)
Example C105_ascii : read_text (Charmap (fun b => if (b <? 128)%N then Some b else None)) [39; 195; 169; 39]%N = None.
Proof. vm_compute. reflexivity. Qed.
Definition ascii_printable (c : N) : bool := ((32 <=? c) && (c <=? 126))%N.
Definition all_printable (c : N) : bool := negb ((55296 <=? c) && (c <? 57344))%N.
Definition build1 : list data := [DDict [(DStr [233; 8364]%N, DInt 12)]].
(** Every cut of a file of bytes: all rebuild but those in the last line break and the whole *)
Example C105_every_cut :
  match save_bytes all_printable [13; 10]%N (combine [$"d"] build1 ++ [($"version", DStr $"1.2")]) with
  | Some bytes =>
      map (fun n => rebuilt (start_bytes all_printable 60 [$"d"] $"version" (DStr $"1.2") true build1 (Some (firstn n bytes))))
          (seq 0 (length bytes + 1))
      = repeat true (length bytes - 2) ++ [false; false; false]
  | None => False
  end.
Proof. vm_compute. reflexivity. Qed.
