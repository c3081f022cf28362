(** Model of how files are read and written: [construction.from_source_path]
    (arboreal/construction.py:24-25), the file object of [caching.save] (caching.py:25-32)
    and what [import_module] takes the bytes of such a file for (caching.py:16-22).
    Bytes are numbers below 256. Encodings are UTF-8 and those with one byte for a character;
    declarations of encodings in comments ([# coding: latin-1]) are left out: cache files have no comments. *)
From Verif Require Import Base PyText Pretty SpecData.

Definition between (low high b : N) : bool := ((low <=? b) && (b <=? high))%N.
(** Bytes that go on with a character *)
Definition continues : N -> bool := between 128 191.
Definition six (b : N) : N := (b - 128)%N.

(** [str.encode('utf-8')] of a character; [None]: UnicodeEncodeError *)
Definition encode_char (c : N) : option (list N) :=
  if (c <? 128)%N then Some [c]
  else if (c <? 2048)%N then Some [192 + c / 64; 128 + c mod 64]%N
  else if between 55296 57343 c then None
  else if (c <? 65536)%N then Some [224 + c / 4096; 128 + (c / 64) mod 64; 128 + c mod 64]%N
  else if (c <? 1114112)%N then Some [240 + c / 262144; 128 + (c / 4096) mod 64; 128 + (c / 64) mod 64; 128 + c mod 64]%N
  else None.
Fixpoint encode (text : pystr) : option (list N) :=
  match text with
  | [] => Some []
  | c :: r => match encode_char c, encode r with Some u, Some b => Some (u ++ b) | _, _ => None end
  end.

(** [bytes.decode('utf-8')] (strict); [None]: UnicodeDecodeError *)
Fixpoint decode (bytes : list N) : option pystr :=
  match bytes with
  | [] => Some []
  | b0 :: r0 =>
      if (b0 <? 128)%N then option_map (cons b0) (decode r0)
      else match r0 with
      | [] => None
      | b1 :: r1 =>
          if negb (continues b1) then None
          else if between 194 223 b0 then option_map (cons ((b0 - 192) * 64 + six b1)%N) (decode r1)
          else match r1 with
          | [] => None
          | b2 :: r2 =>
              if negb (continues b2) then None
              else if between 224 239 b0 then
                if ((b0 =? 224) && (b1 <? 160) || (b0 =? 237) && (159 <? b1))%N then None
                else option_map (cons ((b0 - 224) * 4096 + six b1 * 64 + six b2)%N) (decode r2)
              else match r2 with
              | [] => None
              | b3 :: r3 =>
                  if negb (continues b3) then None
                  else if between 240 244 b0 then
                    if ((b0 =? 240) && (b1 <? 144) || (b0 =? 244) && (143 <? b1))%N then None
                    else option_map (cons ((b0 - 240) * 262144 + six b1 * 4096 + six b2 * 64 + six b3)%N) (decode r3)
                  else None
              end
          end
      end
  end.

(** Universal newlines: [\r\n] and [\r] are read as [\n]. *)
Fixpoint universal (text : pystr) : pystr :=
  match text with
  | [] => []
  | c :: r =>
      if (c =? 13)%N
      then 10%N :: match r with
                   | d :: r' => if (d =? 10)%N then universal r' else universal r
                   | [] => []
                   end
      else c :: universal r
  end.
(** Text files are written with [os.linesep] for [\n]. *)
Definition expand (linesep : pystr) (text : pystr) : pystr :=
  flat_map (fun c => if (c =? 10)%N then linesep else [c]) text.

(** [file.write] of the texts of [save], in a file opened with [encoding='utf-8'] (caching.py:27-32); [None]:
    UnicodeEncodeError, a warning *)
Definition save_bytes (printable : N -> bool) (linesep : pystr) (values : list (pystr * data)) : option (list N) :=
  encode (expand linesep (file_text printable values)).

(** How the compiler reads a source: UTF-8, possibly after a byte order mark *)
Definition skip_mark (bytes : list N) : list N :=
  match bytes with
  | b0 :: b1 :: b2 :: r => if ((b0 =? 239) && (b1 =? 187) && (b2 =? 191))%N then r else bytes
  | _ => bytes
  end.
Definition read_source (bytes : list N) : option pystr := option_map universal (decode (skip_mark bytes)).
(** The cache logic with files of bytes: text that cannot be decoded is a SyntaxError at
    import, one of the failures of [load]. *)
Definition start_bytes (printable : N -> bool) (fuel : nat) (names : list pystr) (version_name : pystr)
    (version : data) (main : bool) (build : list data) (file : option (list N)) : start_result :=
  start printable fuel names version_name version main build
    (match file with Some bytes => read_source bytes | None => None end).

(** The encoding of the locale ([locale.getpreferredencoding]); [table]: one byte for a
    character ([cp1252], [latin-1], [ascii]) *)
Inductive encoding := UTF8 | Charmap (table : N -> option N).
Fixpoint decode_by (table : N -> option N) (bytes : list N) : option pystr :=
  match bytes with
  | [] => Some []
  | b :: r => match table b, decode_by table r with Some c, Some t => Some (c :: t) | _, _ => None end
  end.
(** [Path.read_text()] (construction.py:25) *)
Definition read_text (locale : encoding) (bytes : list N) : option pystr :=
  option_map universal (match locale with UTF8 => decode bytes | Charmap table => decode_by table bytes end).
(** [from_source_path] (construction.py:24-25); [parse]: [ast.parse] *)
Definition from_source_path {A} (parse : pystr -> res A) (locale : encoding) (bytes : list N) : res A :=
  match read_text locale bytes with
  | Some text => parse text
  | None => Err ValueError                       (* UnicodeDecodeError *)
  end.
