(** Specification only: what bytes stand for in UTF-8 (RFC 3629) and in sources of Python (language
    reference 2.1). *)
From Verif Require Import Base.

(** The bytes of a character *)
Inductive utf8 : N -> list N -> Prop :=
| utf8_one c : (c < 128)%N -> utf8 c [c]
| utf8_two a b : (a < 32 -> b < 64 -> 128 <= 64 * a + b -> utf8 (64 * a + b) [192 + a; 128 + b])%N
| utf8_three a b c : (a < 16 -> b < 64 -> c < 64 -> let v := 4096 * a + 64 * b + c in
    2048 <= v -> ~ (55296 <= v < 57344) -> utf8 v [224 + a; 128 + b; 128 + c])%N
| utf8_four a b c d : (a < 8 -> b < 64 -> c < 64 -> d < 64 -> let v := 262144 * a + 4096 * b + 64 * c + d in
    65536 <= v < 1114112 -> utf8 v [240 + a; 128 + b; 128 + c; 128 + d])%N.
(** The bytes of a text *)
Inductive encoded : pystr -> list N -> Prop :=
| encoded_nil : encoded [] []
| encoded_cons c u text bytes : utf8 c u -> encoded text bytes -> encoded (c :: text) (u ++ bytes).

(** Line breaks are [\n], [\r\n] or [\r]: the second text has [\n] for all of them. *)
Inductive same_lines : pystr -> pystr -> Prop :=
| lines_end : same_lines [] []
| lines_pair t t' : same_lines t t' -> same_lines (13%N :: 10%N :: t) (10%N :: t')
| lines_return t t' : (forall r, t <> 10%N :: r) -> same_lines t t' -> same_lines (13%N :: t) (10%N :: t')
| lines_char c t t' : c <> 13%N -> same_lines t t' -> same_lines (c :: t) (c :: t').

(** What the bytes of a source of Python stand for *)
Inductive source_text : list N -> pystr -> Prop :=
| plain_source bytes t text : (forall c r, t = c :: r -> c <> 65279%N) -> encoded t bytes -> same_lines t text -> source_text bytes text
| marked_source bytes t text : encoded t bytes -> same_lines t text -> source_text (239%N :: 187%N :: 191%N :: bytes) text.
