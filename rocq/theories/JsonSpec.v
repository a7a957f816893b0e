(** Specification: UTF-8 (RFC 3629), stated on its own. *)
From Verif Require Import Base.
Local Open Scope N_scope.

Definition continues (c : ascii) : Prop := 128 <= N_of_ascii c < 192.
(** The code point x is written by these bytes: the shortest form, no surrogates, nothing above U+10FFFF. *)
Inductive utf8_char : N -> list ascii -> Prop :=
| Utf8_1 a : N_of_ascii a < 128 -> utf8_char (N_of_ascii a) [a]
| Utf8_2 a b x : 192 <= N_of_ascii a < 224 -> continues b ->
    x = (N_of_ascii a - 192) * 64 + (N_of_ascii b - 128) -> 128 <= x -> utf8_char x [a; b]
| Utf8_3 a b c x : 224 <= N_of_ascii a < 240 -> continues b -> continues c ->
    x = (N_of_ascii a - 224) * 4096 + (N_of_ascii b - 128) * 64 + (N_of_ascii c - 128) -> 2048 <= x -> ~ (55296 <= x < 57344) -> utf8_char x [a; b; c]
| Utf8_4 a b c d x : 240 <= N_of_ascii a < 248 -> continues b -> continues c -> continues d ->
    x = (N_of_ascii a - 240) * 262144 + (N_of_ascii b - 128) * 4096 + (N_of_ascii c - 128) * 64 + (N_of_ascii d - 128) ->
    65536 <= x <= 1114111 -> utf8_char x [a; b; c; d].
Inductive utf8_bytes : list ascii -> Prop :=
| Utf8_nil : utf8_bytes []
| Utf8_cons x bs l : utf8_char x bs -> utf8_bytes l -> utf8_bytes (bs ++ l).
Definition utf8_string (s : string) : Prop := utf8_bytes (bytes s).
