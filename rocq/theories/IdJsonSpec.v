(** JSON literals that denote IDs. *)
From Verif Require Import Base IdModel IdSpec ReflModel.
Local Open Scope char_scope.

Definition white (s : string) : Prop := forall c, In c (bytes s) -> In c [" "; "009"; "010"; "013"].
(** One character in a JSON string literal and what it denotes (255 for anything outside ASCII). *)
Inductive json_char : string -> ascii -> Prop :=
| JC_plain c : (32 <= N_of_ascii c < 128)%N -> c <> """" -> c <> "\" -> json_char (String c "") c
| JC_high c : (128 <= N_of_ascii c)%N -> json_char (String c "") "255"
| JC_escape e c : In (e, c) [("""", """"); ("\", "\"); ("/", "/"); ("b", "008"); ("f", "012"); ("n", "010"); ("r", "013"); ("t", "009")] ->
    json_char (String "\" (String e "")) c
| JC_ascii h v : String.length h = 4%nat -> hex_numeral h v -> (v < 128)%N -> json_char (String "\" (String "u" h)) (ascii_of_N v)
| JC_code h v : String.length h = 4%nat -> hex_numeral h v -> (128 <= v)%N -> json_char (String "\" (String "u" h)) "255".
Inductive json_chars : string -> string -> Prop :=
| JCs_nil : json_chars "" ""
| JCs_cons a c s t : json_char a c -> json_chars s t -> json_chars (a +:+ s) (String c t).

(** [literal lit v]: a JSON value that denotes the ID v: a string of hexadecimal digits or an integer. *)
Inductive id_literal : string -> N -> Prop :=
| IL_string src s v : json_chars src s -> hex_numeral s v -> is_id v -> id_literal ("""" +:+ src +:+ """") v
| IL_int v : is_id v -> id_literal (fmt_uint v) v.
