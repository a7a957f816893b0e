(** Specification vocabulary for IDs: what a hexadecimal numeral denotes, and the
    bytewise order of strings.  Independent of the model in IdModel.v. *)
From Verif Require Import Base.

(** The sixteen digits; both cases of the letters denote the same value. *)
Inductive hex_digit_value : ascii -> N -> Prop :=
| HD_lower d c : nth_error (bytes "0123456789abcdef") (N.to_nat d) = Some c -> hex_digit_value c d
| HD_upper d c : nth_error (bytes "0123456789ABCDEF") (N.to_nat d) = Some c -> hex_digit_value c d.

(** [hex_numeral s v]: s is a non-empty string of hexadecimal digits denoting v,
    most significant digit first. *)
Inductive hex_numeral : string -> N -> Prop :=
| HN_one c d : hex_digit_value c d -> hex_numeral (String c EmptyString) d
| HN_snoc s v c d : hex_numeral s v -> hex_digit_value c d ->
    hex_numeral (s +:+ String c EmptyString) (16 * v + d).

(** Only lower-case hexadecimal digits. *)
Definition lower_hex (s : string) : Prop :=
  forall c, In c (bytes s) -> In c (bytes "0123456789abcdef").

(** Bytewise lexicographic order (Go's < on strings). *)
Inductive str_lt : string -> string -> Prop :=
| SL_nil c s : str_lt EmptyString (String c s)
| SL_head c d s t : N_of_ascii c < N_of_ascii d -> str_lt (String c s) (String d t)
| SL_tail c s t : str_lt s t -> str_lt (String c s) (String c t).

(** Components of a '/'-separated string: [joined ps s] says s is ps joined by "/"
    and no component contains "/". *)
Inductive joined : list string -> string -> Prop :=
| J_one p : ~ In "/"%char (bytes p) -> joined [p] p
| J_cons p ps s : ~ In "/"%char (bytes p) -> joined ps s -> joined (p :: ps) (p +:+ String "/" s).

(** The text [s] reads as span ID [r]: two or three slash-separated numerals,
    trace then span then (optionally) parent; a missing parent reads as 0. *)
Definition span_parse_ok (s : string) (r : SpanID) : Prop :=
  (exists a b, joined [a; b] s /\ hex_numeral a (sp_trace r) /\ hex_numeral b (sp_span r) /\ sp_parent r = 0) \/
  (exists a b c, joined [a; b; c] s /\ hex_numeral a (sp_trace r) /\ hex_numeral b (sp_span r) /\
     hex_numeral c (sp_parent r)).

(** Derivation of span IDs.  [kinds] says, for each span made, whether it was made as a
    root ([None]) or as a child of the i-th span made ([Some i]).
    [descends kinds n r]: the n-th span stems from the r-th one, a root, through a chain of children. *)
Inductive descends (kinds : list (option nat)) : nat -> nat -> Prop :=
| Desc_root n : kinds !! n = Some None -> descends kinds n n
| Desc_child n i r : kinds !! n = Some (Some i) -> descends kinds i r -> descends kinds n r.

(** A child is derived from a span that already exists. *)
Definition valid_kinds (kinds : list (option nat)) : Prop :=
  forall n i, kinds !! n = Some (Some i) -> (i < n)%nat.
