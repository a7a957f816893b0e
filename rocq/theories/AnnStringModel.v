(** Model of Trace.String (trace.go) and Annotations.String (span.go). *)
From Verif Require Import Base IdJsonModel JsonModel TraceJsonModel.
Local Open Scope N_scope.
Local Open Scope char_scope.

(** trace.go:20-26 String: json.MarshalIndent of the trace; [j] is a JSON value that encodes it ([encodes]). *)
Definition trace_string (bf : bool) (j : json) : text := print_indented bf j.

(** strconv.Quote (quoteWith and appendEscapedRune), which fmt's %q of a byte slice is.  [printable] is strconv.IsPrint, whose tables
    are not modelled; [del]: U+007F is written \x7f (newer releases of Go) and not \u007f. *)
Definition hex2 (x : N) : text := [hex_low (x / 16)%N; hex_low (x mod 16)%N].
Definition hex4_low (x : N) : text := hex2 (x / 256)%N ++ hex2 (x mod 256)%N.
Definition go_quote_piece (printable : N -> bool) (del : bool) (p : piece) : text :=
  match p with
  | inr a => ["\"; "x"] ++ hex2 (bn a)
  | inl (x, bs) =>
      if (x =? 34)%N || (x =? 92)%N then ["\"; ascii_of_N x]
      else if printable x then bs
      else if (x =? 7)%N then ["\"; "a"] else if (x =? 8)%N then ["\"; "b"] else if (x =? 12)%N then ["\"; "f"] else if (x =? 10)%N then ["\"; "n"]
      else if (x =? 13)%N then ["\"; "r"] else if (x =? 9)%N then ["\"; "t"] else if (x =? 11)%N then ["\"; "v"]
      else if (x <? 32)%N || del && (x =? 127)%N then ["\"; "x"] ++ hex2 x
      else if (x <? 65536)%N then ["\"; "u"] ++ hex4_low x
      else ["\"; "U"] ++ hex4_low (x / 65536)%N ++ hex4_low (x mod 65536)%N
  end.
Definition go_quote (printable : N -> bool) (del : bool) (s : text) : text :=
  quote :: concat (map (go_quote_piece printable del) (pieces s)) ++ [quote].

(** span.go:196-203 Annotations.String *)
Definition anns_string (printable : N -> bool) (del : bool) (anns : list Annotation) : text :=
  concat (map (fun a => Base.bytes (ann_key a) ++ ["="] ++ go_quote printable del (Base.bytes (val_bytes (ann_val a))) ++ ["010"]) anns).

(** span.go:145-152 Span.String: json.MarshalIndent of the span's two fields (span.go:138-143).  An empty list is written as null or []. *)
Inductive encodes_span (id : SpanID) (anns : list Annotation) : json -> Prop :=
| encodes_span_intro ja : ja = JArr (map enc_ann anns) \/ anns = [] /\ ja = JNull ->
    encodes_span id anns (JObj [(Base.bytes "ID", enc_spanid id); (Base.bytes "Annotations", ja)]).
Definition span_string (bf : bool) (j : json) : text := print_indented bf j.
(** encoding/json on a Span (see dec_trace) *)
Definition dec_span (j : json) : option (SpanID * list Annotation) :=
  match j with
  | JNull => Some (MkSpanID 0 0 0, [])
  | JObj kvs =>
      fold_opt (fun (t : SpanID * list Annotation) kv =>
        let '(id, anns) := t in
        if names (fst kv) "ID" then match dec_spanid id (snd kv) with Some id => Some (id, anns) | None => None end
        else if names (fst kv) "Annotations" then match dec_anns (snd kv) with Some anns => Some (id, anns) | None => None end
        else Some t) (MkSpanID 0 0 0, []) kvs
  | _ => None
  end.
