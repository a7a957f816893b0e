(** Model of "Export Selected" on the list of traces: traceapp/tmpl/data/traces.html:126-155. *)
From Verif Require Import Base IdModel ReflModel IdJsonModel JsonModel MemModel TraceJsonModel.
Local Open Scope char_scope.

(** ECMAScript's QuoteJSONString.  Texts are UTF-8 here; JavaScript's strings are UTF-16, in which invalid bytes do not
    occur (the last case), nor half surrogate pairs, since the strings come from a JSON text in UTF-8. *)
Definition js_piece (p : piece) : text :=
  match p with
  | inl (x, bs) =>
      if (x =? 8)%N then ["\"; "b"] else if (x =? 9)%N then ["\"; "t"] else if (x =? 10)%N then ["\"; "n"]
      else if (x =? 12)%N then ["\"; "f"] else if (x =? 13)%N then ["\"; "r"]
      else if (x =? 34)%N then ["\"; quote] else if (x =? 92)%N then ["\"; "\"]
      else if (x <? 32)%N then esc_u 0 0 (x / 16) (x mod 16)
      else bs
  | inr _ => ["\"; "u"; "f"; "f"; "f"; "d"]
  end.
Definition js_quote (s : text) : text := quote :: concat (map js_piece (pieces s)) ++ [quote].
(** ECMAScript's SerializeJSONProperty, with the layout of encoding/json's json.Indent (they are the same for an indent of
    two spaces).  [enc]: how strings are written. *)
Section print.
  Context (enc : text -> text) (nl : nat -> text) (sp : text).
  Fixpoint gen_print (d : nat) (j : json) : text :=
    match j with
    | JNull => Base.bytes "null"
    | JBool b => Base.bytes (if b then "true" else "false")
    | JNum s => s
    | JStr s => enc s
    | JArr [] => ["["; "]"]
    | JArr l => "[" :: nl (S d) ++ join_with (gen_print (S d)) ("," :: nl (S d)) l ++ nl d ++ ["]"]
    | JObj [] => ["{"; "}"]
    | JObj kvs => "{" :: nl (S d) ++ join_with (fun kv => enc (fst kv) ++ ":" :: sp ++ gen_print (S d) (snd kv)) ("," :: nl (S d)) kvs ++ nl d ++ ["}"]
    end.
End print.
(** JSON.stringify(sel, null, 2) *)
Definition js_stringify (j : json) : text := gen_print js_quote (fun d => "010" :: repeat " " (2 * d)) [" "] 0 j.

(** traces.html:49-51: a line of the list, with its box and the data of the trace (Trace.String, trace.go:20-26; the
    escapes of the attribute: EscModel). *)
Record box := MkBox { bx_trace : tree; bx_checked : bool; bx_text : text }.
Definition boxed (bf : bool) (b : box) : Prop := exists j, encodes (bx_trace b) j /\ bx_text b = print_indented bf j.
(** traces.html:115-124 selected, and 127-155: the text in the clipboard or text area.  [parse]: JSON.parse, None if it
    throws.  None: nothing is selected, or an exception. *)
Definition export_selected (parse : text -> option json) (boxes : list box) : option text :=
  match mapM (fun b => parse (bx_text b)) (List.filter bx_checked boxes) with
  | Some (j :: js) => Some (js_stringify (JArr (j :: js)))
  | _ => None
  end.
