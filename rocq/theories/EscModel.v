(** Model of how the templates put recorded texts on a page: html/template's escapes (after its source and
    documentation), and the page's scripts that set texts (traceapp/tmpl/data/trace.html). *)
From Verif Require Import Base ReflModel JsonModel VisModel.
Local Open Scope char_scope.

(** html/template htmlReplacer with htmlReplacementTable, used for actions in element content (trace.html:628,
    637, 649, 657, traces.html:57-66), in quoted attributes (trace.html:22, traces.html:51) and in a textarea
    (layout.html:209-232).  It goes by runes, but replaces ASCII ones only. *)
Definition html_byte (c : ascii) : text :=
  if Ascii.eqb c "000" then map ascii_of_N [239; 191; 189]
  else if Ascii.eqb c """" then Base.bytes "&#34;"
  else if Ascii.eqb c "&" then Base.bytes "&amp;"
  else if Ascii.eqb c "'" then Base.bytes "&#39;"
  else if Ascii.eqb c "+" then Base.bytes "&#43;"
  else if Ascii.eqb c "<" then Base.bytes "&lt;"
  else if Ascii.eqb c ">" then Base.bytes "&gt;"
  else [c].
Definition html_escape (s : text) : text := concat (map html_byte s).

(** The getter of innerHTML on an element that contains just a text: &, <, > and no-break spaces are escaped. *)
Definition inner_byte (c : ascii) : text :=
  if Ascii.eqb c "&" then Base.bytes "&amp;" else if Ascii.eqb c "<" then Base.bytes "&lt;" else if Ascii.eqb c ">" then Base.bytes "&gt;" else [c].
Fixpoint inner_html (s : text) : text :=
  match s with
  | [] => []
  | c :: r =>
      match r with
      | d :: r' => if Ascii.eqb c (ascii_of_N 194) && Ascii.eqb d (ascii_of_N 160) then Base.bytes "&nbsp;" ++ inner_html r' else inner_byte c ++ inner_html r
      | [] => inner_byte c
      end
  end.
(** trace.html:413-416: filter.  (JavaScript counts UTF-16 units, here bytes are counted.) *)
Definition shorten (s : text) : text := if (length s <? 14)%nat then s else firstn 13 s ++ ["."; "."; "."].
(** trace.html:442: .text(filter(label.innerHTML)): the text that the timeline shows for a span; d3-timeline has set the
    label's text to the span's name. *)
Definition timeline_label (name : text) : text := shorten (inner_html name).
(** trace.html:385 (d3-tip sets the innerHTML of the tip): the markup that is the tip of a span. *)
Definition tip_html (name : text) : text := name.
(** trace.html:349 (jQuery's html sets innerHTML): the markup that is the context menu's heading; [label] is that of a
    timespan, which vis.go:123 makes of the name. *)
Definition menu_html (label : text) : text := label.
(** vis.go:41-46, 21-30: the JSON forms of a timespan and of an item; encoding/json sorts the pairs of the map, here
    they are in any order [data]. *)
Definition enc_bar (b : bar) : json :=
  JObj [(Base.bytes "label", JStr (Base.bytes (b_label b))); (Base.bytes "starting_time", JNum (Base.bytes (fmt_int (b_start b))));
        (Base.bytes "ending_time", JNum (Base.bytes (fmt_int (b_end b)))); (Base.bytes "duration", JNum (Base.bytes (fmt_int (b_duration b))))].
Definition enc_item (o : item) (data : list (string * string)) : json :=
  JObj [(Base.bytes "label", JStr (Base.bytes (it_label o))); (Base.bytes "fullLabel", JStr (Base.bytes (it_full o)));
        (Base.bytes "times", JArr (map enc_bar (it_times o)));
        (Base.bytes "rawData", JObj (map (fun kv => (Base.bytes (fst kv), JStr (Base.bytes (snd kv)))) data));
        (Base.bytes "spanID", JStr (Base.bytes (it_span o))); (Base.bytes "parentSpanID", JStr (Base.bytes (it_parent o)));
        (Base.bytes "url", JStr (Base.bytes (it_url o))); (Base.bytes "visible", JBool (it_visible o))].
(** app.go:204-216 VisData: no items are a nil slice. *)
Definition vis_data (items : list item) (j : json) : Prop :=
  (items = [] /\ j = JNull) \/
  exists l, Forall2 (fun o x => exists data, Permutation data (map_to_list (it_data o)) /\ x = enc_item o data) items l /\ j = JArr l.
(** trace.html:156, html/template's jsValEscaper: the value in the script is its JSON text. *)
Definition script_value (bf : bool) (j : json) : text := print_compact bf j.
