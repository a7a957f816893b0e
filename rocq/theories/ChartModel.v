(** Model of the chart of the aggregated view: traceapp/aggregate.go:11-14, traceapp/tmpl/data/aggregate.html:50-82. *)
From Verif Require Import Base ReflModel JsonModel EscModel DashModel ProfModel.

(** aggregate.go:11-14: the JSON form of an item. *)
Definition enc_agg (x : string * Z) : json := JObj [(Base.bytes "label", JStr (Base.bytes (fst x))); (Base.bytes "value", json_int (snd x))].
(** aggregate.html:53: the value in the script (jsValEscaper); aggregate.go:87 makes a list that is not nil. *)
Definition chart_script (bf : bool) (items : list (string * Z)) : text := script_value bf (JArr (map enc_agg items)).
(** aggregate.html:54-56: the content of the chart; [data] is what the browser has read.  A list of no items has length 0;
    data.length is undefined for what is not a list. *)
Definition chart_content (data : json) : json :=
  match data with
  | JArr [] => JArr [JObj [(Base.bytes "label", JStr (Base.bytes "no traces to aggregate")); (Base.bytes "value", JNum (Base.bytes "1"))]]
  | _ => data
  end.
