(** Model of opentracing/json.go: log fields, their texts, and the JSON text of all of them. *)
From Verif Require Import Base ReflModel JsonModel OtModel.

(** The calls that a log field makes on the encoder (log.Field.Marshal, a library).  The texts of floats and objects
    (json.go:77-87, fmt.Sprintf) are given. *)
Inductive field :=
| FString (k v : string) | FBool (k : string) (b : bool)
| FInt (k : string) (z : Z)          (* EmitInt, EmitInt32, EmitInt64 *)
| FUint (k : string) (n : N)         (* EmitUint32, EmitUint64 *)
| FText (k v : string)               (* EmitFloat32, EmitFloat64, EmitObject *)
| FLazy (fs : list field).           (* EmitLazyLogger *)
(** json.go:49-91: the entries set, in order. *)
Fixpoint emitted1 (f : field) : list (string * string) :=
  match f with
  | FString k v => [(k, v)]
  | FBool k b => [(k, fmt_bool b)]
  | FInt k z => [(k, fmt_int z)]
  | FUint k n => [(k, fmt_uint n)]
  | FText k v => [(k, v)]
  | FLazy fs => flat_map emitted1 fs
  end.
Definition emitted (fs : list field) : list (string * string) := flat_map emitted1 fs.

(** json.Marshal of a map[string]string: members in the order of their keys; [bf] as in JsonModel. *)
Definition marshal_map (bf : bool) (m : gmap string string) : string :=
  Base.unbytes (print_compact bf (JObj (map (fun kv => (Base.bytes (fst kv), JStr (Base.bytes (snd kv)))) (map_to_kvs m)))).
(** json.go:31-47 materializeWithJSON *)
Definition message (bf : bool) (fs : list field) : string := materialize (marshal_map bf) (emitted fs).
