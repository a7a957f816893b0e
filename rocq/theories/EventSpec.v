(** Which events can be told apart on one span. *)
From Verif Require Import Base StrOrder ReflModel ReflSpec EventModel.

(** The names of an event type's fields. *)
Definition names_of (et : evtype) : list string := map fst (ev_fields et).
(** An event of a type without methods of its own, with values that can be restored. *)
Definition good_event (e : evtype * val) : Prop :=
  ev_marshaler (fst e) = None /\ ev_unmarshaler (fst e) = None /\ good (ev_ty (fst e)) (snd e).
(** Different schemas, different field names that are not one another's prefixes up to '.', and no field
    name that begins "_schema:" or begins with it. *)
Definition separate (ets : list evtype) : Prop :=
  NoDup (map ev_schema ets) /\ names_ok (concat (map names_of ets)) /\
  forall n, n ∈ concat (map names_of ets) -> has_prefix n schema_prefix = false /\ has_prefix schema_prefix n = false.
(** The annotations of a span on which the events were recorded one after the other. *)
Definition recorded (evs : list (evtype * val)) (anns : list Annotation) : Prop :=
  exists parts, Forall2 (fun e a => marshal (fst e) (snd e) a) evs parts /\ anns = concat parts.
(** The types whose values are set without panics: no pointers, slices or arrays, no named scalar types;
    the fields of a struct have different names. *)
Fixpoint plain (t : ty) : bool :=
  match t with
  | TScalar named _ => negb named
  | TTime => true
  | TStruct fs => bool_decide (NoDup (map fst fs)) && forallb (fun f => plain (snd f)) fs
  | TMap (TScalar named _) => negb named
  | TMap TTime => true
  | _ => false
  end.
