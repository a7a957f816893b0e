(** Specification for C157: what clients have recorded, over any number of runs of a server. *)
From Verif Require Import Base MemModel RestartModel GobSpec.

(** The calls of Collect. *)
Definition collects (calls : list call) : list (SpanID * list Annotation) :=
  flat_map (fun c => match c with CCollect id a => [(id, a)] | CDelete _ => [] end) calls.
Definition all_calls (rs : list run) : list call := flat_map rn_calls rs.
(** [id] was passed to Collect, and [anns] are the annotations of some of the calls for this span, whole and in order; but a
    value that is present and empty may have become an absent one. *)
Definition recorded (H : list (SpanID * list Annotation)) (id : SpanID) (anns : list Annotation) : Prop :=
  In id (map fst H) /\
  exists sub, sublist sub (filter (fun x => sp_trace (fst x) = sp_trace id /\ sp_span (fst x) = sp_span id) H) /\
    Forall2 like_ann (concat (map snd sub)) anns.
(** The call neither adds to the trace nor deletes it. *)
Definition leaves (t : N) (c : call) : Prop :=
  match c with CCollect id _ => sp_trace id <> t | CDelete ts => ~ In t ts end.
