(** Specification for the client transport. *)
From Verif Require Import Base HttpModel TransportModel.

(** At the end of the history [h], round trip [k] of the request at [o] with the clone [c] is under way. *)
Definition under_way (h : list tevent) (k o c : N) : Prop :=
  exists h1 h2, h = h1 ++ TStart k o c :: h2 /\ TEnd k ∉ h2.
(** No request is used for two round trips at the same time. *)
Definition exclusive (h : list tevent) : Prop :=
  forall h1 h2 k k' o c c', h = h1 ++ h2 -> under_way h1 k o c -> under_way h1 k' o c' -> k = k'.
(** The same request with another header. *)
Definition with_header (r : request) (h : gmap string (list string)) : request :=
  MkRequest (rq_method r) (rq_uri r) (rq_proto r) h (rq_trailer r) (rq_host r) (rq_remote r) (rq_length r) (rq_url_host r) (rq_url_path r).
