(** What the spans of an HTTP request should tell about it. *)
From Verif Require Import Base TimeModel ReflModel HttpModel HttpSpec LibEventSpec.

(** The headers of a message: one text for each name, in order; that of a redacted name says so, that of another name joins its values in header and trailer.
    (If two names differ in their case only, it is left open which of them is shown.) *)
Definition shown_headers (names : list string) (hdr trailer : header) (hs : list (string * string)) : Prop :=
  sorted_keys hs /\
  ((forall k, is_Some (hdr !! k) \/ is_Some (trailer !! k) -> canonical_key k = k) ->
   forall k v, In (k, v) hs <-> (is_Some (hdr !! k) \/ is_Some (trailer !! k)) /\
     ((secret names k /\ v = "REDACTED"%string) \/ (~ secret names k /\ v = join "," (default [] (hdr !! k) ++ default [] (trailer !! k))))).
(** The value of a RequestInfo that tells the request ... *)
Definition tells_request (names : list string) (r : HttpModel.request) (v : val) : Prop :=
  exists hs, shown_headers names (rq_header r) (rq_trailer r) hs /\
  v = request_val (Req (HttpModel.rq_method r) (HttpModel.rq_uri r) (HttpModel.rq_proto r) hs (HttpModel.rq_host r) (HttpModel.rq_remote r) (HttpModel.rq_length r)).
(** ... and that of a ResponseInfo that tells the response. *)
Definition tells_response (names : list string) (r : HttpModel.response) (v : val) : Prop :=
  exists hs, shown_headers names (rs_header r) (rs_trailer r) hs /\ v = response_val (Resp hs (HttpModel.rs_length r) (HttpModel.rs_status r)).
(** The annotation with the key, if there is one, has the text of a time (of the years 0 to 9999; time.Now gives others on a broken clock only). *)
Definition timed (k : string) (anns : list Annotation) : Prop := forall t, In (Ann k (Some t)) anns -> exists s, valid_time s /\ t = fmt_time s.
