(** What the annotations of HTTP events say: httptrace's names for the parts of requests and responses. *)
From Verif Require Import Base ReflModel HttpModel.

Definition header_fields (p : string) (headers : gmap string string) : list (string * string) :=
  map (fun kv => (p +:+ ".Headers." +:+ fst kv, snd kv)%string) (map_to_list headers).
Definition request_fields (p : string) (r : request) (headers : gmap string string) : list (string * string) :=
  [(p +:+ ".Method", rq_method r); (p +:+ ".URI", rq_uri r); (p +:+ ".Proto", rq_proto r); (p +:+ ".Host", rq_host r);
   (p +:+ ".RemoteAddr", rq_remote r); (p +:+ ".ContentLength", fmt_int (rq_length r))]%string ++ header_fields p headers.
Definition response_fields (p : string) (length status : Z) (headers : gmap string string) : list (string * string) :=
  [(p +:+ ".ContentLength", fmt_int length); (p +:+ ".StatusCode", fmt_int status)]%string ++ header_fields p headers.
(** The annotations of an event: one for each field, in some order, then the schema's. *)
Definition says (anns : list Annotation) (schema : string) (fields : list (string * string)) : Prop :=
  exists fields', Permutation fields' fields /\
    anns = map (fun f => Ann (fst f) (Some (snd f))) fields' ++ [Ann ("_schema:" +:+ schema)%string None].

(** What UnmarshalEvent makes of these annotations: the same values; a map without headers is nil. *)
Definition headers_read (headers : gmap string string) (x : val) : Prop :=
  exists l, Permutation l (map_to_list headers) /\ x = VMap (match l with [] => None | _ => Some (map (fun kv => (fst kv, VString (snd kv))) l) end).
Definition request_read (r : request) (headers : gmap string string) (x : val) : Prop :=
  exists h, headers_read headers h /\
    x = VStruct [("Method", VString (rq_method r)); ("URI", VString (rq_uri r)); ("Proto", VString (rq_proto r)); ("Headers", h);
                 ("Host", VString (rq_host r)); ("RemoteAddr", VString (rq_remote r)); ("ContentLength", VInt (rq_length r))].
Definition response_read (length status : Z) (headers : gmap string string) (x : val) : Prop :=
  exists h, headers_read headers h /\ x = VStruct [("Headers", h); ("ContentLength", VInt length); ("StatusCode", VInt status)].
