(** Model of the collection protocol: newCollectPacket (collector.go:36-43), span.go:62-78 and
    239-264 (conversion to and from the wire structs), internal/wire/collector.proto through
    gogo/protobuf's reflection codec and delimited reader/writer (outside /repo: modelled after
    their documented format), CollectorServer.handleConn (collector.go:442-475). *)
From Verif Require Import Base.

Notation bytes := (list ascii).

(** internal/wire/collector.pb.go:52-139: the generated structs; a nil pointer is None. *)
Record wspan := WSpan { ws_trace : option N; ws_span : option N; ws_parent : option N }.
Record wann := WAnn { wa_key : option string; wa_val : option string }.
Record wpacket := WPacket { wp_span : option wspan; wp_anns : list wann }.

(** span.go:62-69 SpanID.wire, 239-252 Annotations.wire, collector.go:36-43 newCollectPacket. *)
Definition span_wire (id : SpanID) : wspan := WSpan (Some (sp_trace id)) (Some (sp_span id)) (Some (sp_parent id)).
Definition ann_wire (a : Annotation) : wann := WAnn (Some (ann_key a)) (ann_val a).
Definition new_packet (id : SpanID) (anns : list Annotation) : wpacket := WPacket (Some (span_wire id)) (map ann_wire anns).

(** span.go:71-78 spanIDFromWire: dereferences each pointer; None is a nil dereference panic. *)
Definition span_from_wire (w : option wspan) : option SpanID :=
  match w with
  | Some (WSpan (Some t) (Some s) (Some p)) => Some (MkSpanID t s p)
  | _ => None
  end.
(** span.go:254-264 annotationsFromWire. *)
Fixpoint anns_from_wire (l : list wann) : option (list Annotation) :=
  match l with
  | [] => Some []
  | WAnn (Some k) v :: l => match anns_from_wire l with Some r => Some (Ann k v :: r) | None => None end
  | WAnn None _ :: _ => None
  end.

(** ** Protocol buffer encoding *)

(** Base-128 varint, least significant group first (binary.PutUvarint). *)
Fixpoint put_varint (fuel : nat) (n : N) : bytes :=
  match fuel with
  | O => []
  | S fuel => if n <? 128 then [ascii_of_N n] else ascii_of_N (n mod 128 + 128) :: put_varint fuel (n / 128)
  end.
Definition varint (n : N) : bytes := put_varint 10 n.

(** Reading one: at most 10 bytes. *)
Fixpoint get_varint (fuel : nat) (bs : bytes) : option (N * bytes) :=
  match fuel, bs with
  | S fuel, b :: bs =>
      if N_of_ascii b <? 128 then Some (N_of_ascii b, bs) else
      match get_varint fuel bs with
      | Some (h, r) => Some (N_of_ascii b - 128 + 128 * h, r)
      | None => None
      end
  | _, _ => None
  end.
(** proto.Buffer.DecodeVarint: high bits are shifted out. *)
Definition dec_varint (bs : bytes) : option (N * bytes) :=
  match get_varint 10 bs with Some (n, r) => Some (n mod two64, r) | None => None end.

(** fixed64: eight bytes, little endian. *)
Fixpoint put_le (k : nat) (n : N) : bytes :=
  match k with O => [] | S k => ascii_of_N (n mod 256) :: put_le k (n / 256) end.
Fixpoint get_le (k : nat) (bs : bytes) : option (N * bytes) :=
  match k, bs with
  | O, _ => Some (0, bs)
  | S k, b :: bs => match get_le k bs with Some (h, r) => Some (N_of_ascii b + 256 * h, r) | None => None end
  | S _, [] => None
  end.

(** Length-delimited bytes. *)
Definition put_bytes (s : string) : bytes := varint (N.of_nat (String.length s)) ++ list_ascii_of_string s.
Definition get_bytes (bs : bytes) : option (string * bytes) :=
  match dec_varint bs with
  | Some (n, r) => if n <=? N.of_nat (length r)
                   then Some (string_of_list_ascii (take (N.to_nat n) r), drop (N.to_nat n) r) else None
  | None => None
  end.

(** A field tag: number and wire type. *)
Definition tag (field wt : N) : bytes := varint (field * 8 + wt).
Definition get_tag (bs : bytes) : option (N * N * bytes) :=
  match dec_varint bs with Some (u, r) => Some (u / 8, u mod 8, r) | None => None end.

(** collector.proto:6-30; proto.Marshal writes the fields that are set, in order. *)
Definition put_opt {A} (field wt : N) (enc : A -> bytes) (o : option A) : bytes :=
  match o with Some x => tag field wt ++ enc x | None => [] end.
Definition enc_span (w : wspan) : bytes :=
  put_opt 2 1 (put_le 8) (ws_trace w) ++ put_opt 3 1 (put_le 8) (ws_span w) ++ put_opt 4 1 (put_le 8) (ws_parent w).
Definition enc_ann (w : wann) : bytes := put_opt 6 2 put_bytes (wa_key w) ++ put_opt 7 2 put_bytes (wa_val w).
Definition enc_packet (w : wpacket) : bytes :=
  match wp_span w with Some s => tag 1 3 ++ enc_span s ++ tag 1 4 | None => [] end ++
  flat_map (fun a => tag 5 3 ++ enc_ann a ++ tag 5 4) (wp_anns w).

(** ** Decoding *)

(** What differs between versions of the libraries: whether a group that lacks required fields is
    refused, and whether the end of input inside a length prefix is a plain io.EOF. *)
Record lib := MkLib { lib_strict : bool; lib_prefix_eof : bool }.

(** Skipping an unknown field of the given wire type. *)
Fixpoint skip (fuel : nat) (wt : N) (bs : bytes) : option bytes :=
  match fuel with
  | O => None
  | S fuel =>
    if wt =? 0 then match dec_varint bs with Some (_, r) => Some r | None => None end
    else if wt =? 1 then if (8 <=? length bs)%nat then Some (drop 8 bs) else None
    else if wt =? 2 then match get_bytes bs with Some (_, r) => Some r | None => None end
    else if wt =? 3 then
      (fix group (fuel' : nat) (bs : bytes) : option bytes :=
         match fuel' with
         | O => None
         | S fuel' => match get_tag bs with
                      | Some (_, w, r) => if w =? 4 then Some r else
                          match skip fuel w r with Some r => group fuel' r | None => None end
                      | None => None
                      end
         end) fuel bs
    else if wt =? 5 then if (4 <=? length bs)%nat then Some (drop 4 bs) else None
    else None
  end.

(** proto's unmarshalType for the group SpanID.  Known fields must have their wire type, or that of
    a group start. *)
Fixpoint dec_span (L : lib) (fuel : nat) (bs : bytes) (w : wspan) : option (wspan * bytes) :=
  match fuel with
  | O => None
  | S fuel =>
    match get_tag bs with
    | None => None
    | Some (f, wt, r) =>
      if wt =? 4 then
        if lib_strict L && negb (bool_decide (is_Some (ws_trace w)) && bool_decide (is_Some (ws_span w))) then None else Some (w, r)
      else if f =? 0 then None
      else if (2 <=? f) && (f <=? 4) then
        if negb ((wt =? 1) || (wt =? 3)) then None else
        match get_le 8 r with
        | Some (v, r) =>
            dec_span L fuel r (if f =? 2 then WSpan (Some v) (ws_span w) (ws_parent w)
              else if f =? 3 then WSpan (ws_trace w) (Some v) (ws_parent w)
              else WSpan (ws_trace w) (ws_span w) (Some v))
        | None => None
        end
      else match skip (S (length r)) wt r with Some r => dec_span L fuel r w | None => None end
    end
  end.

(** The same for the group Annotation. *)
Fixpoint dec_ann (L : lib) (fuel : nat) (bs : bytes) (w : wann) : option (wann * bytes) :=
  match fuel with
  | O => None
  | S fuel =>
    match get_tag bs with
    | None => None
    | Some (f, wt, r) =>
      if wt =? 4 then if lib_strict L && negb (bool_decide (is_Some (wa_key w))) then None else Some (w, r)
      else if f =? 0 then None
      else if (f =? 6) || (f =? 7) then
        if negb ((wt =? 2) || (wt =? 3)) then None else
        match get_bytes r with
        | Some (v, r) => dec_ann L fuel r (if f =? 6 then WAnn (Some v) (wa_val w) else WAnn (wa_key w) (Some v))
        | None => None
        end
      else match skip (S (length r)) wt r with Some r => dec_ann L fuel r w | None => None end
    end
  end.

(** And for CollectPacket; the SpanID group is required.  A repeated SpanID group merges; the check for
    its required fields is then made on the merged struct (a simplification: the library counts the
    fields of the last group). *)
Fixpoint dec_packet (L : lib) (fuel : nat) (bs : bytes) (w : wpacket) : option wpacket :=
  match bs with
  | [] => match wp_span w with Some _ => Some w | None => None end
  | _ =>
  match fuel with
  | O => None
  | S fuel =>
    match get_tag bs with
    | None => None
    | Some (f, wt, r) =>
      if wt =? 4 then None
      else if f =? 0 then None
      else if f =? 1 then
        if negb (wt =? 3) then None else
        match dec_span L (length r) r (default (WSpan None None None) (wp_span w)) with
        | Some (s, r) => dec_packet L fuel r (WPacket (Some s) (wp_anns w))
        | None => None
        end
      else if f =? 5 then
        if negb (wt =? 3) then None else
        match dec_ann L (length r) r (WAnn None None) with
        | Some (a, r) => dec_packet L fuel r (WPacket (wp_span w) (wp_anns w ++ [a]))
        | None => None
        end
      else match skip (S (length r)) wt r with Some r => dec_packet L fuel r w | None => None end
    end
  end
  end.
(** proto.Unmarshal *)
Definition unmarshal (L : lib) (bs : bytes) : option wpacket := dec_packet L (length bs) bs (WPacket None []).

(** ** Delimited messages *)

(** pio's delimited writer: length prefix and message. *)
Definition frame (p : wpacket) : bytes :=
  varint (N.of_nat (length (enc_packet p))) ++ enc_packet p.

(** collector.go:23 *)
Definition max_message : N := 1048576.

(** pio's delimited reader: ReadMsg.  [RClean] is io.EOF. *)
Inductive read := RMsg (p : wpacket) (rest : bytes) | RClean | RErr.
Definition read_msg (L : lib) (bs : bytes) : read :=
  match bs with
  | [] => RClean
  | _ =>
    match get_varint 10 bs with
    | None => if lib_prefix_eof L && (length bs <? 10)%nat then RClean else RErr
    | Some (n, r) =>
        if two64 <=? n then RErr else
        if max_message <? n then RErr else
        if N.of_nat (length r) <? n then (match r with [] => RClean | _ => RErr end) else
        match unmarshal L (take (N.to_nat n) r) with
        | Some p => RMsg p (drop (N.to_nat n) r)
        | None => RErr
        end
    end
  end.

(** collector.go:442-475 handleConn on a connection that delivers [bs] and then ends; [coll] is the
    collector: given the earlier calls on this connection and the new one, whether it succeeds.
    Debug and Trace logging are not modelled. *)
Notation wcall := (SpanID * list Annotation)%type.
Inductive hresult := HClosed | HError | HPanic.
Fixpoint handle (L : lib) (coll : list wcall -> wcall -> bool) (fuel : nat) (done : list wcall) (bs : bytes) : list wcall * hresult :=
  match fuel with
  | O => (done, HError)
  | S fuel =>
    match read_msg L bs with
    | RClean => (done, HClosed)
    | RErr => (done, HError)
    | RMsg p rest =>
        match span_from_wire (wp_span p) with
        | None => (done, HPanic)
        | Some id =>
            match anns_from_wire (wp_anns p) with
            | None => (done, HPanic)
            | Some anns =>
                if coll done (id, anns) then handle L coll fuel (done ++ [(id, anns)]) rest
                else (done ++ [(id, anns)], HError)
            end
        end
    end
  end.
Definition handle_conn (L : lib) (coll : list wcall -> wcall -> bool) (bs : bytes) : list wcall * hresult :=
  handle L coll (S (length bs)) [] bs.
