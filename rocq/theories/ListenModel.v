(** The collector server with many clients at once: collector.go:403-475.  Bytes arrive on each
    connection in pieces of any size; the handlers' steps interleave freely with each other, with
    new connections and with arriving bytes. *)
From Verif Require Import Base WireModel.

(** pio's delimited reader on a connection of which the bytes [buf] have arrived and not been read
    yet; [eof]: nothing more will come.  [None]: ReadMsg blocks.  The length prefix is read byte by byte
    (binary.ReadUvarint, at most ten bytes), the message with io.ReadFull. *)
Definition read_now (L : lib) (buf : bytes) (eof : bool) : option read :=
  if eof then Some (read_msg L buf) else
  match get_varint 10 buf with
  | None => if (length buf <? 10)%nat then None else Some RErr
  | Some (n, r) =>
      if two64 <=? n then Some RErr else
      if max_message <? n then Some RErr else
      if N.of_nat (length r) <? n then None else Some (read_msg L buf)
  end.

(** One accepted connection: unread bytes, whether the client closed its side, and how handleConn
    ended ([None]: still running). *)
Record lconn := MkLConn { lc_buf : bytes; lc_eof : bool; lc_end : option hresult }.

(** The process: its connections, the Collect calls made so far (with the connection each came from)
    and whether a panic in a handler goroutine has ended it. *)
Record server := MkServer { sv_conns : gmap nat lconn; sv_calls : list (nat * wcall); sv_crashed : bool }.
Definition sv_init : server := MkServer ∅ [] false.

(** The Collect calls made for connection [c], in order. *)
Definition calls_of (c : nat) (s : server) : list wcall := map snd (List.filter (fun x => (fst x =? c)%nat) (sv_calls s)).

Inductive slabel :=
| LAcceptError                        (* Accept returns an error *)
| LAccept (c : nat)                   (* Accept returns connection c *)
| LData (c : nat) (bs : bytes)        (* bytes arrive on c *)
| LClose (c : nat)                    (* c's client closes its side *)
| LHandle (c : nat).                  (* c's handler: one ReadMsg that returns and what follows it *)

Definition set_conn (c : nat) (k : lconn) (s : server) : server := MkServer (<[c := k]> (sv_conns s)) (sv_calls s) (sv_crashed s).

(** collector.go:453-473 one round of handleConn's loop on connection c, once ReadMsg has returned r.
    collector.go:447-450 The deferred Close: nothing is read from the connection afterwards.
    The nil dereferences of spanIDFromWire and annotationsFromWire panic; nothing recovers, so the whole
    process ends.  Debug, Trace and the log lines are not modelled.  [coll]: whether the server's
    collector accepts a call, given the earlier ones of this connection. *)
Definition handle_round (coll : list wcall -> wcall -> bool) (c : nat) (k : lconn) (r : read) (s : server) : server :=
  match r with
  | RClean => set_conn c (MkLConn (lc_buf k) (lc_eof k) (Some HClosed)) s
  | RErr => set_conn c (MkLConn (lc_buf k) (lc_eof k) (Some HError)) s
  | RMsg p rest =>
      match span_from_wire (wp_span p), anns_from_wire (wp_anns p) with
      | Some id, Some anns =>
          MkServer
            (<[c := MkLConn rest (lc_eof k) (if coll (calls_of c s) (id, anns) then None else Some HError)]> (sv_conns s))
            (sv_calls s ++ [(c, (id, anns))]) (sv_crashed s)
      | _, _ => MkServer (<[c := MkLConn rest (lc_eof k) (Some HPanic)]> (sv_conns s)) (sv_calls s) true
      end
  end.

(** collector.go:425-440 Start, and everything the network and the handlers do meanwhile.  [None]: not
    possible in this state. *)
Definition sv_step (L : lib) (coll : list wcall -> wcall -> bool) (l : slabel) (s : server) : option server :=
  if sv_crashed s then None else
  match l with
  | LAcceptError => Some s
  | LAccept c => match sv_conns s !! c with None => Some (set_conn c (MkLConn [] false None) s) | Some _ => None end
  | LData c bs =>
      match sv_conns s !! c with
      | Some k => if lc_eof k then None else Some (set_conn c (MkLConn (lc_buf k ++ bs) false (lc_end k)) s)
      | None => None
      end
  | LClose c =>
      match sv_conns s !! c with
      | Some k => if lc_eof k then None else Some (set_conn c (MkLConn (lc_buf k) true (lc_end k)) s)
      | None => None
      end
  | LHandle c =>
      match sv_conns s !! c with
      | Some k =>
          match lc_end k, read_now L (lc_buf k) (lc_eof k) with
          | None, Some r => Some (handle_round coll c k r s)
          | _, _ => None
          end
      | None => None
      end
  end.

Fixpoint sv_run (L : lib) (coll : list wcall -> wcall -> bool) (tr : list slabel) (s : server) : option server :=
  match tr with
  | [] => Some s
  | l :: tr => match sv_step L coll l s with Some s => sv_run L coll tr s | None => None end
  end.
