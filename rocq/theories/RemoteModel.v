(** Model of RemoteCollector (collector.go:275-395): its connection, reconnecting once. *)
From Verif Require Import Base WireModel.

(** A connection: all bytes written to it, and whether a write on it has failed.  A failed write may
    have written any part of its argument, even all.  Failures are permanent: later writes on
    the connection fail without writing anything (so do net and crypto/tls connections without deadlines). *)
Record conn := MkConn { cn_out : bytes; cn_dead : bool }.
Inductive wout := WOk | WFail (k : nat).
Definition conn_write (c : conn) (bs : bytes) (o : wout) : conn * bool :=
  if cn_dead c then (c, false) else
  match o with
  | WOk => (MkConn (cn_out c ++ bs) false, true)
  | WFail k => (MkConn (cn_out c ++ take k bs) true, false)
  end.
(** collector.go:372-386 collect: pio's delimited WriteMsg writes the length, then the message. *)
Definition write_msg (c : conn) (p : wpacket) (o : wout * wout) : conn * bool :=
  let (c, ok) := conn_write c (varint (N.of_nat (length (enc_packet p)))) (fst o) in
  if ok then conn_write c (enc_packet p) (snd o) else (c, false).

(** collector.go:303-318: pconn, and the connections that were closed (oldest first). *)
Record RC := MkRC { rc_conn : option conn; rc_old : list conn }.
Definition rc_init : RC := MkRC None [].
(** collector.go:326-329, 342-352: closing the connection, if any. *)
Definition rc_close (r : RC) : RC :=
  match rc_conn r with Some c => MkRC None (rc_old r ++ [c]) | None => r end.
(** collector.go:325-340 connect *)
Definition rc_connect (r : RC) (dial_ok : bool) : RC * bool :=
  let r := rc_close r in
  if dial_ok then (MkRC (Some (MkConn [] false)) (rc_old r), true) else (r, false).

(** The outcomes of the writes of the first attempt, the dialling, the writes of the second one. *)
Record outcomes := MkOut { out_first : wout * wout; out_dial : bool; out_second : wout * wout }.
(** collector.go:354-370 collectAndRetry; the result is whether the error is nil. *)
Definition rc_retry (r : RC) (p : wpacket) (o : outcomes) : RC * bool :=
  let (r, ok) := rc_connect r (out_dial o) in
  if ok then
    match rc_conn r with
    | Some c => let (c, ok) := write_msg c p (out_second o) in (MkRC (Some c) (rc_old r), ok)
    | None => (r, false)
    end
  else (r, false).
Definition rc_collect (r : RC) (p : wpacket) (o : outcomes) : RC * bool :=
  match rc_conn r with
  | Some c =>
      let (c, ok) := write_msg c p (out_first o) in
      if ok then (MkRC (Some c) (rc_old r), true) else rc_retry (MkRC (Some c) (rc_old r)) p o
  | None => rc_retry r p o
  end.

(** Histories of Collect and Close calls (serialised by rc.mu); the log has each Collect and
    whether it returned nil. *)
Inductive rop := RCollect (c : wcall) (o : outcomes) | RClose.
Fixpoint rc_run (ops : list rop) (r : RC) : RC * list (wcall * bool) :=
  match ops with
  | [] => (r, [])
  | RCollect c o :: ops =>
      let (r, ok) := rc_collect r (new_packet (fst c) (snd c)) o in
      let (r, log) := rc_run ops r in (r, (c, ok) :: log)
  | RClose :: ops => rc_run ops (rc_close r)
  end.
(** All connections ever made, oldest first. *)
Definition rc_conns (r : RC) : list conn := rc_old r ++ match rc_conn r with Some c => [c] | None => [] end.
