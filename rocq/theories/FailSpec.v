(** Processes that record spans over a network that may fail, and the server they talk to. *)
From Verif Require Import Base ChunkModel ChunkSpec WireModel WireSpec RemoteModel MemModel MemSpec EndSpec.

(** A process: the history [se_log] of its ChunkedCollector (calls of Collect, Flush and Stop, the timer,
    the time limit, in any schedule), the Collect and Close calls [se_ops] of the RemoteCollector below it,
    with the outcomes of its dialling and writing, the connections [se_net] it made, and the bytes that arrived
    at the server on each of them. *)
Record sender := MkSender {
  se_log : list ChunkModel.event; se_ops : list RemoteModel.rop; se_net : RC; se_arrived : list bytes
}.

(** The calls of Collect that were accepted. *)
Definition recordings (log : list ChunkModel.event) : list wcall :=
  omap (fun ev => match ev with EvCollect id a (OQueued _) => Some (id, a) | _ => None end) log.

(** An execution.  Each packet that the ChunkedCollector sends is one Collect call of the RemoteCollector,
    with the same result; each connection delivers a first part, possibly all, of the bytes written to it.
    Span IDs are 64 bit, strings and packets are shorter than 2^64 bytes. *)
Record executes (s : sender) : Prop := {
  ex_run : exists cfg c res, cc_run cfg (se_log s) c /\ rc_run (se_ops s) rc_init = (se_net s, res) /\
    Forall2 (fun x y => fst x = fst y /\ (snd x = None <-> snd y = true)) (sends_in (se_log s)) res;
  ex_arrived : Forall2 (fun bs cn => bs `prefix_of` cn_out cn) (se_arrived s) (rc_conns (se_net s));
  ex_valid : forall c, In c (recordings (se_log s)) -> valid_call c;
  ex_size : forall x, In x (sends_in (se_log s)) -> N.of_nat (length (call_body (fst x))) < two64
}.

(** The calls that the server passes to its MemoryStore, whose Collect always returns nil: one goroutine per
    connection. *)
Definition serves (L : lib) (ss : list sender) (calls : list wcall) : Prop :=
  interleaved (map (fun bs => fst (handle_conn L (fun _ _ => true) bs)) (concat (map se_arrived ss))) calls.

(** A history of the store, in which its users may delete traces at any time. *)
Definition collected (hist : list call) : list wcall :=
  omap (fun x => match x with CCollect id a => Some (id, a) | CDelete _ => None end) hist.

(** A failed write has not written everything (so it is for net's TCP connections: a write only fails when
    bytes are left; and for crypto/tls: a record that is cut cannot be decrypted). *)
Definition short (c : wcall) (o : wout * wout) : Prop :=
  (forall k, fst o = WFail k -> (k < length (varint (N.of_nat (length (call_body c)))))%nat) /\
  (forall k, snd o = WFail k -> (k < length (call_body c))%nat).
Definition short_writes (ops : list RemoteModel.rop) : Prop :=
  forall c o, In (RCollect c o) ops -> short c (out_first o) /\ short c (out_second o).
