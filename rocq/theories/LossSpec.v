(** What may become of a recording, in terms of the history of its process. *)
From Verif Require Import Base ChunkModel ChunkSpec WireModel WireSpec RemoteModel MemModel MemSpec EndSpec FailSpec.

(** The network delivers all that was written to it, and no packet is above the server's limit of 1 MB. *)
Definition delivers (s : sender) : Prop :=
  se_arrived s = map cn_out (rc_conns (se_net s)) /\ forall x, In x (sends_in (se_log s)) -> fits (fst x).

(** The queue is neither taken by a Flush nor dropped. *)
Definition kept (l : list ChunkModel.event) : Prop :=
  (forall f q, ~ In (EvBegin f q) l) /\ (forall id a q, ~ In (EvCollect id a (ODropped q)) l).

(** Of a recording, [rest] being the history after it: it is still queued; a Collect dropped it, returning
    ErrQueueDropped; a Flush has it and has not returned; a Flush had it and returned an error. *)
Definition waiting (rest : list ChunkModel.event) : Prop := kept rest.
Definition dropped_by_collect (rest : list ChunkModel.event) : Prop :=
  exists l1 id a q l2, rest = l1 ++ EvCollect id a (ODropped q) :: l2 /\ kept l1.
Definition being_flushed (rest : list ChunkModel.event) : Prop :=
  exists l1 f q l2, rest = l1 ++ EvBegin f q :: l2 /\ kept l1 /\ forall r, ~ In (EvEnd f r) l2.
Definition flush_failed (rest : list ChunkModel.event) : Prop :=
  exists l1 f q l2 e l3, rest = l1 ++ EvBegin f q :: l2 ++ EvEnd f (Some e) :: l3 /\ kept l1 /\ not_about f l2.
(** A Flush had it and returned nil. *)
Definition flushed (rest : list ChunkModel.event) : Prop :=
  exists l1 f q l2 l3, rest = l1 ++ EvBegin f q :: l2 ++ EvEnd f None :: l3 /\ kept l1 /\ not_about f l2.

(** The store shows the recording: its span is in its trace, and has its annotations next to each other. *)
Definition shown_in (st : MS) (id : SpanID) (anns : list Annotation) : Prop :=
  exists tr n before after, shows st (sp_trace id) tr /\ In n (nodes tr) /\ sp_span (tr_id n) = sp_span id /\
    tr_anns n = (before ++ anns ++ after)%list.

(** The spans of trace t that were recorded by anyone. *)
Definition recorded_spans (ss : list sender) (t : N) : list SpanID :=
  filter (fun id => sp_trace id = t) (map fst (concat (map (fun s => recordings (se_log s)) ss))).

(** No Collect dropped the queue, nothing is queued, and every Flush has returned nil. *)
Definition settled (log : list ChunkModel.event) : Prop :=
  (forall id a q, ~ In (EvCollect id a (ODropped q)) log) /\ queue log = ∅ /\
  (forall l1 f q l2, log = l1 ++ EvBegin f q :: l2 -> exists r, In (EvEnd f r) l2) /\
  (forall f r, In (EvEnd f r) log -> r = None).
(** What was recorded for span s of trace t, by anyone. *)
Definition recorded_anns (ss : list sender) (t s : N) : list Annotation :=
  concat (map snd (filter (fun c => sp_trace (fst c) = t /\ sp_span (fst c) = s) (concat (map (fun s => recordings (se_log s)) ss)))).
