(** What the log of events of a ChunkedCollector says, independently of its state. *)
From Verif Require Import Base ChunkModel.

(** The annotations of span s among the entries q. *)
Definition entries_of (s : SpanID) (q : list entry) : list Annotation :=
  flat_map (fun e => if bool_decide (fst e = s) then snd e else []) q.

(** Annotations of span s accepted by Collect, passed to the underlying collector, and
    discarded with ErrQueueDropped, in order. *)
Definition accepted1 (s : SpanID) (ev : event) : list Annotation :=
  match ev with EvCollect id a (OQueued _) => if bool_decide (id = s) then a else [] | _ => [] end.
Definition sent1 (s : SpanID) (ev : event) : list Annotation :=
  match ev with EvSend _ id a _ => if bool_decide (id = s) then a else [] | _ => [] end.
Definition dropped1 (s : SpanID) (ev : event) : list Annotation :=
  match ev with EvCollect _ _ (ODropped q) => entries_of s q | EvTimeout _ q => entries_of s q | _ => [] end.
Definition accepted (s : SpanID) (log : list event) := flat_map (accepted1 s) log.
Definition sent (s : SpanID) (log : list event) := flat_map (sent1 s) log.
Definition dropped (s : SpanID) (log : list event) := flat_map (dropped1 s) log.

(** The same for spans as such (a span may have no annotations). *)
Definition was_accepted (s : SpanID) (log : list event) : Prop := exists a e, In (EvCollect s a (OQueued e)) log.
Definition was_sent (s : SpanID) (log : list event) : Prop := exists f a e, In (EvSend f s a e) log.
Definition was_dropped (s : SpanID) (log : list event) : Prop :=
  exists q a, In (s, a) q /\ ((exists id b, In (EvCollect id b (ODropped q)) log) \/ (exists f, In (EvTimeout f q) log)).

(** Annotations of span s still queued, and in running flushes. *)
Definition queued (s : SpanID) (c : CC) : list Annotation := entries_of s (map_to_list (cc_pend c)).
Definition flying (s : SpanID) (c : CC) : list Annotation :=
  flat_map (fun fl => entries_of s (fl_rest (snd fl))) (map_to_list (cc_fl c)).

(** At most one Flush runs at a time. *)
Fixpoint no_overlap (running : bool) (log : list event) : Prop :=
  match log with
  | [] => True
  | EvBegin _ _ :: log => running = false /\ no_overlap true log
  | EvEnd _ _ :: log => no_overlap false log
  | _ :: log => no_overlap running log
  end.

(** The queue: for each span the annotations accepted since the queue was last taken or dropped. *)
Definition queue_step (q : gmap SpanID (list Annotation)) (ev : event) : gmap SpanID (list Annotation) :=
  match ev with
  | EvCollect id a (OQueued _) => <[id := default [] (q !! id) ++ a]> q
  | EvCollect _ _ (ODropped _) => ∅
  | EvBegin _ _ => ∅
  | _ => q
  end.
Definition queue (log : list event) : gmap SpanID (list Annotation) := fold_left queue_step log ∅.

(** Its size as the code accounts for it: 24 bytes per call, plus keys and values. *)
Definition bytes_of (a : list Annotation) : N :=
  fold_right (fun a n => N.of_nat (String.length (ann_key a)) + N.of_nat (String.length (default ""%string (ann_val a))) + n) 0 a.
Definition account_step (n : N) (ev : event) : N :=
  match ev with
  | EvCollect id a (OQueued _) => n + (24 + bytes_of a)
  | EvCollect _ _ (ODropped _) => 0
  | EvBegin _ _ => 0
  | _ => n
  end.
Definition account (log : list event) : N := fold_left account_step log 0.
(** Its real size: 24 bytes per span, plus keys and values. *)
Definition queue_bytes (q : gmap SpanID (list Annotation)) : N :=
  fold_right (fun e n => 24 + bytes_of (snd e) + n) 0 (map_to_list q).
(** No 64-bit overflow in the accounting. *)
Definition small (cfg : ccfg) (log : list event) : Prop :=
  forall id a o, In (EvCollect id a o) log -> cf_max cfg + (24 + bytes_of a) < two64.

(** What flush f did in the stretch l of the log. *)
Definition sends (f : nat) (l : list event) : list entry :=
  flat_map (fun ev => match ev with EvSend g id a _ => if (g =? f)%nat then [(id, a)] else [] | _ => [] end) l.
Definition given_up (f : nat) (l : list event) : list entry :=
  flat_map (fun ev => match ev with EvTimeout g q => if (g =? f)%nat then q else [] | _ => [] end) l.
Definition errors (f : nat) (l : list event) : list cerr :=
  flat_map (fun ev => match ev with
    | EvSend g _ _ (Some e) => if (g =? f)%nat then [e] else []
    | EvTimeout g _ => if (g =? f)%nat then [EQueueDropped] else []
    | _ => [] end) l.
Definition not_about (f : nat) (l : list event) : Prop :=
  (forall q, ~ In (EvBegin f q) l) /\ (forall r, ~ In (EvEnd f r) l).

(** The last background error not yet returned. *)
Definition last_err_step (o : option cerr) (ev : event) : option cerr :=
  match ev with EvSetErr e => Some e | EvCollect _ _ (OQueued _) => None | _ => o end.
Definition last_err (log : list event) : option cerr := fold_left last_err_step log None.

(** Everything taken from the queue by the flushes that began in the stretch l. *)
Definition taken (l : list event) : list entry :=
  flat_map (fun ev => match ev with EvBegin _ q => q | _ => [] end) l.
