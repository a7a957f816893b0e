(** What is shown after a trace has been opened by several requests at once. *)
From Verif Require Import Base MemModel MemSpec UploadConcModel.

(** A whole trace: spans of trace t with different, non-zero IDs, under their parents, below one root without a parent. *)
Record whole (t : N) (tr : tree) : Prop := {
  w_trace : forall n, In n (nodes tr) -> sp_trace (tr_id n) = t;
  w_once : List.NoDup (map (fun n => sp_span (tr_id n)) (nodes tr));
  w_zero : forall n, In n (nodes tr) -> sp_span (tr_id n) <> 0;
  w_root : sp_parent (tr_id tr) = 0;
  w_edge : forall p c, edge tr p c -> sp_parent (tr_id c) = sp_span (tr_id p)
}.
(** [tr'] has the spans of [tr], each under its parent, with its annotations repeated k times. *)
Record copies (k : nat) (tr tr' : tree) : Prop := {
  k_root : tr_id tr' = tr_id tr;
  k_spans : Permutation (map tr_id (nodes tr')) (map tr_id (nodes tr));
  k_edges : forall p c, (exists p' c', edge tr' p' c' /\ tr_id p' = p /\ tr_id c' = c) <-> (exists p' c', edge tr p' c' /\ tr_id p' = p /\ tr_id c' = c);
  k_anns : forall n n', In n (nodes tr) -> In n' (nodes tr') -> tr_id n = tr_id n' -> tr_anns n' = concat (repeat (tr_anns n) k)
}.
(** How many requests have not found trace t, in a sequence of events. *)
Fixpoint misses (t : N) (evs : list uevent) : nat :=
  match evs with
  | [] => 0
  | UAsk _ t' false :: evs => ((if N.eqb t' t then 1 else 0) + misses t evs)%nat
  | _ :: evs => misses t evs
  end.
