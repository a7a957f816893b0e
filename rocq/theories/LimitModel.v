(** Model of LimitStore: store.go:461-512. *)
From Verif Require Import Base MemModel.

(** store.go:463-477.  The ring holds int64(trace ID); the conversion to int64 and back is a
    bijection on 64-bit words that fixes zero, so the ring holds the IDs themselves here. *)
Record LS := MkLS { ls_ring : option (list N); ls_traces : gset N; ls_next : nat }.
Definition ls_init : LS := MkLS None ∅ 0.

(** store.go:481-512 Collect.  [del_ok] tells whether the underlying Delete, if called,
    succeeds.  The result: the new state, the calls made on the underlying store that took
    effect, in order, and whether Collect returned the Delete's error.  An underlying Delete that
    fails is taken to have no effect. *)
Definition ls_collect (max : nat) (del_ok : bool) (id : SpanID) (anns : list Annotation) (ls : LS) : LS * list call * bool :=
  if (max =? 0)%nat then (ls, [], false) else
  let ls := match ls_ring ls with
            | Some _ => ls
            | None => MkLS (Some (repeat 0 max)) ∅ (ls_next ls)
            end in
  let ring := default [] (ls_ring ls) in
  if bool_decide (sp_trace id ∈ ls_traces ls) then (ls, [CCollect id anns], false) else
  let old := nth (ls_next ls) ring 0 in
  if negb (old =? 0) && negb del_ok then
    (MkLS (Some ring) (ls_traces ls ∖ {[old]}) (ls_next ls), [], true)
  else
    let traces := if negb (old =? 0) then ls_traces ls ∖ {[old]} else ls_traces ls in
    (MkLS (Some (<[ls_next ls := sp_trace id]> ring)) ({[sp_trace id]} ∪ traces) ((ls_next ls + 1) mod max)%nat,
     (if negb (old =? 0) then [CDelete [old]] else []) ++ [CCollect id anns], false).

(** Calls made on the LimitStore.  Delete is the embedded store's method (470). *)
Inductive lop := LCollect (id : SpanID) (anns : list Annotation) (del_ok : bool) | LDelete (ts : list N).

Definition ls_step (max : nat) (op : lop) (ls : LS) : LS * list call :=
  match op with
  | LCollect id anns del_ok => fst (ls_collect max del_ok id anns ls)
  | LDelete ts => (ls, [CDelete ts])
  end.

(** The calls a history of LimitStore calls makes on the underlying store. *)
Fixpoint ls_run (max : nat) (ops : list lop) (ls : LS) : LS * list call :=
  match ops with
  | [] => (ls, [])
  | op :: ops => let '(ls, c1) := ls_step max op ls in let '(ls, c2) := ls_run max ops ls in (ls, c1 ++ c2)
  end.
