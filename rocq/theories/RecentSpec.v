(** First sight of a trace, read off the history of calls. *)
From Verif Require Import Base RecentModel.
Open Scope Z_scope.

(** When trace t was first seen since it was last evicted. *)
Definition seen_step (t : N) (s : option Z) (e : revent) : option Z :=
  let s := match s with Some x => Some x
           | None => if (sp_trace (re_id e) =? t)%N then Some (ck_seen (re_clock e)) else None end in
  if bool_decide (t ∈ re_ev e) then None else s.
Definition first_seen (t : N) (h : list revent) : option Z := fold_left (seen_step t) h None.
(** The same at the moment of e's decision. *)
Definition first_seen_at (t : N) (h : list revent) (e : revent) : option Z :=
  match first_seen t h with
  | Some x => Some x
  | None => if (sp_trace (re_id e) =? t)%N then Some (ck_seen (re_clock e)) else None
  end.

(** When the last eviction pass ran. *)
Definition last_pass (h : list revent) : option Z :=
  fold_left (fun l e => if re_ran e then Some (ck_evict (re_clock e)) else l) h None.

(** What was collected for trace t since it was last evicted; the eviction comes before the
    span collected by the same call. *)
Definition since_step (t : N) (L : list (SpanID * list Annotation)) (e : revent) : list (SpanID * list Annotation) :=
  let L := if bool_decide (t ∈ re_ev e) then [] else L in
  if (sp_trace (re_id e) =? t)%N then L ++ [(re_id e, re_anns e)] else L.
Definition since_evicted (t : N) (h : list revent) := fold_left (since_step t) h [].

(** The clock does not go back. *)
Definition clock_ok (ck : clock) : Prop := ck_seen ck <= ck_since ck <= ck_now ck /\ ck_now ck <= ck_evict ck.
Fixpoint clocks_ok (h : list revent) : Prop :=
  match h with
  | [] => True
  | e :: h => clock_ok (re_clock e) /\
      match h with [] => True | e' :: _ => ck_evict (re_clock e) <= ck_seen (re_clock e') end /\ clocks_ok h
  end.
