(** What a log of a Recorder's use says. *)
From Verif Require Import Base RecorderModel RecConcModel.

(** The errors that occurred, those that Errors returned, the lines logged. *)
Definition errors_of (log : list event) : list (string * string) :=
  flat_map (fun e => match e with EvError _ m err => [(m, err)] | _ => [] end) log.
Definition returned (log : list event) : list string := flat_map (fun e => match e with EvErrors _ l => l | _ => [] end) log.
Definition lines (log : list event) : list string := flat_map (fun e => match e with EvLine _ l => [l] | _ => [] end) log.
(** The calls that have begun and not returned. *)
Definition running_step (s : gset nat) (e : event) : gset nat :=
  match e with EvCall i _ => s ∪ {[i]} | EvReturn i => s ∖ {[i]} | _ => s end.
Definition running (log : list event) : gset nat := fold_left running_step log ∅.

(** Calls of Event and Finish do not overlap each other; other calls may run at any time. *)
Definition records (o : op) : bool := match o with OEvent _ | OFinish => true | _ => false end.
Fixpoint exclusive (cur : option nat) (log : list event) : Prop :=
  match log with
  | [] => True
  | EvCall i o :: log => if records o then cur = None /\ exclusive (Some i) log else exclusive cur log
  | EvReturn i :: log => exclusive (if decide (cur = Some i) then None else cur) log
  | _ :: log => exclusive cur log
  end.
(** The annotations of the events recorded. *)
Definition recorded (log : list event) : list Annotation :=
  flat_map (fun e => match e with EvCall _ (OEvent (inl anns)) => anns | _ => [] end) log.
(** What was recorded when Finish was first called. *)
Fixpoint at_finish (before : list Annotation) (log : list event) : option (list Annotation) :=
  match log with
  | [] => None
  | EvCall _ OFinish :: _ => Some before
  | EvCall _ (OEvent (inl anns)) :: log => at_finish (before ++ anns) log
  | _ :: log => at_finish before log
  end.
(** What Finish gave to the collector. *)
Definition delivered (log : list event) : list (list Annotation) :=
  flat_map (fun e => match e with EvCollect _ KFinish anns _ => [anns] | _ => [] end) log.
