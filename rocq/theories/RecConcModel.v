(** Model of recorder.go for a Recorder that is used by several goroutines. *)
From Verif Require Import Base RecorderModel.

(** Method calls.  [OEvent m]: Name, Msg, Log, LogWithTimestamp and Event; [m] is the result of MarshalEvent. *)
Inductive op := OEvent (m : list Annotation + string) | OAnnotation (anns : list Annotation) | OFinish | OErrors.
(** Which of the three calls of Collect: Finish's, Annotation's, or that of an error report. *)
Inductive kind := KFinish | KAnnotation | KReport.
(** Where a call is. *)
Inductive pc :=
| PStart (o : op)
| PAppend (seen anns : list Annotation)      (* Event has read r.annotations (recorder.go:80) *)
| PFinish                                    (* Finish has seen that r.finished is false (recorder.go:91) *)
| PFinished                                  (* Finish has set it (recorder.go:95) *)
| PSend (k : kind) (anns : list Annotation)  (* before Collect (recorder.go:108) *)
| PReport (method err : string)              (* in error, before the report is collected (recorder.go:122-125) *)
| PTell (method err : string).               (* in error, before the logger or the mutex (recorder.go:129-136) *)

(** What can be seen: calls (numbered) and their returns, calls of Collect with the collector's answer, errors that occur and the method
    they are reported for, results of Errors, lines given to the logger. *)
Inductive event :=
| EvCall (i : nat) (o : op) | EvReturn (i : nat)
| EvCollect (i : nat) (k : kind) (anns : list Annotation) (answer : option string)
| EvError (i : nat) (method err : string)
| EvErrors (i : nat) (errs : list string)
| EvLine (i : nat) (line : string).

(** recorder.go:17-30; the calls that are running *)
Record RC := MkRC { rc_anns : list Annotation; rc_finished : bool; rc_errors : list string; rc_calls : gmap nat pc }.
Definition rc_new : RC := MkRC [] false [] ∅.
Definition at_pc (st : RC) (i : nat) (p : pc) : RC := MkRC (rc_anns st) (rc_finished st) (rc_errors st) (<[i := p]> (rc_calls st)).
Definition done_ (st : RC) (i : nat) : RC := MkRC (rc_anns st) (rc_finished st) (rc_errors st) (delete i (rc_calls st)).

(** One step of one call.  Reads and writes of fields without the mutex are single steps; the critical sections of errorsMu are too.
    [append] takes the slice it has read for its elements (that racing appends may also overwrite each other's elements is left out).
    [logger]: whether there is a Logger.  The annotations of an error report are arbitrary. *)
Inductive rc_step (logger : bool) : RC -> list event -> RC -> Prop :=
| rs_call st i o : rc_calls st !! i = None -> rc_step logger st [EvCall i o] (at_pc st i (PStart o))
(* recorder.go:74-81 Event *)
| rs_event_error st i err : rc_calls st !! i = Some (PStart (OEvent (inr err))) ->
    rc_step logger st [EvError i "Event" err] (at_pc st i (PReport "Event" err))
| rs_event_read st i anns : rc_calls st !! i = Some (PStart (OEvent (inl anns))) ->
    rc_step logger st [] (at_pc st i (PAppend (rc_anns st) anns))
| rs_event_write st i seen anns : rc_calls st !! i = Some (PAppend seen anns) ->
    rc_step logger st [EvReturn i] (MkRC (seen ++ anns) (rc_finished st) (rc_errors st) (delete i (rc_calls st)))
(* recorder.go:90-97 Finish *)
| rs_finish_again st i : rc_calls st !! i = Some (PStart OFinish) -> rc_finished st = true ->
    rc_step logger st [EvError i "Finish" multiple_finish] (at_pc st i (PReport "Finish" multiple_finish))
| rs_finish_first st i : rc_calls st !! i = Some (PStart OFinish) -> rc_finished st = false ->
    rc_step logger st [] (at_pc st i PFinish)
| rs_finish_set st i : rc_calls st !! i = Some PFinish ->
    rc_step logger st [] (MkRC (rc_anns st) true (rc_errors st) (<[i := PFinished]> (rc_calls st)))
| rs_finish_read st i : rc_calls st !! i = Some PFinished -> rc_step logger st [] (at_pc st i (PSend KFinish (rc_anns st)))
(* recorder.go:100-109 Annotation, failsafeAnnotation *)
| rs_annotation st i anns : rc_calls st !! i = Some (PStart (OAnnotation anns)) -> rc_step logger st [] (at_pc st i (PSend KAnnotation anns))
| rs_sent st i k anns : rc_calls st !! i = Some (PSend k anns) ->
    rc_step logger st [EvCollect i k anns None; EvReturn i] (done_ st i)
| rs_refused st i k anns err : rc_calls st !! i = Some (PSend k anns) ->
    rc_step logger st [EvCollect i k anns (Some err); EvError i "Annotation" err] (at_pc st i (PReport "Annotation" err))
(* recorder.go:122-137 error *)
| rs_report st i method err anns answer : rc_calls st !! i = Some (PReport method err) ->
    rc_step logger st [EvCollect i KReport anns answer] (at_pc st i (PTell method err))
| rs_keep st i method err : rc_calls st !! i = Some (PTell method err) -> logger = false ->
    rc_step logger st [EvReturn i] (MkRC (rc_anns st) (rc_finished st) (rc_errors st ++ [err]) (delete i (rc_calls st)))
| rs_line st i method err : rc_calls st !! i = Some (PTell method err) -> logger = true ->
    rc_step logger st [EvLine i (log_msg method err); EvReturn i] (done_ st i)
(* recorder.go:114-120 Errors *)
| rs_errors st i : rc_calls st !! i = Some (PStart OErrors) ->
    rc_step logger st [EvErrors i (rc_errors st); EvReturn i] (MkRC (rc_anns st) (rc_finished st) [] (delete i (rc_calls st))).

Inductive rc_run (logger : bool) : list event -> RC -> Prop :=
| rc_start : rc_run logger [] rc_new
| rc_more log st evs st' : rc_run logger log st -> rc_step logger st evs st' -> rc_run logger (log ++ evs) st'.
