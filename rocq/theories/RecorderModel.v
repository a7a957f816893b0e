(** Model of recorder.go. *)
From Verif Require Import Base ReflModel EventModel.

(** What a program does with a Recorder.
    [REvent m]: Name, Msg, Log, LogWithTimestamp and Event (recorder.go:53-81); [m] is the result of
    MarshalEvent: annotations, or the text of its error.
    [RAnnotation], [RFinish], [RErrors]: the methods of those names. *)
Inductive rop := REvent (m : list Annotation + string) | RAnnotation (anns : list Annotation) | RFinish | RErrors.
(** A call, with what the rest of the world does during it: [c_answer] is the error that the collector
    returns for the annotations (None: nil); [c_marshal msg] is what MarshalEvent(Log(msg)) gives at that
    moment.  The collector's answer for the annotations of an error report is ignored by the code. *)
Record call := MkCall { c_op : rop; c_answer : option string; c_marshal : string -> list Annotation }.

(** recorder.go:17-30.  Errors are given by their texts; of the logger only whether there is one matters.
    Methods run one after another: only the list of errors is protected by a mutex, so that the other
    methods may not be called concurrently. *)
Record rec := MkRec {
  r_logger : bool;
  r_span : SpanID;
  r_anns : list Annotation;
  r_finished : bool;
  r_errors : list string;
  (* what was seen from outside so far: the calls of Collect, the lines given to the logger,
     the results of the Errors calls *)
  r_collects : list (SpanID * list Annotation);
  r_lines : list string;
  r_returned : list (list string);
}.

(** recorder.go:34-42 NewRecorder, with the Logger that the user sets.  (A nil collector panics.) *)
Definition new_recorder (logger : bool) (span : SpanID) : rec := MkRec logger span [] false [] [] [] [].

(** recorder.go:107-109 failsafeAnnotation, without the answer *)
Definition send (r : rec) (anns : list Annotation) : rec :=
  MkRec (r_logger r) (r_span r) (r_anns r) (r_finished r) (r_errors r) (r_collects r ++ [(r_span r, anns)]) (r_lines r) (r_returned r).

(** recorder.go:123 *)
Definition log_msg (method err : string) : string := "Recorder." +:+ method +:+ " error: " +:+ err.
(** recorder.go:122-137 error *)
Definition rec_error (c : call) (r : rec) (method err : string) : rec :=
  let msg := log_msg method err in
  let r := send r (c_marshal c msg) in
  if r_logger r
  then MkRec (r_logger r) (r_span r) (r_anns r) (r_finished r) (r_errors r) (r_collects r) (r_lines r ++ [msg]) (r_returned r)
  else MkRec (r_logger r) (r_span r) (r_anns r) (r_finished r) (r_errors r ++ [err]) (r_collects r) (r_lines r) (r_returned r).

(** recorder.go:100-104 Annotation *)
Definition rec_annotation (c : call) (r : rec) (anns : list Annotation) : rec :=
  let r := send r anns in
  match c_answer c with Some err => rec_error c r "Annotation" err | None => r end.

(** recorder.go:14 *)
Definition multiple_finish : string := "multiple Recorder.Finish calls".
(** recorder.go:74-81 Event, 90-97 Finish, 114-120 Errors *)
Definition rec_step (r : rec) (c : call) : rec :=
  match c_op c with
  | REvent (inr err) => rec_error c r "Event" err
  | REvent (inl anns) =>
      MkRec (r_logger r) (r_span r) (r_anns r ++ anns) (r_finished r) (r_errors r) (r_collects r) (r_lines r) (r_returned r)
  | RAnnotation anns => rec_annotation c r anns
  | RFinish =>
      if r_finished r then rec_error c r "Finish" multiple_finish
      else rec_annotation c
             (MkRec (r_logger r) (r_span r) (r_anns r) true (r_errors r) (r_collects r) (r_lines r) (r_returned r)) (r_anns r)
  | RErrors =>
      MkRec (r_logger r) (r_span r) (r_anns r) (r_finished r) [] (r_collects r) (r_lines r) (r_returned r ++ [r_errors r])
  end.
Definition rec_run (r : rec) (calls : list call) : rec := fold_left rec_step calls r.
