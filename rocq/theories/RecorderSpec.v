(** What a user expects of a Recorder. *)
From Verif Require Import Base ReflModel TimeModel EventModel RecorderModel.

Definition is_finish (c : call) : Prop := match c_op c with RFinish => True | _ => False end.
Definition is_raw (c : call) : Prop := match c_op c with RAnnotation _ => True | _ => False end.
Definition is_errors (c : call) : Prop := match c_op c with RErrors => True | _ => False end.
Global Instance is_finish_dec c : Decision (is_finish c).
Proof. unfold is_finish. destruct (c_op c); apply _. Defined.

(** The annotations of the events recorded, in recording order. *)
Definition recorded_anns (calls : list call) : list Annotation :=
  calls ≫= fun c => match c_op c with REvent (inl anns) => anns | _ => [] end.

(** The error met in a call, if any, with the method that met it; [before] are the earlier calls. *)
Definition error_of (before : list call) (c : call) : list (string * string) :=
  match c_op c with
  | REvent (inl _) | RErrors => []
  | REvent (inr err) => [("Event", err)]
  | RAnnotation _ => match c_answer c with Some err => [("Annotation", err)] | None => [] end
  | RFinish =>
      if decide (Exists is_finish before) then [("Finish", "multiple Recorder.Finish calls")]
      else match c_answer c with Some err => [("Annotation", err)] | None => [] end
  end%string.
Fixpoint met_after (before calls : list call) : list (string * string) :=
  match calls with
  | [] => []
  | c :: calls => error_of before c ++ met_after (before ++ [c]) calls
  end.
(** All errors met, in order. *)
Definition met (calls : list call) : list (string * string) := met_after [] calls.

(** The line that describes an error. *)
Definition error_line (e : string * string) : string := "Recorder." +:+ fst e +:+ " error: " +:+ snd e.
(** MarshalEvent(Log(msg)) yields a Log event with that message and some time. *)
Definition marshals_log (c : call) : Prop :=
  forall msg, exists t, marshal log_event (VStruct [("Msg", VString msg); ("Time", VTime t)]) (c_marshal c msg).
(** A call of Collect that reports the error [e] as a Log event on the span. *)
Definition reports (span : SpanID) (e : string * string) (col : SpanID * list Annotation) : Prop :=
  fst col = span /\ exists t, marshal log_event (VStruct [("Msg", VString (error_line e)); ("Time", VTime t)]) (snd col).
