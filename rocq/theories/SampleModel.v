(** Model of sampleData: cmd/appdash/sample_data.go:34-97, and of the send command: cmd/appdash/send_cmd.go:34-66. *)
From Verif Require Import Base IdModel EventModel RecorderModel SplitModel.
Local Open Scope Z_scope.

(** The events that are recorded.  [EvSQL tag send recv]: a sqltrace.SQLEvent, times in nanoseconds
    (Time.Add never leaves the range of Time here: the offsets are below 100 minutes). *)
Inductive sevent := EvName (name : string) | EvLog (msg : string) | EvMsg (msg : string) | EvSQL (tag : Z) (send recv : Z).
Definition ms : Z := 1000000.

(** The random choices and clock readings of one trace. *)
Record choices := MkChoices {
  ch_root : N * N;              (* NewRootSpanID's two IDs *)
  ch_host : string;             (* fakeHosts[rand.Intn(len(fakeHosts))] *)
  ch_length : Z;                (* rand.Intn(1000) *)
  ch_start : Z;                 (* the start time: now minus up to 99 minutes *)
  ch_spans : Z;                 (* rand.Intn(4) *)
  ch_draw : Z -> Z -> Z;        (* randomSplit's draws, see SplitModel *)
  ch_ids : nat -> N;            (* the IDs that NewSpanID generates *)
  ch_names : Z -> string;       (* fakeNames[(j+i) mod 20] *)
  ch_tags : Z -> Z }.           (* rand.Intn(10) *)

(** sample_data.go:62-94: the spans from the j-th on, each with the events recorded for it; [n] of them are
    left.  [None]: times[j-1] is out of range, a panic. *)
Fixpoint span_loop (ch : choices) (times : list Z) (n : nat) (j : Z) (last : SpanID) (start : Z) : option (list (SpanID * list sevent)) :=
  match n with
  | O => Some []
  | S n =>
      let id := new_span_id last (ch_ids ch (Z.to_nat (j - 1))) in
      match times !! Z.to_nat (j - 1) with
      | None => None
      | Some d =>
          let evs := [EvName (ch_names ch j)] ++ (if j mod 3 =? 0 then [EvLog "hello"] else []) ++
                     (if j mod 5 =? 0 then [EvMsg "hi"] else []) ++ [EvSQL (ch_tags ch j) start (start + d * ms)] in
          match span_loop ch times n (j + 1) id (start + d * ms) with
          | None => None
          | Some rest => Some ((id, evs) :: rest)
          end
      end
  end.
(** sample_data.go:38-61: one trace, the root first. *)
Definition sample_trace (ch : choices) : option (list (SpanID * list sevent)) :=
  let root := new_root_span_id (fst (ch_root ch)) (snd (ch_root ch)) in
  let num := ch_spans ch + 3 in
  match random_split (ch_draw ch) (ch_length ch) num with
  | None => None
  | Some times =>
      match span_loop ch times (Z.to_nat num) 1 root (ch_start ch) with
      | None => None
      | Some rest => Some ((root, [EvName (ch_host ch); EvSQL (ch_tags ch 0) (ch_start ch) (ch_start ch + ch_length ch * ms)]) :: rest)
      end
  end.

(** A Recorder for one span.  [marshal]: MarshalEvent, [answer]: what the collector returns for the span's
    Collect, [report]: Log(msg)'s annotations.  The recorder has no Logger.
    Result: the Collect calls and the result of the Errors call. *)
Section record.
  Context (marshal : sevent -> list Annotation + string) (report : string -> list Annotation).
  Definition record_ops (check : bool) (answer : option string) (evs : list sevent) : list call :=
    map (fun e => MkCall (REvent (marshal e)) None report) evs ++
    (if check then [MkCall RErrors None report] else []) ++ [MkCall RFinish answer report].
  (** 42-57: the root's recorder, whose errors are not looked at *)
  Definition record_root (answer : option string) (s : SpanID * list sevent) : list (SpanID * list Annotation) :=
    r_collects (rec_run (new_recorder false (fst s)) (record_ops false answer (snd s))).
  (** 66-94: Finish is called only if Errors gave none; [inr errs]: sampleData returns *)
  Definition record_span (answer : option string) (s : SpanID * list sevent) : list (SpanID * list Annotation) * list string :=
    let r := rec_run (new_recorder false (fst s)) (removelast (record_ops true answer (snd s))) in
    match r_returned r with
    | errs :: _ => match errs with
                   | [] => (r_collects (rec_run (new_recorder false (fst s)) (record_ops true answer (snd s))), [])
                   | _ => (r_collects r, errs)
                   end
    | [] => (r_collects r, [])
    end.
  Fixpoint record_spans (answers : list (option string)) (l : list (SpanID * list sevent)) : list (SpanID * list Annotation) * list string :=
    match l with
    | [] => ([], [])
    | s :: l =>
        let '(c, errs) := record_span (hd None answers) s in
        match errs with
        | [] => let '(cs, errs) := record_spans (tl answers) l in (c ++ cs, errs)
        | _ => (c, errs)
        end
    end.
  Definition record_trace (answers : list (option string)) (l : list (SpanID * list sevent)) : list (SpanID * list Annotation) * list string :=
    match l with
    | [] => ([], [])
    | root :: l => let '(cs, errs) := record_spans (tl answers) l in (record_root (hd None answers) root ++ cs, errs)
    end.
  (** 34-97: the traces in turn, each with the collector's answers; [None]: a panic.  The errors are those of the
      error returned, empty for nil. *)
  Fixpoint sample_data (traces : list (choices * list (option string))) : option (list (SpanID * list Annotation) * list string) :=
    match traces with
    | [] => Some ([], [])
    | (ch, answers) :: traces =>
        match sample_trace ch with
        | None => None
        | Some l =>
            let '(c, errs) := record_trace answers l in
            match errs with
            | [] => match sample_data traces with Some (cs, errs) => Some (c ++ cs, errs) | None => None end
            | _ => Some (c, errs)
            end
        end
    end.
  (** send_cmd.go:50-65: the spans go to the remote collector itself; the chunked collector, which is then
      flushed, has been given none, so that Flush returns nil (collector.go:207-247 with no pending spans). *)
  Definition send_cmd (traces : list (choices * list (option string))) : option (list (SpanID * list Annotation) * list string) :=
    sample_data traces.
End record.
