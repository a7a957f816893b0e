(** Model of traceapp/vis.go: the timeline of a trace. *)
From Verif Require Import Base FloatModel IdModel TimeModel ReflModel EventModel TraceModel ProfModel.
Local Open Scope Z_scope.

(** vis.go:41-46 timelineItemTimespan *)
Record bar := MkBar { b_label : string; b_start : Z; b_end : Z; b_duration : Z }.
(** vis.go:21-30 timelineItem *)
Record item := MkItem { it_label : string; it_full : string; it_times : list bar; it_data : gmap string string;
  it_span : string; it_parent : string; it_url : string; it_visible : bool }.

(** Times can be compared with ==. *)
Global Instance time_eq_dec : EqDecision time.
Proof. solve_decision. Defined.

(** vis.go:102-103: e.Start().UnixNano() / int64(time.Millisecond), which truncates towards zero *)
Definition epoch_ms (t : time) : Z := Z.quot (unix_nano t) 1000000.

(** vis.go:90-124: one iteration of the loop over the events.  A comparison with time.Time{} is one of the
    representation (wall clock, location), not of the instant; a time read by UnmarshalEvents is time.Time{} iff it
    is 0001-01-01T00:00:00Z with offset zero. *)
Definition times_iter (parent : N) (times : list bar) (e : string * val) : list bar :=
  match as_timespan e with
  | None => times
  | Some (s, r) =>
      if decide (s = time_zero \/ r = time_zero) then times
      else
        let start := epoch_ms s in
        let stop := epoch_ms r in
        if N.eqb parent 0 then times ++ [MkBar (fst e) start stop 0]
        else
          match times with
          | [] => [MkBar "" start stop 0]
          | b :: bs => MkBar (b_label b) (if start <? b_start b then start else b_start b)
                             (if b_end b <? stop then stop else b_end b) (b_duration b) :: bs
          end
  end.
(** vis.go:125-131.  [fmt] formats a time.Duration (%s). *)
Definition durations (fmt : Z -> string) (label : string) (times : list bar) : list bar :=
  match times with
  | [] => []
  | b0 :: _ =>
      let msec := int64 (int64 (b_end b0 - b_start b0) * 1000000) in
      map (fun b => if 0 <? msec then MkBar (label +:+ " (" +:+ fmt msec +:+ ")")%string (b_start b) (b_end b) msec else b) times
  end.

(** vis.go:52-150 d3timelineInner *)
Fixpoint timeline (reg : registry) (us : urls) (fmt : Z -> string) (depth : nat) (t : tree) : res (list item) :=
  let 'Tree i anns subs := t in
  match unmarshal_events reg anns with
  | (_, EsErr) => RErr
  | (_, EsPanic) => RPanic
  | (events, EsOk) =>
      match url_of us i with
      | None => RErr
      | Some u =>
          let name := span_name anns in
          if decide (name = ""%string) then RErr
          else
            match durations fmt name (fold_left (times_iter (sp_parent i)) events []) with
            | [] => ROk []
            | times =>
                let it := MkItem name name times (string_map anns) (id_string (sp_span i))
                            (if N.eqb (sp_parent i) 0 then "" else id_string (sp_parent i))%string u (Nat.leb depth 1) in
                (* vis.go:141-147 *)
                (fix loop (subs : list tree) (items : list item) : res (list item) :=
                   match subs with
                   | [] => ROk items
                   | c :: subs =>
                       match timeline reg us fmt (S depth) c with
                       | ROk its => loop subs (items ++ its)
                       | RErr => RErr
                       | RPanic => RPanic
                       end
                   end) subs [it]
            end
      end
  end.
(** vis.go:48-50 d3timeline *)
Definition d3timeline (reg : registry) (us : urls) (fmt : Z -> string) (t : tree) : res (list item) := timeline reg us fmt 0 t.
