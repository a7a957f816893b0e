(** The spans that requests between services should give. *)
From Verif Require Import Base ChainModel.

(** For each request made within span p: a client span and, if it was served, a server span, both children of p, and below
    the server span those of the requests made while serving it. *)
Fixpoint req_spans (p : SpanID) (r : req) : list SpanID :=
  match r with
  | Req gc gs sub =>
      MkSpanID (sp_trace p) gc (sp_span p) ::
      match sub with
      | None => []
      | Some rs => MkSpanID (sp_trace p) gs (sp_span p) :: flat_map (req_spans (MkSpanID (sp_trace p) gs (sp_span p))) rs
      end
  end.
Definition spans_below (p : SpanID) (rs : list req) : list SpanID := flat_map (req_spans p) rs.

(** All IDs that were generated, also those of server spans that came to nothing. *)
Fixpoint req_ids (r : req) : list N :=
  match r with Req gc gs sub => gc :: gs :: match sub with None => [] | Some rs => flat_map req_ids rs end end.
