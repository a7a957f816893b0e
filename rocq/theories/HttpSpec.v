(** Specification for package httptrace. *)
From Verif Require Import Base IdModel IdSpec ReflModel HttpModel.

(** Equal up to the case of ASCII letters. *)
Definition lower_case (c : ascii) : ascii :=
  if (65 <=? N_of_ascii c) && (N_of_ascii c <=? 90) then ascii_of_N (N_of_ascii c + 32) else c.
Definition same_name (a b : string) : Prop := map lower_case (bytes a) = map lower_case (bytes b).
(** The name is one of those to be redacted. *)
Definition secret (names : list string) (k : string) : Prop := Exists (same_name k) names.
(** Two headers that differ in the values of redacted names only. *)
Definition same_but_secrets (names : list string) (h h' : gmap string (list string)) : Prop :=
  (forall k, is_Some (h !! k) <-> is_Some (h' !! k)) /\ (forall k, ~ secret names k -> h !! k = h' !! k).

(** The text reads as the span ID (see IdSpec). *)
Definition reads_as (s : string) (r : SpanID) : Prop :=
  span_parse_ok s r /\ is_id (sp_trace r) /\ is_id (sp_span r) /\ is_id (sp_parent r).

(** The body passed to the response writer. *)
Definition body_of (ops : list hop) : string :=
  fold_right (fun o s => match o with HWrite b => b +:+ s | _ => s end) ""%string ops.
(** The codes passed to WriteHeader. *)
Definition codes_of (ops : list hop) : list Z := omap (fun o => match o with HWriteHeader c => Some c | _ => None end) ops.
Definition is_header_op (o : hop) : Prop := match o with HHeader _ => True | _ => False end.
(** WriteHeader is called at most once, before any Write and Flush, with a code that net/http accepts. *)
Definition proper (ops : list hop) : Prop :=
  codes_of ops = [] \/
  exists pre code post, ops = pre ++ HWriteHeader code :: post /\ Forall is_header_op pre /\ codes_of post = [] /\ (100 <= code <= 999)%Z.
(** A response writer at the start of a request. *)
Definition fresh (w : writer) : Prop := w_sent w = None /\ w_body w = ""%string.
(** The response header as the handler leaves it. *)
Definition header_after (ops : list hop) (h : gmap string (list string)) : gmap string (list string) :=
  fold_left (fun h o => match o with HHeader f => f h | _ => h end) ops h.
(** Nothing is sent while the handler runs: it neither writes nor flushes nor sets a status. *)
Definition silent (ops : list hop) : Prop := Forall is_header_op ops.
(** The first code sent: that of the first call that sends the header. *)
Fixpoint first_code (ops : list hop) : Z :=
  match ops with
  | [] => 200
  | HHeader _ :: ops => first_code ops
  | HWriteHeader c :: _ => c
  | _ => 200
  end.
(** The header says the span ID. *)
Definition says_span (h : gmap string (list string)) (s : SpanID) : Prop := exists t, h !! "Span-Id"%string = Some [t] /\ reads_as t s.
