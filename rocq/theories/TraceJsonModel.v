(** Model of a trace's JSON form: the exports of the trace page, uploads and permalinks (trace.go, span.go, id.go,
    traceapp/app.go).  gzip is a parameter. *)
From Verif Require Import Base IdModel ReflModel Base64Model IdJsonModel JsonModel MemModel UploadModel.
Local Open Scope char_scope.

(** * Encoding *)
(** id.go:24-26 MarshalJSON *)
Definition enc_id (i : N) : json := JStr (Base.bytes (id_string i)).
(** span.go:14-25: the fields of a SpanID *)
Definition enc_spanid (s : SpanID) : json :=
  JObj [(Base.bytes "Trace", enc_id (sp_trace s)); (Base.bytes "Span", enc_id (sp_span s)); (Base.bytes "Parent", enc_id (sp_parent s))].
(** span.go:168-176: the fields of an Annotation; encoding/json writes a byte slice in base64, a nil one as null *)
Definition enc_ann (a : Annotation) : json :=
  JObj [(Base.bytes "Key", JStr (Base.bytes (ann_key a)));
        (Base.bytes "Value", match ann_val a with None => JNull | Some v => JStr (b64_encode alphabet_std true (Base.bytes v)) end)].
(** trace.go:14-17 and span.go:138-143: the fields of a Trace, its root span's first.  A nil slice is written as null, an
    empty one as []; the model does not tell them apart, so that an empty list may be written either way. *)
Inductive encodes : tree -> json -> Prop :=
| encodes_intro id anns subs ja js l :
    ja = JArr (map enc_ann anns) \/ anns = [] /\ ja = JNull ->
    Forall2 encodes subs l -> js = JArr l \/ subs = [] /\ js = JNull ->
    encodes (Tree id anns subs) (JObj [(Base.bytes "ID", enc_spanid id); (Base.bytes "Annotations", ja); (Base.bytes "Sub", js)]).

(** The two exports of a trace page: app.go:182-186 (the list of the one trace) and trace.html:29 (Trace.String, trace.go:20-26,
    in brackets).  The escapes of html/template, which the browser undoes, are in EscModel.  [bf]: see JsonModel. *)
Inductive exported (bf : bool) (j : json) : text -> Prop :=
| exported_clipboard : exported bf j (print_indented bf (JArr [j]))
| exported_textarea : exported bf j ("[" :: print_indented bf j ++ ["]"]).

(** * Decoding *)
(** What encoding/json makes of a *Trace: a nil pointer or a trace. *)
Inductive gtrace := GNil | GTrace (id : SpanID) (anns : list Annotation) (subs : list gtrace).

(** encoding/json: a member's name matches a field's, up to case.  Only ASCII letters are folded here (Go also takes the Kelvin
    sign for a k and the long s for an s). *)
Definition lower_ascii (c : ascii) : ascii := if ((65 <=? N_of_ascii c) && (N_of_ascii c <=? 90))%N then ascii_of_N (N_of_ascii c + 32) else c.
Definition names (k : text) (field : string) : bool := bool_decide (map lower_ascii k = map lower_ascii (Base.bytes field)).
Section fold.
  Context {S A : Type} (f : S -> A -> option S).
  Fixpoint fold_opt (s : S) (l : list A) : option S := match l with [] => Some s | x :: l => match f s x with Some s => fold_opt s l | None => None end end.
End fold.
(** id.go:30-42 UnmarshalJSON on a value that was read already (IdJsonModel has it on texts) *)
Definition dec_id (j : json) : option N :=
  match j with
  | JNull => Some 0%N
  | JStr s => match parse_id (unbytes s) with inl i => Some i | inr _ => None end
  | JNum s => parse_uint (unbytes s)
  | _ => None
  end.
(** encoding/json on a SpanID: null changes nothing, unknown members are ignored.  [None]: an error. *)
Definition dec_spanid (cur : SpanID) (j : json) : option SpanID :=
  match j with
  | JNull => Some cur
  | JObj kvs =>
      fold_opt (fun s kv =>
        if names (fst kv) "Trace" then match dec_id (snd kv) with Some i => Some (MkSpanID i (sp_span s) (sp_parent s)) | None => None end
        else if names (fst kv) "Span" then match dec_id (snd kv) with Some i => Some (MkSpanID (sp_trace s) i (sp_parent s)) | None => None end
        else if names (fst kv) "Parent" then match dec_id (snd kv) with Some i => Some (MkSpanID (sp_trace s) (sp_span s) i) | None => None end
        else Some s) cur kvs
  | _ => None
  end.
(** encoding/json on a byte slice: base64, with line breaks skipped, or an array of numbers *)
Definition dec_byte (j : json) : option ascii :=
  match j with
  | JNull => Some "000"
  | JNum s => match parse_uint (unbytes s) with Some n => if (n <? 256)%N then Some (ascii_of_N n) else None | None => None end
  | _ => None
  end.
Definition dec_bytes (j : json) : option (option string) :=
  match j with
  | JNull => Some None
  | JStr s => match b64_decode alphabet_std true (List.filter (fun c => negb (Ascii.eqb c "010" || Ascii.eqb c "013")) s) with Some v => Some (Some (unbytes v)) | None => None end
  | JArr l => match mapM dec_byte l with Some v => Some (Some (unbytes v)) | None => None end
  | _ => None
  end.
Definition dec_ann (j : json) : option Annotation :=
  match j with
  | JNull => Some (Ann "" None)
  | JObj kvs =>
      fold_opt (fun a kv =>
        if names (fst kv) "Key" then match snd kv with JNull => Some a | JStr s => Some (Ann (unbytes s) (ann_val a)) | _ => None end
        else if names (fst kv) "Value" then match dec_bytes (snd kv) with Some v => Some (Ann (ann_key a) v) | None => None end
        else Some a) (Ann "" None) kvs
  | _ => None
  end.
Definition dec_anns (j : json) : option (list Annotation) :=
  match j with JNull => Some [] | JArr l => mapM dec_ann l | _ => None end.
(** encoding/json on a *Trace.  Of repeated members "Annotations" or "Sub" the last counts here; Go decodes a later array into the
    elements of the earlier one. *)
Fixpoint dec_trace (j : json) : option gtrace :=
  match j with
  | JNull => Some GNil
  | JObj kvs =>
      match fold_opt (fun (t : SpanID * list Annotation * list gtrace) kv =>
        let '(id, anns, subs) := t in
        if names (fst kv) "ID" then match dec_spanid id (snd kv) with Some id => Some (id, anns, subs) | None => None end
        else if names (fst kv) "Annotations" then match dec_anns (snd kv) with Some anns => Some (id, anns, subs) | None => None end
        else if names (fst kv) "Sub" then
          match snd kv with
          | JNull => Some (id, anns, [])
          | JArr l => match mapM dec_trace l with Some subs => Some (id, anns, subs) | None => None end
          | _ => None
          end
        else Some t) (MkSpanID 0 0 0, [], []) kvs with
      | Some (id, anns, subs) => Some (GTrace id anns subs)
      | None => None
      end
  | _ => None
  end.
Definition dec_traces (j : json) : option (list gtrace) :=
  match j with JNull => Some [] | JArr l => mapM dec_trace l | _ => None end.

(** * Uploads *)
(** How the handler ends: without an error, with one, or in a panic (which the page handler turns into an error, PageModel).
    [UPanic]: a nil trace was dereferenced. *)
Inductive uploaded := UOk | UError | UPanic.
(** trace.go:8-23 collectTrace on what was decoded: a nil trace ends it in a panic, after what came before was collected.
    [None]: a panic in the store. *)
Fixpoint collect_g (t : gtrace) (st : MS) : option (MS * uploaded) :=
  match t with
  | GNil => Some (st, UPanic)
  | GTrace id anns subs =>
      match ms_collect id anns st with
      | None => None
      | Some st =>
          (fix loop (subs : list gtrace) (st : MS) : option (MS * uploaded) :=
             match subs with
             | [] => Some (st, UOk)
             | s :: subs => match collect_g s st with Some (st, UOk) => loop subs st | r => r end
             end) subs st
      end
  end.
(** app.go:313-329 uploadTraces *)
Fixpoint upload_g (traces : list gtrace) (st : MS) : option (MS * uploaded) :=
  match traces with
  | [] => Some (st, UOk)
  | GNil :: _ => Some (st, UPanic)
  | GTrace id anns subs as t :: traces =>
      match ms_trace_of st (sp_trace id) with
      | Some _ => upload_g traces st
      | None => match collect_g t st with Some (st, UOk) => upload_g traces st | r => r end
      end
  end.
(** app.go:295-310 serveTraceUpload, once the body was read *)
Definition serve_upload (body : text) (st : MS) : option (MS * uploaded) :=
  match parse_all body with
  | None => Some (st, UError)
  | Some j => match dec_traces j with None => Some (st, UError) | Some ts => upload_g ts st end
  end.

(** * Permalinks *)
(** app.go:188-202: the JSON form and a line break, compressed and written to a base64 encoder that is not closed, so that the up
    to two bytes after the last group of three are not written. *)
Definition permalink (gzip : text -> text) (bf : bool) (j : json) : text :=
  let z := gzip (print_compact bf j ++ ["010"]) in
  b64_encode alphabet_url false (firstn (3 * (length z / 3)) z).
(** app.go:107-122: opening one.  [gunzip]: the bytes that can be read before the end or an error, [None] if the header is bad.
    json.Decoder takes the first value and looks at a read error only when it needs more.  A base64 text that does not decode to
    its end is an error here. *)
Definition open_permalink (gunzip : text -> option text) (query : text) (st : MS) : option (MS * uploaded) :=
  match b64_decode alphabet_url false query with
  | None => Some (st, UError)
  | Some z =>
      match gunzip z with
      | None => Some (st, UError)
      | Some data =>
          match parse_first data with
          | None => Some (st, UError)
          | Some (j, _) => match dec_trace j with None => Some (st, UError) | Some t => upload_g [t] st end
          end
      end
  end.
