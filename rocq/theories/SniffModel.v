(** Model of what tells a browser the type of a response: traceapp/tmpl.go renderTemplate, the responses that traceapp writes
    without a Content-Type, and how net/http completes them. *)
From Verif Require Import Base IdModel ReflModel HttpModel JsonModel PageModel DashModel.
Local Open Scope N_scope.

(** ** net/http sniff.go (Go 1.12 and later) *)

Definition codes (s : string) : list N := map N_of_ascii (Base.bytes s).
(** isWS *)
Definition is_ws (c : N) : bool := existsb (N.eqb c) [9; 10; 12; 13; 32].
Fixpoint skip_space (d : list N) : list N := match d with c :: r => if is_ws c then skip_space r else d | [] => [] end.
(** The kinds of signatures.  A mask's bits that are 0 do not matter. *)
Inductive signature :=
| Html (tag : list N)
| Masked (mask pat : list N) (skip : bool) (ct : string)
| Exact (pat : list N) (ct : string)
| Mp4
| PlainText.
(** htmlSig.match *)
Fixpoint html_match (tag d : list N) : bool :=
  match tag, d with
  | [], c :: _ => (c =? 32) || (c =? 62)
  | t :: tag, c :: d => ((if (65 <=? t) && (t <=? 90) then N.land c 223 else c) =? t) && html_match tag d
  | _, [] => false
  end.
(** maskedSig.match *)
Fixpoint masked_match (mask pat d : list N) : bool :=
  match mask, pat with
  | m :: mask, p :: pat => match d with c :: d => (N.land c m =? p) && masked_match mask pat d | [] => false end
  | _, _ => true
  end.
(** exactSig.match *)
Fixpoint exact_match (pat d : list N) : bool :=
  match pat, d with
  | [], _ => true
  | p :: pat, c :: d => (c =? p) && exact_match pat d
  | _, [] => false
  end.
(** mp4Sig.match: a box of the length in the first four bytes, "ftyp" and brands *)
Definition mp4_match (d : list N) : bool :=
  match d with
  | a :: b :: c :: e :: rest =>
      let size := ((a * 256 + b) * 256 + c) * 256 + e in
      if (12 <=? N.of_nat (length d)) && (size <=? N.of_nat (length d)) && (size mod 4 =? 0) && exact_match (codes "ftyp") rest
      then existsb (fun i => negb (i =? 3)%nat && exact_match (codes "mp4") (skipn (4 * i) d)) (seq 2 (N.to_nat (size / 4) - 2))
      else false
  | _ => false
  end.
(** textSig.match: no binary data *)
Definition is_binary (c : N) : bool := (c <=? 8) || (c =? 11) || ((14 <=? c) && (c <=? 26)) || ((28 <=? c) && (c <=? 31)).
Definition sig_match (d : list N) (s : signature) : option string :=
  match s with
  | Html tag => if html_match tag (skip_space d) then Some "text/html; charset=utf-8"%string else None
  | Masked mask pat skip ct => if masked_match mask pat (if skip then skip_space d else d) then Some ct else None
  | Exact pat ct => if exact_match pat d then Some ct else None
  | Mp4 => if mp4_match d then Some "video/mp4"%string else None
  | PlainText => if existsb is_binary (skip_space d) then None else Some "text/plain; charset=utf-8"%string
  end.
Definition riff (kind : string) : list N := codes "RIFF" ++ [0; 0; 0; 0] ++ codes kind.
Definition riff_mask (n : nat) : list N := [255; 255; 255; 255; 0; 0; 0; 0] ++ repeat 255 n.
(** sniffSignatures, in order *)
Definition signatures : list signature :=
  map (fun t => Html (codes t)) ["<!DOCTYPE HTML"; "<HTML"; "<HEAD"; "<SCRIPT"; "<IFRAME"; "<H1"; "<DIV"; "<FONT"; "<TABLE"; "<A"; "<STYLE"; "<TITLE"; "<B"; "<BODY"; "<BR"; "<P"; "<!--"]%string ++
  [Masked [255; 255; 255; 255; 255] (codes "<?xml") true "text/xml; charset=utf-8";
   Exact (codes "%PDF-") "application/pdf"; Exact (codes "%!PS-Adobe-") "application/postscript";
   Masked [255; 255; 0; 0] [254; 255; 0; 0] false "text/plain; charset=utf-16be"; Masked [255; 255; 0; 0] [255; 254; 0; 0] false "text/plain; charset=utf-16le";
   Masked [255; 255; 255; 0] [239; 187; 191; 0] false "text/plain; charset=utf-8";
   Exact [0; 0; 1; 0] "image/x-icon"; Exact [0; 0; 2; 0] "image/x-icon"; Exact (codes "BM") "image/bmp"; Exact (codes "GIF87a") "image/gif"; Exact (codes "GIF89a") "image/gif";
   Masked (riff_mask 6) (riff "WEBPVP") false "image/webp"; Exact [137; 80; 78; 71; 13; 10; 26; 10] "image/png"; Exact [255; 216; 255] "image/jpeg";
   Masked (riff_mask 4) (codes "FORM" ++ [0; 0; 0; 0] ++ codes "AIFF") false "audio/aiff"; Exact (codes "ID3") "audio/mpeg"; Exact (codes "OggS" ++ [0]) "application/ogg";
   Exact (codes "MThd" ++ [0; 0; 0; 6]) "audio/midi"; Masked (riff_mask 4) (riff "AVI ") false "video/avi"; Masked (riff_mask 4) (riff "WAVE") false "audio/wave";
   Mp4; Exact [26; 69; 223; 163] "video/webm";
   Masked (repeat 0 34 ++ [255; 255]) (repeat 0 34 ++ codes "LP") false "application/vnd.ms-fontobject";
   Exact [0; 1; 0; 0] "font/ttf"; Exact (codes "OTTO") "font/otf"; Exact (codes "ttcf") "font/collection"; Exact (codes "wOFF") "font/woff"; Exact (codes "wOF2") "font/woff2";
   Exact [31; 139; 8] "application/x-gzip"; Exact (codes "PK" ++ [3; 4]) "application/zip"; Exact (codes "Rar!" ++ [26; 7; 0]) "application/x-rar-compressed"; Exact (codes "Rar!" ++ [26; 7; 1; 0]) "application/x-rar-compressed";
   Exact (0 :: codes "asm") "application/wasm"; PlainText].
(** DetectContentType *)
Definition detect (body : list ascii) : string :=
  let d := map N_of_ascii (firstn 512 body) in
  match omap (sig_match d) signatures with ct :: _ => ct | [] => "application/octet-stream" end.
(** net/http server.go, writeHeader of chunkWriter: a Content-Type is added to a response with a body, unless there is one or the
    body is encoded. *)
Definition sent_type (r : Z * header * string) : option string :=
  let '(_, h, body) := r in
  match h !! "Content-Type"%string with
  | Some (v :: _) => Some v
  | Some [] => None
  | None =>
      if decide (header_get h "Content-Encoding" = ""%string /\ h !! "Transfer-Encoding"%string = None /\ body <> ""%string)
      then Some (detect (Base.bytes body)) else None
  end.

(** ** The handlers *)

(** How a handler of traceapp answers. *)
Inductive answer :=
| APage (html : string)     (* renderTemplate, with the template's output *)
| APageFails (msg : string) (* renderTemplate, with its error: no such template, or executing it fails *)
| AFails (msg : string)     (* an error before *)
| AData (body : text)       (* the JSON of the dashboard or of a profile *)
| ADisabled.                (* no Aggregator *)
(** tmpl.go:54-57 *)
Definition render_head : list hop :=
  [HWriteHeader 200; HHeader (fun h => if decide (header_get h "content-type" = ""%string) then header_set h "Content-Type" "text/html; charset=utf-8" else h)].
(** tmpl.go:58-83, dashboard.go:24-28, 47-51 and 111-113, prof.go:108-110: what is done with the http.ResponseWriter, and how the handler
    ends.  (All pages are rendered with status 200; a handler does nothing with its writer before that.) *)
Definition answer_ops (a : answer) : list hop * page_end :=
  match a with
  | APage html => (render_head ++ [HWrite html], PageOk)
  | APageFails msg => (render_head, PageErr msg)
  | AFails msg => ([], PageErr msg)
  | AData body => ([HWrite (unbytes body)], PageOk)
  | ADisabled => ([HWriteHeader 404; HWrite "Dashboard is disabled."], PageOk)
  end.
Definition served (stack : string) (bad : Z -> string) (a : answer) (w : writer) : Z * header * string :=
  w_response (serve_page stack bad (fst (answer_ops a)) (snd (answer_ops a)) w).
(** dashboard.go:45-114, as an answer; [msg] is the error's text. *)
Definition dash_answer (msg : string) (r : dash_response) : answer :=
  match r with DDisabled => ADisabled | DError => AFails msg | DData body => AData body end.
