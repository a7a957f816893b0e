(** What a page handler produced, in terms of its calls on the response writer only. *)
From Verif Require Import Base HttpModel.

(** The bytes it wrote. *)
Definition produced_body (ops : list hop) : string :=
  fold_right (fun o s => match o with HWrite b => b +:+ s | _ => s end)%string ""%string ops.
(** The status it last set; 0: none. *)
Definition produced_status (ops : list hop) : Z :=
  List.last (omap (fun o => match o with HWriteHeader c => Some c | _ => None end) ops) 0%Z.
(** The header it built. *)
Definition produced_header (ops : list hop) : header :=
  fold_left (fun h o => match o with HHeader f => f h | _ => h end) ops ∅.

(** A writer of which nothing has been sent. *)
Definition unsent (w : writer) : Prop := w_sent w = None /\ w_body w = ""%string.

(** The headers of an error page, over those that were there before the handler ran. *)
Definition error_header (h : header) : header :=
  <["X-Content-Type-Options"%string := ["nosniff"%string]]>
  (<["Content-Type"%string := ["text/plain; charset=utf-8"%string]]>
  (<["Cache-Control"%string := ["no-cache, max-age=0"%string]]> h)).
