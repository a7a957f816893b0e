(** Model of trace.go's TreeString. *)
From Verif Require Import Base IdModel.

(** fmt's %x of a uint64 (fmt/format.go fmtInteger, base 16, no width). *)
Definition hex_text (v : N) : string := unbytes (hex_loop (S (N.size_nat v)) v []).
(** strings.Repeat *)
Fixpoint repeat_text (s : string) (n : nat) : string :=
  match n with O => ""%string | S n => (s +:+ repeat_text s n)%string end.
(** s[n:] for n at most len(s). *)
Fixpoint from_byte (n : nat) (s : string) : string :=
  match n, s with S n, String _ s => from_byte n s | _, _ => s end.
Definition newline : string := String "010"%char ""%string.
(** trace.go:63 indent1 *)
Definition indent1 : string := "    "%string.

(** trace.go:66-79: the line of the span. *)
Definition head_text (depth : nat) (id : SpanID) : string :=
  let indent := repeat_text indent1 depth in
  match depth with
  | O => "+ Trace " +:+ hex_text (sp_trace id) +:+ newline
  | _ => (if (depth =? 1)%nat then "|" else "|" +:+ from_byte (String.length indent1) indent) +:+
         repeat_text "-" (String.length indent1) +:+ "+ Span " +:+ hex_text (sp_span id) +:+
         (if (sp_parent id =? 0)%N then "" else " (parent " +:+ hex_text (sp_parent id) +:+ ")") +:+ newline
  end%string.
(** trace.go:80-87: the line of an annotation (fmt.Fprint puts no spaces between strings; a nil value prints as nothing). *)
Definition ann_text (depth : nat) (a : Annotation) : string :=
  let indent := repeat_text indent1 depth in
  (match depth with O => "| " | _ => "|" +:+ from_byte 1 indent +:+ " | " end +:+
   ann_key a +:+ " = " +:+ val_bytes (ann_val a) +:+ newline)%string.
(** trace.go:62-91 treeString: what is written. *)
Fixpoint tree_text (depth : nat) (t : tree) : string :=
  match t with
  | Tree id anns subs =>
      (head_text depth id +:+ String.concat "" (map (ann_text depth) anns) +:+ String.concat "" (map (tree_text (S depth)) subs))%string
  end.
(** trace.go:44-48 TreeString *)
Definition tree_string (t : tree) : string := tree_text 0 t.
