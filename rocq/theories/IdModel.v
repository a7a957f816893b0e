(** Model of id.go (text form) and of span.go's SpanID text form. *)
From Verif Require Import Base.

(** The digits "0123456789abcdef" used by fmt's %x (fmt/format.go ldigits). *)
Definition hex_digit (d : N) : ascii :=
  if d <? 10 then ascii_of_N (48 + d) else ascii_of_N (87 + d).

(** fmt/format.go fmtInteger, base 16: digits are produced from the least significant
    end until the remaining value is below 16.  The fuel is the bit length of the
    value plus one, which is never exhausted (IdProofs.hex_loop_fuel). *)
Fixpoint hex_loop (fuel : nat) (v : N) (acc : list ascii) : list ascii :=
  match fuel with
  | O => acc
  | S fuel =>
      if v <? 16 then hex_digit v :: acc
      else hex_loop fuel (v / 16) (hex_digit (v mod 16) :: acc)
  end.

(** fmt "%0wx": pad on the left with '0' up to width w; wider values are not cut. *)
Definition pad_left (w : nat) (l : list ascii) : list ascii :=
  replicate (w - length l)%nat "0"%char ++ l.

(** id.go:19-21  func (id ID) String() string { fmt.Sprintf("%016x", uint64(id)) } *)
Definition id_string (v : N) : string :=
  unbytes (pad_left 16 (hex_loop (S (N.size_nat v)) v [])).

(** strconv.ParseUint errors (strconv.ErrSyntax, strconv.ErrRange). *)
Inductive parse_err := ErrSyntax | ErrRange.

(** strconv's lower(c) = c | ('x' - 'X'). *)
Definition ascii_lower_or (c : N) : N := N.lor c 32.

(** strconv.ParseUint's digit value of one byte, before the comparison with the base. *)
Definition uint_digit (c : ascii) : option N :=
  let b := N_of_ascii c in
  if (48 <=? b) && (b <=? 57) then Some (b - 48)
  else let l := ascii_lower_or b in
       if (97 <=? l) && (l <=? 122) then Some (l - 97 + 10) else None.

(** strconv.ParseUint(s, 16, 64)'s loop over the bytes of s, in 64-bit arithmetic:
    cutoff = (2^64-1)/16+1; maxVal = 2^64-1; the wrap of n+d is explicit. *)
Fixpoint parse_uint16_loop (l : list ascii) (n : N) : N + parse_err :=
  match l with
  | [] => inl n
  | c :: l =>
      match uint_digit c with
      | None => inr ErrSyntax
      | Some d =>
          if 16 <=? d then inr ErrSyntax
          else if (two64 - 1) / 16 + 1 <=? n then inr ErrRange
          else
            let m := (n * 16) mod two64 in
            let n1 := (m + d) mod two64 in
            if (n1 <? m) || (two64 - 1 <? n1) then inr ErrRange
            else parse_uint16_loop l n1
      end
  end.

(** id.go:45-51 ParseID: strconv.ParseUint(s, 16, 64); the empty string is a syntax error.
    (base 16 is explicit, so "_" and "0x" get no special treatment). *)
Definition parse_id (s : string) : N + parse_err :=
  match bytes s with
  | [] => inr ErrSyntax
  | l => parse_uint16_loop l 0
  end.

(** strings.Split(s, sep) for a one-byte separator. *)
Fixpoint split_on (sep : ascii) (l : list ascii) : list (list ascii) :=
  match l with
  | [] => [[]]
  | c :: l' =>
      if Ascii.eqb c sep then [] :: split_on sep l'
      else match split_on sep l' with
           | [] => [[c]]          (* unreachable: split_on is never empty *)
           | p :: ps => (c :: p) :: ps
           end
  end.

(** span.go:105 SpanIDDelimiter = "/" *)
Definition delim : ascii := "/"%char.

(** span.go:35-47 func (id SpanID) String() *)
Definition spanid_string (s : SpanID) : string :=
  if sp_parent s =? 0
  then (id_string (sp_trace s) +:+ "/" +:+ id_string (sp_span s))%string
  else (id_string (sp_trace s) +:+ "/" +:+ id_string (sp_span s) +:+ "/" +:+ id_string (sp_parent s))%string.

(** span.go:109-135 ParseSpanID; [None] is (nil, ErrBadSpanID). *)
Definition parse_spanid (s : string) : option SpanID :=
  let parts := map unbytes (split_on delim (bytes s)) in
  match parts with
  | [a; b] =>
      match parse_id a with
      | inr _ => None
      | inl t => match parse_id b with
                 | inr _ => None
                 | inl i => Some (MkSpanID t i 0)
                 end
      end
  | [a; b; c] =>
      match parse_id a with
      | inr _ => None
      | inl t => match parse_id b with
                 | inr _ => None
                 | inl i => match parse_id c with
                            | inr _ => None
                            | inl p => Some (MkSpanID t i p)
                            end
                 end
      end
  | _ => None
  end.

(** span.go:58-60 IsRoot *)
Definition is_root (s : SpanID) : bool := sp_parent s =? 0.

(** span.go:84-89 NewRootSpanID; the two arguments are the two generateID results,
    in evaluation order. *)
Definition new_root_span_id (t s : N) : SpanID := MkSpanID t s 0.

(** span.go:94-100 NewSpanID; [i] is the generateID result. *)
Definition new_span_id (parent : SpanID) (i : N) : SpanID :=
  MkSpanID (sp_trace parent) i (sp_span parent).

(** A program that makes span IDs: each step makes a new root ([None]), or a child of the
    [i]-th span made so far ([Some i]; NewSpanID, or Recorder.Child, recorder.go:46-50).
    [gen k] is the result of the k-th generateID call. A step that names a span not made
    yet is not a possible call and is skipped. *)
Definition mk_step (gen : nat -> N) (st : nat * list SpanID) (o : option nat) : nat * list SpanID :=
  let '(k, made) := st in
  match o with
  | None => (S (S k), made ++ [new_root_span_id (gen k) (gen (S k))])
  | Some i =>
      match made !! i with
      | Some p => (S k, made ++ [new_span_id p (gen k)])
      | None => (k, made)
      end
  end.

Definition mk_run (gen : nat -> N) (ops : list (option nat)) : list SpanID :=
  snd (fold_left (mk_step gen) ops (O, [])).
