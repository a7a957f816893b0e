(** Model of the parts of encoding/json and unicode/utf8 (libraries) that the traces' JSON form uses. *)
From Verif Require Import Base IdModel IdJsonModel.
From Coq Require Import DecimalString.
Local Open Scope N_scope.
Local Open Scope char_scope.

Notation bn := N_of_ascii.
Notation text := (list ascii).

(** * UTF-8 *)
Definition within (lo hi : N) (c : ascii) : bool := (lo <=? bn c)%N && (bn c <=? hi)%N.
(** utf8.DecodeRune: the code point, its bytes, and the rest; [None]: RuneError of width 1 (also for no bytes). *)
Definition decode_rune (l : text) : option (N * text * text) :=
  match l with
  | [] => None
  | a :: r =>
      let x := bn a in
      if (x <? 128)%N then Some (x, [a], r)
      else if (194 <=? x)%N && (x <=? 223)%N then
        match r with
        | b :: r => if within 128 191 b then Some ((x - 192) * 64 + (bn b - 128), [a; b], r)%N else None
        | _ => None
        end
      else if (224 <=? x)%N && (x <=? 239)%N then
        match r with
        | b :: c :: r =>
            if within (if (x =? 224)%N then 160 else 128) (if (x =? 237)%N then 159 else 191) b && within 128 191 c
            then Some (((x - 224) * 64 + (bn b - 128)) * 64 + (bn c - 128), [a; b; c], r)%N else None
        | _ => None
        end
      else if (240 <=? x)%N && (x <=? 244)%N then
        match r with
        | b :: c :: d :: r =>
            if within (if (x =? 240)%N then 144 else 128) (if (x =? 244)%N then 143 else 191) b && within 128 191 c && within 128 191 d
            then Some ((((x - 240) * 64 + (bn b - 128)) * 64 + (bn c - 128)) * 64 + (bn d - 128), [a; b; c; d], r)%N else None
        | _ => None
        end
      else None
  end.
(** U+FFFD, the replacement character *)
Definition replacement : text := map ascii_of_N [239; 191; 189].
(** utf8.EncodeRune, utf8.AppendRune *)
Definition surrogate (r : N) : bool := (55296 <=? r)%N && (r <=? 57343)%N.
Definition encode_rune (r : N) : text :=
  if (r <? 128)%N then [ascii_of_N r]
  else if (r <? 2048)%N then [ascii_of_N (192 + r / 64); ascii_of_N (128 + r mod 64)]
  else if surrogate r || (1114111 <? r)%N then replacement
  else if (r <? 65536)%N then [ascii_of_N (224 + r / 4096); ascii_of_N (128 + r / 64 mod 64); ascii_of_N (128 + r mod 64)]
  else [ascii_of_N (240 + r / 262144); ascii_of_N (128 + r / 4096 mod 64); ascii_of_N (128 + r / 64 mod 64); ascii_of_N (128 + r mod 64)].
(** utf16.DecodeRune; [None]: the replacement character *)
Definition utf16_pair (a b : N) : option N :=
  if (55296 <=? a)%N && (a <? 56320)%N && (56320 <=? b)%N && (b <? 57344)%N then Some ((a - 55296) * 1024 + (b - 56320) + 65536)%N else None.

(** A string cut into the pieces that a loop with DecodeRuneInString sees: code points with their bytes, and
    invalid bytes. *)
Notation piece := ((N * text) + ascii)%type.
Fixpoint pieces_fuel (n : nat) (l : text) : list piece :=
  match n, l with
  | S n, a :: r =>
      match decode_rune l with
      | Some (x, bs, rest) => inl (x, bs) :: pieces_fuel n rest
      | None => inr a :: pieces_fuel n r
      end
  | _, _ => []
  end.
Definition pieces (l : text) : list piece := pieces_fuel (length l) l.

(** * Strings *)
Definition hex_low (n : N) : ascii := ascii_of_N (if (n <? 10)%N then 48 + n else 87 + n).
Definition esc_u (a b c d : N) : text := ["\"; "u"; hex_low a; hex_low b; hex_low c; hex_low d].
(** encoding/json encodeState.string with HTML escapes; [bf]: \b and \f are written so (since Go 1.22). *)
Definition esc_ascii (bf : bool) (x : N) : text :=
  let c := ascii_of_N x in
  if Ascii.eqb c quote || Ascii.eqb c "\" then ["\"; c]
  else if (x =? 8)%N && bf then ["\"; "b"] else if (x =? 12)%N && bf then ["\"; "f"]
  else if (x =? 10)%N then ["\"; "n"] else if (x =? 13)%N then ["\"; "r"] else if (x =? 9)%N then ["\"; "t"]
  else if (x <? 32)%N || Ascii.eqb c "<" || Ascii.eqb c ">" || Ascii.eqb c "&" then esc_u 0 0 (x / 16) (x mod 16)
  else [c].
Definition esc_piece (bf : bool) (p : piece) : text :=
  match p with
  | inr _ => ["\"; "u"; "f"; "f"; "f"; "d"]
  | inl (x, bs) =>
      if (x <? 128)%N then esc_ascii bf x
      else if (x =? 8232)%N || (x =? 8233)%N then esc_u 2 0 2 (x mod 16)
      else bs
  end.
Definition enc_string (bf : bool) (s : text) : text := quote :: concat (map (esc_piece bf) (pieces s)) ++ [quote].

(** The rest of a string literal after its opening quote: the string and what follows the closing quote.  What the
    scanner (stateInString...) accepts, as encoding/json unquote decodes it. *)
Fixpoint unquote_fuel (n : nat) (l : text) : option (text * text) :=
  match n with
  | O => None
  | S n =>
      let more bs r := match unquote_fuel n r with Some (s, rest) => Some (bs ++ s, rest) | None => None end in
      match l with
      | [] => None
      | c :: r =>
          if Ascii.eqb c quote then Some ([], r)
          else if Ascii.eqb c "\" then
            match r with
            | [] => None
            | e :: r =>
                if Ascii.eqb e "u" then
                  match r with
                  | h1 :: h2 :: h3 :: h4 :: r =>
                      match hex4 h1 h2 h3 h4 with
                      | None => None
                      | Some v =>
                          if surrogate v then
                            match r with
                            | b :: u :: g1 :: g2 :: g3 :: g4 :: r2 =>
                                if Ascii.eqb b "\" && Ascii.eqb u "u" then
                                  match hex4 g1 g2 g3 g4 with
                                  | Some w => match utf16_pair v w with Some x => more (encode_rune x) r2 | None => more replacement r end
                                  | None => more replacement r
                                  end
                                else more replacement r
                            | _ => more replacement r
                            end
                          else more (encode_rune v) r
                      end
                  | _ => None
                  end
                else match json_escape e with Some c => more [c] r | None => None end
            end
          else if (bn c <? 32)%N then None
          else match decode_rune l with
               | Some (v, _, rest) => more (encode_rune v) rest
               | None => more replacement r
               end
      end
  end.
Definition unquote (l : text) : option (text * text) := unquote_fuel (length l) l.

(** * Values *)
Inductive json := JNull | JBool (b : bool) | JNum (s : text) | JStr (s : text) | JArr (l : list json) | JObj (kvs : list (text * json)).

(** encoding/json scanner: the literal of a number and what follows it *)
Definition num_frac (l : text) : option (text * text) :=
  match l with
  | c :: r => if Ascii.eqb c "." then match take_digits r with ([], _) => None | (d, r) => Some (c :: d, r) end else Some ([], l)
  | [] => Some ([], [])
  end.
Definition num_exp (l : text) : option (text * text) :=
  match l with
  | c :: r =>
      if Ascii.eqb c "e" || Ascii.eqb c "E" then
        let '(s, r) := match r with x :: r' => if Ascii.eqb x "+" || Ascii.eqb x "-" then ([x], r') else ([], r) | [] => ([], []) end in
        match take_digits r with ([], _) => None | (d, r) => Some (c :: s ++ d, r) end
      else Some ([], l)
  | [] => Some ([], [])
  end.
Definition take_number (l : text) : option (text * text) :=
  let '(s, l) := match l with x :: r => if Ascii.eqb x "-" then ([x], r) else ([], l) | [] => ([], []) end in
  match take_digits l with
  | ([], _) => None
  | (d, r) =>
      (* a leading zero ends the integer part *)
      let '(d, r) := match d with z :: d' => if Ascii.eqb z "0" then ([z], d' ++ r) else (d, r) | [] => (d, r) end in
      match num_frac r with
      | None => None
      | Some (f, r) => match num_exp r with None => None | Some (e, r) => Some (s ++ d ++ f ++ e, r) end
      end
  end.
Fixpoint strip (p l : text) : option text :=
  match p, l with
  | [], _ => Some l
  | a :: p, b :: l => if Ascii.eqb a b then strip p l else None
  | _, [] => None
  end.

(** The value at the start of a text and the rest; [None]: a syntax error.  The nesting limit of 10000 (since Go 1.15) is not
    modelled. *)
Fixpoint parse_json (n : nat) (l : text) : option (json * text) :=
  match n with
  | O => None
  | S n =>
      let l := skip_ws l in
      match l with
      | [] => None
      | c :: r =>
          if Ascii.eqb c quote then match unquote r with Some (s, r) => Some (JStr s, r) | None => None end
          else if Ascii.eqb c "[" then
            match skip_ws r with
            | [] => None
            | e :: r' => if Ascii.eqb e "]" then Some (JArr [], r')
                         else match parse_elems n r with Some (vs, r) => Some (JArr vs, r) | None => None end
            end
          else if Ascii.eqb c "{" then
            match skip_ws r with
            | [] => None
            | e :: r' => if Ascii.eqb e "}" then Some (JObj [], r')
                         else match parse_members n r with Some (kvs, r) => Some (JObj kvs, r) | None => None end
            end
          else if Ascii.eqb c "n" then match strip (Base.bytes "null") l with Some r => Some (JNull, r) | None => None end
          else if Ascii.eqb c "t" then match strip (Base.bytes "true") l with Some r => Some (JBool true, r) | None => None end
          else if Ascii.eqb c "f" then match strip (Base.bytes "false") l with Some r => Some (JBool false, r) | None => None end
          else match take_number l with Some (s, r) => Some (JNum s, r) | None => None end
      end
  end
with parse_elems (n : nat) (l : text) : option (list json * text) :=
  match n with
  | O => None
  | S n =>
      match parse_json n l with
      | None => None
      | Some (v, r) =>
          match skip_ws r with
          | c :: r =>
              if Ascii.eqb c "," then match parse_elems n r with Some (vs, r) => Some (v :: vs, r) | None => None end
              else if Ascii.eqb c "]" then Some ([v], r) else None
          | [] => None
          end
      end
  end
with parse_members (n : nat) (l : text) : option (list (text * json) * text) :=
  match n with
  | O => None
  | S n =>
      match skip_ws l with
      | [] => None
      | c :: r =>
          if Ascii.eqb c quote then
            match unquote r with
            | None => None
            | Some (k, r) =>
                match skip_ws r with
                | [] => None
                | c :: r =>
                    if Ascii.eqb c ":" then
                      match parse_json n r with
                      | None => None
                      | Some (v, r) =>
                          match skip_ws r with
                          | c :: r =>
                              if Ascii.eqb c "," then match parse_members n r with Some (kvs, r) => Some ((k, v) :: kvs, r) | None => None end
                              else if Ascii.eqb c "}" then Some ([(k, v)], r) else None
                          | [] => None
                          end
                      end
                    else None
                end
            end
          else None
      end
  end.
(** The value at the start of the text. *)
Definition parse_first (l : text) : option (json * text) := parse_json (2 * length l + 1) l.
(** json.Unmarshal's syntax: one value and nothing but white space. *)
Definition parse_all (l : text) : option json :=
  match parse_first l with Some (v, r) => match skip_ws r with [] => Some v | _ => None end | None => None end.

(** The encoder.  [nl d]: the line break and indentation at depth d of json.Indent, nothing in the compact form;
    [sp]: the space after a colon. *)
Section join.
  Context {A : Type} (f : A -> text) (sep : text).
  Fixpoint join_with (l : list A) : text :=
    match l with [] => [] | x :: l => f x ++ match l with [] => [] | _ => sep ++ join_with l end end.
End join.
Section print.
  Context (bf : bool) (nl : nat -> text) (sp : text).
  Fixpoint print_json (d : nat) (j : json) : text :=
    match j with
    | JNull => Base.bytes "null"
    | JBool b => Base.bytes (if b then "true" else "false")
    | JNum s => s
    | JStr s => enc_string bf s
    | JArr [] => ["["; "]"]
    | JArr l => "[" :: nl (S d) ++ join_with (print_json (S d)) ("," :: nl (S d)) l ++ nl d ++ ["]"]
    | JObj [] => ["{"; "}"]
    | JObj kvs => "{" :: nl (S d) ++ join_with (fun kv => enc_string bf (fst kv) ++ ":" :: sp ++ print_json (S d) (snd kv)) ("," :: nl (S d)) kvs ++ nl d ++ ["}"]
    end.
End print.
(** json.Marshal (and Encoder.Encode, which adds a line break) *)
Definition print_compact (bf : bool) (j : json) : text := print_json bf (fun _ => []) [] 0 j.
(** json.MarshalIndent(v, "", "  ") *)
Definition print_indented (bf : bool) (j : json) : text :=
  print_json bf (fun d => "010" :: repeat " " (2 * d)) [" "] 0 j.
