(** Model of id.go's JSON form. *)
From Verif Require Import Base IdModel ReflModel.
From Coq Require Import DecimalString.
Local Open Scope char_scope.

(** encoding/json: white space between tokens *)
Definition json_ws (c : ascii) : bool := Ascii.eqb c " " || Ascii.eqb c "009" || Ascii.eqb c "010" || Ascii.eqb c "013".
Fixpoint skip_ws (l : list ascii) : list ascii :=
  match l with c :: r => if json_ws c then skip_ws r else l | [] => [] end.

Definition quote : ascii := """".
Definition hex4 (a b c d : ascii) : option N :=
  match uint_digit a, uint_digit b, uint_digit c, uint_digit d with
  | Some a, Some b, Some c, Some d =>
      if (a <? 16) && (b <? 16) && (c <? 16) && (d <? 16) then Some (((a * 16 + b) * 16 + c) * 16 + d) else None
  | _, _, _, _ => None
  end%N.
(** Code points outside ASCII, however written, all decode to the byte 255 here: their exact UTF-8 bytes
    do not matter, ParseID refuses any of them. *)
Definition decoded (v : N) : ascii := if (v <? 128)%N then ascii_of_N v else "255".
Definition json_escape (c : ascii) : option ascii :=
  if Ascii.eqb c quote || Ascii.eqb c "\" || Ascii.eqb c "/" then Some c
  else if Ascii.eqb c "b" then Some "008" else if Ascii.eqb c "f" then Some "012" else if Ascii.eqb c "n" then Some "010"
  else if Ascii.eqb c "r" then Some "013" else if Ascii.eqb c "t" then Some "009" else None.
(** The rest of a string literal after its opening quote: the decoded string and what follows the closing quote. *)
Fixpoint json_string (l : list ascii) : option (list ascii * list ascii) :=
  let more c r := match json_string r with Some (s, rest) => Some (c :: s, rest) | None => None end in
  match l with
  | [] => None
  | c :: r =>
      if Ascii.eqb c quote then Some ([], r)
      else if Ascii.eqb c "\" then
        match r with
        | [] => None
        | e :: r =>
            if Ascii.eqb e "u" then
              match r with
              | h1 :: h2 :: h3 :: h4 :: r => match hex4 h1 h2 h3 h4 with Some v => more (decoded v) r | None => None end
              | _ => None
              end
            else match json_escape e with Some c => more c r | None => None end
        end
      else if (N_of_ascii c <? 32)%N then None else more (decoded (N_of_ascii c)) r
  end.

(** The literal null: what follows it. *)
Definition json_null (l : list ascii) : option (list ascii) :=
  match l with
  | a :: b :: c :: d :: r =>
      if Ascii.eqb a "n" && Ascii.eqb b "u" && Ascii.eqb c "l" && Ascii.eqb d "l" then Some r else None
  | _ => None
  end.
(** Nothing but white space. *)
Definition json_end {A} (r : list ascii) (x : A) : option A := match skip_ws r with [] => Some x | _ => None end.
(** json.Unmarshal(data, &s) for a string s = "": None is an error.  null leaves s as it is.  Other values
    and invalid JSON are errors alike. *)
Definition unmarshal_string (data : string) : option string :=
  let l := skip_ws (bytes data) in
  match json_null l with
  | Some r => json_end r ""%string
  | None =>
      match l with
      | c :: r =>
          if Ascii.eqb c quote then
            match json_string r with Some (s, r) => json_end r (unbytes s) | None => None end
          else None
      | [] => None
      end
  end.
Definition is_digit (c : ascii) : bool := ((48 <=? N_of_ascii c) && (N_of_ascii c <=? 57))%N.
Fixpoint take_digits (l : list ascii) : list ascii * list ascii :=
  match l with
  | c :: r => if is_digit c then let (d, rest) := take_digits r in (c :: d, rest) else ([], l)
  | [] => ([], [])
  end.
(** json.Unmarshal(data, &i) for a uint64 i = 0.  A number with a sign, fraction or exponent is an error,
    from the JSON grammar or from strconv.ParseUint; leading zeros are invalid JSON. *)
Definition unmarshal_uint64 (data : string) : option N :=
  let l := skip_ws (bytes data) in
  match json_null l with
  | Some r => json_end r 0%N
  | None =>
      let (d, r) := take_digits l in
      if match d with c :: _ :: _ => Ascii.eqb c "0" | _ => false end then None
      else match json_end r tt with Some _ => parse_uint (unbytes d) | None => None end
  end.

(** id.go:104-114 parseJSONString *)
Definition parse_json_string (data : string) : option N :=
  match unmarshal_string data with
  | Some s => match parse_id s with inl i => Some i | inr _ => None end
  | None => None
  end.
(** id.go:30-42 UnmarshalJSON; None: an error, the ID keeps its value.  id.go:116-122 parseJSONInt *)
Definition unmarshal_json (data : string) : option N :=
  match parse_json_string data with
  | Some i => Some i
  | None => unmarshal_uint64 data
  end.
(** id.go:24-26 MarshalJSON.  json.Marshal of a string: the hexadecimal digits need no escapes. *)
Definition marshal_json (id : N) : string := String quote (id_string id +:+ String quote "").
