(** Specification: JSON texts (RFC 8259), and the traces they describe. *)
From Verif Require Import Base IdModel IdSpec JsonSpec ReflModel Base64Model JsonModel MemModel.
Local Open Scope N_scope.
Local Open Scope char_scope.

(** * Texts *)
Definition spaces (w : text) : Prop := Forall (fun c => In c [" "; "009"; "010"; "013"]) w.
Definition four_hex (h : text) (x : N) : Prop := length h = 4%nat /\ hex_numeral (unbytes h) x.
(** What is written in a string literal, and the bytes that it stands for.  [lax]: invalid UTF-8 and half surrogate pairs, too, stand for U+FFFD. *)
Inductive string_char (lax : bool) : text -> text -> Prop :=
| SC_plain x bs : utf8_char x bs -> 32 <= x -> x <> 34 -> x <> 92 -> string_char lax bs bs
| SC_escape e c : In (e, c) [("""", """"); ("\", "\"); ("/", "/"); ("b", "008"); ("f", "012"); ("n", "010"); ("r", "013"); ("t", "009")] -> string_char lax ["\"; e] [c]
| SC_code h x bs : four_hex h x -> utf8_char x bs -> string_char lax ("\" :: "u" :: h) bs
| SC_pair h l hi lo bs : four_hex h hi -> four_hex l lo -> 55296 <= hi < 56320 -> 56320 <= lo < 57344 ->
    utf8_char (65536 + (hi - 55296) * 1024 + (lo - 56320)) bs -> string_char lax ("\" :: "u" :: h ++ "\" :: "u" :: l) bs
| SC_half h x : lax = true -> four_hex h x -> 55296 <= x < 57344 -> string_char lax ("\" :: "u" :: h) (map ascii_of_N [239; 191; 189])
| SC_invalid c : lax = true -> 128 <= N_of_ascii c -> string_char lax [c] (map ascii_of_N [239; 191; 189]).
Inductive string_chars (lax : bool) : text -> text -> Prop :=
| SCs_nil : string_chars lax [] []
| SCs_cons a bs s t : string_char lax a bs -> string_chars lax s t -> string_chars lax (a ++ s) (bs ++ t).

Definition digit (c : ascii) : Prop := 48 <= N_of_ascii c <= 57.
Definition digits (d : text) : Prop := d <> [] /\ Forall digit d.
Inductive number : text -> Prop :=
| Number sign int frac exp :
    sign = [] \/ sign = ["-"] ->
    int = ["0"] \/ (exists c d, int = c :: d /\ digit c /\ c <> "0" /\ Forall digit d) ->
    frac = [] \/ (exists d, frac = "." :: d /\ digits d) ->
    exp = [] \/ (exists e s d, exp = e :: s ++ d /\ In e ["e"; "E"] /\ In s [[]; ["+"]; ["-"]] /\ digits d) ->
    number (sign ++ int ++ frac ++ exp).

Inductive value (lax : bool) : text -> json -> Prop :=
| V_null : value lax (Base.bytes "null") JNull
| V_true : value lax (Base.bytes "true") (JBool true)
| V_false : value lax (Base.bytes "false") (JBool false)
| V_num s : number s -> value lax s (JNum s)
| V_str s v : string_chars lax s v -> value lax ("""" :: s ++ [""""]) (JStr v)
| V_arr0 w : spaces w -> value lax ("[" :: w ++ ["]"]) (JArr [])
| V_arr s l : elements lax s l -> value lax ("[" :: s ++ ["]"]) (JArr l)
| V_obj0 w : spaces w -> value lax ("{" :: w ++ ["}"]) (JObj [])
| V_obj s l : members lax s l -> value lax ("{" :: s ++ ["}"]) (JObj l)
with elements (lax : bool) : text -> list json -> Prop :=
| E_one w1 s w2 v : spaces w1 -> value lax s v -> spaces w2 -> elements lax (w1 ++ s ++ w2) [v]
| E_more w1 s w2 v t l : spaces w1 -> value lax s v -> spaces w2 -> elements lax t l -> elements lax (w1 ++ s ++ w2 ++ "," :: t) (v :: l)
with members (lax : bool) : text -> list (text * json) -> Prop :=
| M_one w1 k key w2 w3 s w4 v : spaces w1 -> string_chars lax k key -> spaces w2 -> spaces w3 -> value lax s v -> spaces w4 ->
    members lax (w1 ++ ("""" :: k ++ [""""]) ++ w2 ++ ":" :: w3 ++ s ++ w4) [(key, v)]
| M_more w1 k key w2 w3 s w4 v t l : spaces w1 -> string_chars lax k key -> spaces w2 -> spaces w3 -> value lax s v -> spaces w4 -> members lax t l ->
    members lax (w1 ++ ("""" :: k ++ [""""]) ++ w2 ++ ":" :: w3 ++ s ++ w4 ++ "," :: t) ((key, v) :: l).
(** A JSON text: one value in white space. *)
Definition document (lax : bool) (s : text) (v : json) : Prop := exists w1 t w2, s = w1 ++ t ++ w2 /\ spaces w1 /\ value lax t v /\ spaces w2.

(** * Traces *)
(** The same letter, in upper or lower case *)
Definition case_of (u l : ascii) : Prop := 65 <= N_of_ascii u <= 90 /\ N_of_ascii l = N_of_ascii u + 32.
Definition same_letter (a b : ascii) : Prop := a = b \/ case_of a b \/ case_of b a.
Definition same_name (k : text) (field : string) : Prop := Forall2 same_letter k (Base.bytes field).
(** The object's member for a field: at most one. *)
Inductive member_of (kvs : list (text * json)) (field : string) : option json -> Prop :=
| MO_found l1 k v l2 : kvs = l1 ++ (k, v) :: l2 -> same_name k field -> (forall kv, In kv (l1 ++ l2) -> ~ same_name (fst kv) field) -> member_of kvs field (Some v)
| MO_missing : (forall kv, In kv kvs -> ~ same_name (fst kv) field) -> member_of kvs field None.

(** An ID: a hexadecimal string or an integer.  What is missing or null is 0, everywhere. *)
Inductive id_is : option json -> N -> Prop :=
| II_none : id_is None 0
| II_null : id_is (Some JNull) 0
| II_hex s i : hex_numeral (unbytes s) i -> is_id i -> id_is (Some (JStr s)) i
| II_int i : is_id i -> id_is (Some (JNum (Base.bytes (fmt_uint i)))) i.
Inductive spanid_is : option json -> SpanID -> Prop :=
| SI_none : spanid_is None (MkSpanID 0 0 0)
| SI_null : spanid_is (Some JNull) (MkSpanID 0 0 0)
| SI_obj kvs jt js jp t s p : member_of kvs "Trace" jt -> member_of kvs "Span" js -> member_of kvs "Parent" jp ->
    id_is jt t -> id_is js s -> id_is jp p -> spanid_is (Some (JObj kvs)) (MkSpanID t s p).
Inductive key_is : option json -> string -> Prop :=
| KI_none : key_is None ""
| KI_null : key_is (Some JNull) ""
| KI_str s : key_is (Some (JStr s)) (unbytes s).
(** The value of an annotation: base64, in lines or not, or a list of numbers *)
Inductive byte_is : json -> ascii -> Prop :=
| BI_null : byte_is JNull "000"
| BI_num c : byte_is (JNum (Base.bytes (fmt_uint (N_of_ascii c)))) c.
Inductive bytes_are : option json -> option string -> Prop :=
| BA_none : bytes_are None None
| BA_null : bytes_are (Some JNull) None
| BA_str s v : List.filter (fun c => negb (Ascii.eqb c "010" || Ascii.eqb c "013")) s = b64_encode alphabet_std true (Base.bytes v) -> bytes_are (Some (JStr s)) (Some v)
| BA_arr l v : Forall2 byte_is l (Base.bytes v) -> bytes_are (Some (JArr l)) (Some v).
Inductive ann_is : json -> Annotation -> Prop :=
| AI_null : ann_is JNull (Ann "" None)
| AI_obj kvs jk jv k v : member_of kvs "Key" jk -> member_of kvs "Value" jv -> key_is jk k -> bytes_are jv v -> ann_is (JObj kvs) (Ann k v).
(** A list: missing or null is empty *)
Inductive list_is {A} (is : json -> A -> Prop) : option json -> list A -> Prop :=
| LI_none : list_is is None []
| LI_null : list_is is (Some JNull) []
| LI_arr l xs : Forall2 is l xs -> list_is is (Some (JArr l)) xs.
Inductive trace_is : json -> tree -> Prop :=
| TI_obj kvs ji ja js id anns subs : member_of kvs "ID" ji -> member_of kvs "Annotations" ja -> member_of kvs "Sub" js ->
    spanid_is ji id -> list_is ann_is ja anns -> list_is trace_is js subs -> trace_is (JObj kvs) (Tree id anns subs).

(** What describes nothing *)
Definition bad_id (j : json) : Prop :=
  match j with
  | JNull => False
  | JStr s => forall i, is_id i -> ~ hex_numeral (unbytes s) i
  | JNum s => number s /\ forall i, is_id i -> s <> Base.bytes (fmt_uint i)
  | _ => True
  end.
Definition bad_spanid (j : json) : Prop :=
  match j with
  | JNull => False
  | JObj kvs => exists k v, In (k, v) kvs /\ (same_name k "Trace" \/ same_name k "Span" \/ same_name k "Parent") /\ bad_id v
  | _ => True
  end.
Definition bad_key (j : json) : Prop := match j with JNull | JStr _ => False | _ => True end.
Definition bad_byte (j : json) : Prop :=
  match j with JNull => False | JNum s => number s /\ forall c, s <> Base.bytes (fmt_uint (N_of_ascii c)) | _ => True end.
Definition bad_bytes (j : json) : Prop :=
  match j with
  | JNull => False
  | JStr s => exists c, In c s /\ ~ In c ("=" :: "010" :: "013" :: alphabet_std)
  | JArr l => Exists bad_byte l
  | _ => True
  end.
Definition bad_ann (j : json) : Prop :=
  match j with
  | JNull => False
  | JObj kvs => exists k v, In (k, v) kvs /\ (same_name k "Key" /\ bad_key v \/ same_name k "Value" /\ bad_bytes v)
  | _ => True
  end.
Definition bad_list (bad : json -> Prop) (j : json) : Prop := match j with JNull => False | JArr l => exists x, In x l /\ bad x | _ => True end.
Inductive bad_trace : json -> Prop :=
| BT_kind j : j <> JNull -> (forall kvs, j <> JObj kvs) -> bad_trace j
| BT_id kvs k v : In (k, v) kvs -> same_name k "ID" -> bad_spanid v -> bad_trace (JObj kvs)
| BT_anns kvs k v : In (k, v) kvs -> same_name k "Annotations" -> bad_list bad_ann v -> bad_trace (JObj kvs)
| BT_sub kvs k v : In (k, v) kvs -> same_name k "Sub" -> (v <> JNull /\ forall l, v <> JArr l) -> bad_trace (JObj kvs)
| BT_subs kvs k l x : In (k, JArr l) kvs -> same_name k "Sub" -> In x l -> bad_trace x -> bad_trace (JObj kvs).
