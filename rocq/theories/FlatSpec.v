(** Specification for reading events with simple fields from annotations that anyone may have written. *)
From Verif Require Import Base ReflModel TimeModel NumModel.
Local Open Scope string_scope.

(** [s] is the value of the last annotation with key [k]. *)
Definition last_text (anns : list Annotation) (k s : string) : Prop :=
  exists before v after, anns = (before ++ Ann k v :: after)%list /\ s = match v with Some s => s | None => "" end /\
    forall a, In a after -> ann_key a <> k.
(** Some annotation's key starts with [k]. *)
Definition starts_a_key (anns : list Annotation) (k : string) : Prop := exists a r, In a anns /\ ann_key a = k +:+ r.

(** Decimal numerals. *)
Definition digit_is (c : ascii) (d : N) : Prop := (d < 10 /\ N_of_ascii c = 48 + d)%N.
Inductive decimal_text : string -> N -> Prop :=
| D_one c d : digit_is c d -> decimal_text (String c "") d
| D_more c d s n : digit_is c d -> decimal_text s n -> decimal_text (String c s) (d * 10 ^ N.of_nat (String.length s) + n).
Inductive int_text : string -> Z -> Prop :=
| I_plain s n : decimal_text s n -> int_text s (Z.of_N n)
| I_plus s n : decimal_text s n -> int_text (String "+" s) (Z.of_N n)
| I_minus s n : decimal_text s n -> int_text (String "-" s) (- Z.of_N n).

(** The types of simple fields.  Numbers have 8 to 64 bits. *)
Definition simple_field (t : ty) : Prop :=
  match t with TScalar false (KInt b) | TScalar false (KUint b) => (0 < b <= 64)%N | TScalar false _ | TTime => True | _ => False end.
(** What a text means for a simple field.  Of times, durations and floats the meaning of texts is not described here (see C60,
    C110, C111). *)
Definition text_value (t : ty) (s : string) (v : val) : Prop :=
  match t with
  | TScalar _ KString => v = VString s
  | TScalar _ KBool => (In s ["1"; "t"; "T"; "true"; "TRUE"; "True"] /\ v = VBool true) \/
                       (In s ["0"; "f"; "F"; "false"; "FALSE"; "False"] /\ v = VBool false)
  (* a number of 64 bits, of which the field takes the last [b] *)
  | TScalar _ (KInt b) => exists z w, int_text s z /\ (- 2 ^ 63 <= z < 2 ^ 63)%Z /\ v = VInt w /\
      (- 2 ^ (Z.of_N b - 1) <= w < 2 ^ (Z.of_N b - 1))%Z /\ (exists q, z = w + q * 2 ^ Z.of_N b)%Z
  | TScalar _ (KUint b) => exists n w, decimal_text s n /\ (n < 2 ^ 64)%N /\ v = VUint w /\ (w < 2 ^ b)%N /\ (exists q, n = w + q * 2 ^ b)%N
  | TScalar _ KDuration => exists d, parse_duration s = Some d /\ v = VDuration d
  | TScalar _ KFloat32 => exists x, parse_float32 s = Some x /\ v = VFloat32 x
  | TScalar _ KFloat64 => exists x, parse_float64 s = Some x /\ v = VFloat64 x
  | TTime => exists x, parse_time s = Some x /\ v = VTime x
  | _ => False
  end.

(** Every field whose name is not after [n] in alphabetical order has an annotation with a text of its type. *)
Definition readable_up_to (fs : list (string * ty)) (anns : list Annotation) (n : string) : Prop :=
  forall m t, In (m, t) fs -> (m = n \/ String.ltb m n = true) -> exists s v, last_text anns m s /\ text_value t s v.
