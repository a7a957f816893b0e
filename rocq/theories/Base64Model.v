(** Model of encoding/base64's encoders (a library; the parts the code uses). *)
From Verif Require Import Base.

(** encoding/base64 encodeStd and encodeURL *)
Definition alphabet_std : list ascii := bytes "ABCDEFGHIJKLMNOPQRSTUVWXYZabcdefghijklmnopqrstuvwxyz0123456789+/".
Definition alphabet_url : list ascii := bytes "ABCDEFGHIJKLMNOPQRSTUVWXYZabcdefghijklmnopqrstuvwxyz0123456789-_".
Definition b64_char (alpha : list ascii) (n : N) : ascii := nth (N.to_nat n) alpha "="%char.
Definition b64_pad (pad : bool) (n : nat) : list ascii := if pad then repeat "="%char n else [].
(** encoding/base64 Encoding.Encode, with or without padding *)
Fixpoint b64_encode (alpha : list ascii) (pad : bool) (l : list ascii) : list ascii :=
  match l with
  | [] => []
  | [a] =>
      let a := N_of_ascii a in
      [b64_char alpha (a / 4); b64_char alpha ((a mod 4) * 16)] ++ b64_pad pad 2
  | [a; b] =>
      let a := N_of_ascii a in let b := N_of_ascii b in
      [b64_char alpha (a / 4); b64_char alpha ((a mod 4) * 16 + b / 16); b64_char alpha ((b mod 16) * 4)] ++ b64_pad pad 1
  | a :: b :: c :: l =>
      let a := N_of_ascii a in let b := N_of_ascii b in let c := N_of_ascii c in
      b64_char alpha (a / 4) :: b64_char alpha ((a mod 4) * 16 + b / 16) :: b64_char alpha ((b mod 16) * 4 + c / 64) ::
      b64_char alpha (c mod 64) :: b64_encode alpha pad l
  end.
(** base64.StdEncoding.EncodeToString *)
Definition b64_std (s : string) : string := unbytes (b64_encode alphabet_std true (bytes s)).

(** The value of a character: its place in the alphabet. *)
Fixpoint b64_val_from (n : N) (alpha : list ascii) (c : ascii) : option N :=
  match alpha with [] => None | x :: alpha => if Ascii.eqb x c then Some n else b64_val_from (n + 1) alpha c end.
Definition b64_val := b64_val_from 0.
(** encoding/base64 Encoding.Decode, for input without line breaks (which it skips): [None] is an error.  The last
    quantum is not checked for zero trailing bits (it is only by Strict encodings). *)
Fixpoint b64_decode (alpha : list ascii) (pad : bool) (l : list ascii) : option (list ascii) :=
  match l with
  | [] => Some []
  | [x; y] =>
      if pad then None else
      x ← b64_val alpha x; y ← b64_val alpha y; Some [ascii_of_N (x * 4 + y / 16)]
  | [x; y; z] =>
      if pad then None else
      x ← b64_val alpha x; y ← b64_val alpha y; z ← b64_val alpha z;
      Some [ascii_of_N (x * 4 + y / 16); ascii_of_N ((y mod 16) * 16 + z / 4)]
  | x :: y :: z :: w :: l =>
      x ← b64_val alpha x; y ← b64_val alpha y;
      if pad && Ascii.eqb w "=" && bool_decide (l = []) then
        if Ascii.eqb z "=" then Some [ascii_of_N (x * 4 + y / 16)]
        else z ← b64_val alpha z; Some [ascii_of_N (x * 4 + y / 16); ascii_of_N ((y mod 16) * 16 + z / 4)]
      else
        z ← b64_val alpha z; w ← b64_val alpha w; r ← b64_decode alpha pad l;
        Some (ascii_of_N (x * 4 + y / 16) :: ascii_of_N ((y mod 16) * 16 + z / 4) :: ascii_of_N ((z mod 4) * 64 + w) :: r)
  | _ => None
  end.
