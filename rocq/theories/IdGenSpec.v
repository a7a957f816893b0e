(** The key stream of AES-CTR: successive 64-bit halves of the encryptions of successive
    128-bit big-endian counter values. *)
From Verif Require Import Base.

(** Value of a big-endian byte string, and its inverse on k bytes. *)
Definition be_value (l : list N) : N := fold_left (fun a x => 256 * a + x) l 0.
Fixpoint be_bytes (k : nat) (v : N) : list N :=
  match k with O => [] | S k' => be_bytes k' (v / 256) ++ [v mod 256] end.

(** Value of a little-endian word. *)
Definition le_value (l : list N) : N := be_value (rev l).

Definition is_block (l : list N) : Prop := length l = 16%nat /\ Forall (fun x => x < 256) l.

(** [half b l]: first (false) or second (true) eight bytes of a block. *)
Definition half (second : bool) (l : list N) : list N := if second then drop 8 l else take 8 l.

(** The k-th ID (k = 0, 1, ...) of the key stream for cipher E and initial counter value c0. *)
Definition keystream_id (E : list N -> list N) (c0 : N) (k : nat) : N :=
  le_value (half (Nat.odd k) (E (be_bytes 16 ((c0 + N.of_nat (k / 2)) mod 2 ^ 128)))).
