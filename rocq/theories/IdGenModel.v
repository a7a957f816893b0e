(** Model of the ID generator, id.go:53-102. *)
From Verif Require Import Base.

(** id.go:81-87 the package variables ctr, n, b (c is the cipher argument below). *)
Record gen_state := GS { g_ctr : list N; g_n : nat; g_b : list N }.

(** id.go:62-67: increment of the counter bytes from the last one; here on the reversed
    (least significant byte first) list. [ctr[i]++] wraps modulo 256. *)
Fixpoint inc_lsb_first (l : list N) : list N :=
  match l with
  | [] => []
  | x :: l' =>
      let x' := (x + 1) mod 256 in
      if x' =? 0 then x' :: inc_lsb_first l' else x' :: l'
  end.
Definition ctr_inc (l : list N) : list N := rev (inc_lsb_first (rev l)).

(** id.go:70 (unsafe read at &b[n]): eight bytes read as a native-endian word.
    Modelled as little-endian (amd64, arm64). *)
Fixpoint le_word (l : list N) : N :=
  match l with [] => 0 | x :: l' => x + 256 * le_word l' end.

(** id.go:58-74 generateID; [E] is c.Encrypt (AES-128 under the random key). The mutex makes
    the whole body one atomic step. *)
Definition generate_id (E : list N -> list N) (st : gen_state) : gen_state * N :=
  let st := if Nat.eqb (g_n st) 16
            then GS (ctr_inc (g_ctr st)) 0 (E (g_ctr st))
            else st in
  (GS (g_ctr st) (g_n st + 8) (g_b st), le_word (take 8 (drop (g_n st) (g_b st)))).

(** id.go:89-102 init: the counter is random, n = BlockSize, b = 16 zero bytes. *)
Definition gen_init (ctr0 : list N) : gen_state := GS ctr0 16 (replicate 16 0).

(** A schedule lists which goroutine obtains the lock next; the result pairs each
    goroutine with the ID it received. *)
Fixpoint gen_run (E : list N -> list N) (st : gen_state) (sched : list nat) : list (nat * N) :=
  match sched with
  | [] => []
  | g :: sched' => let '(st', i) := generate_id E st in (g, i) :: gen_run E st' sched'
  end.
