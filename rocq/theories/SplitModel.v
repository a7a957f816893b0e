(** Model of randomSplit, cmd/appdash/sample_data.go. *)
From Verif Require Import Base.
Local Open Scope Z_scope.

(** Go's int is 64 bits wide and wraps around. *)
Definition wrap64 (z : Z) : Z := (z + 9223372036854775808) mod 18446744073709551616 - 9223372036854775808.

(** sample_data.go:26-30, the loop from i on; [draw i r] is what the i-th call rand.Intn(r) returns, and [None] is its
    panic at r <= 0.  [fuel] is n - i, the number of rounds left.  Go's / truncates. *)
Fixpoint split_loop (draw : Z -> Z -> Z) (value n : Z) (fuel : nat) (i sum : Z) (segments : list Z) : option (list Z) :=
  match fuel with
  | O => Some (segments ++ [wrap64 (value - sum)])
  | S fuel =>
      let r := wrap64 (wrap64 (wrap64 (value - sum) ÷ (n - i)) + 1) in
      if r <=? 0 then None
      else let s := draw i r in split_loop draw value n fuel (i + 1) (wrap64 (sum + s)) (segments ++ [s])
  end.
(** sample_data.go:21-32 randomSplit; make([]int, 0, n) panics at a negative n. *)
Definition random_split (draw : Z -> Z -> Z) (value n : Z) : option (list Z) :=
  if n <? 0 then None else split_loop draw value n (Z.to_nat (n - 1)) 1 0 [].
