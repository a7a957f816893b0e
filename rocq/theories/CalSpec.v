(** The calendar: which second comes after which. *)
From Verif Require Import Base TimeModel.

(** Lengths of months in the Gregorian calendar. *)
Definition month_length (y m : N) : N :=
  match m with
  | 2 => if decide (y mod 4 = 0 /\ (y mod 100 <> 0 \/ y mod 400 = 0)) then 29 else 28
  | 4 | 6 | 9 | 11 => 30
  | _ => 31
  end.
(** The second after the given one, on the same clock. *)
Definition next_second (t : time) : time :=
  let '(MkTime y mo d h mi s ns o) := t in
  if decide (s < 59) then MkTime y mo d h mi (s + 1) ns o
  else if decide (mi < 59) then MkTime y mo d h (mi + 1) 0 ns o
  else if decide (h < 23) then MkTime y mo d (h + 1) 0 0 ns o
  else if decide (d < month_length y mo) then MkTime y mo (d + 1) 0 0 0 ns o
  else if decide (mo < 12) then MkTime y (mo + 1) 1 0 0 0 ns o
  else MkTime (y + 1) 1 1 0 0 0 ns o.
