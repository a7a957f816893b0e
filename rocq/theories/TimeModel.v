(** Times as written and read by the code: time.RFC3339Nano. *)
From Verif Require Import Base.

(** A time.Time: civil date and time of day, nanoseconds, and offset from UTC in minutes (the code never
    looks at the zone's name or the monotonic clock).  Offsets that are not whole minutes are not modelled. *)
Record time := MkTime { t_year : N; t_month : N; t_day : N; t_hour : N; t_min : N; t_sec : N; t_ns : N; t_off : Z }.
(** time.Time{}: January 1, year 1, 00:00:00 UTC *)
Definition time_zero : time := MkTime 1 1 1 0 0 0 0 0.

Definition leap (y : N) : bool := (y mod 4 =? 0) && (negb (y mod 100 =? 0) || (y mod 400 =? 0)).
Definition days_in (y m : N) : N :=
  if m =? 2 then if leap y then 29 else 28
  else if (m =? 4) || (m =? 6) || (m =? 9) || (m =? 11) then 30 else 31.
(** Times that the format can write: four-digit years, offset below 24 hours. *)
Definition valid_time (t : time) : Prop :=
  t_year t < 10000 /\ 1 <= t_month t <= 12 /\ 1 <= t_day t <= days_in (t_year t) (t_month t) /\
  t_hour t < 24 /\ t_min t < 60 /\ t_sec t < 60 /\ t_ns t < 1000000000 /\ (-1440 < t_off t < 1440)%Z.

Definition digit (n : N) : ascii := ascii_of_N (48 + n).
Definition d2 (n : N) : string := String (digit (n / 10)) (String (digit (n mod 10)) "").
Definition d4 (n : N) : string := (d2 (n / 100) +:+ d2 (n mod 100))%string.
(** The fraction, without trailing zeros: n < 10^k. *)
Fixpoint frac (k : nat) (n : N) : string :=
  match k with
  | O => ""
  | S k => if n =? 0 then "" else String (digit (n / 10 ^ N.of_nat k)) (frac k (n mod 10 ^ N.of_nat k))
  end.
Definition fmt_off (o : Z) : string :=
  if (o =? 0)%Z then "Z"
  else String (if (o <? 0)%Z then "-"%char else "+"%char) (d2 (Z.to_N (Z.abs o) / 60) +:+ ":" +:+ d2 (Z.to_N (Z.abs o) mod 60)).
(** t.Format(time.RFC3339Nano) = "2006-01-02T15:04:05.999999999Z07:00" *)
Definition fmt_time (t : time) : string :=
  d4 (t_year t) +:+ "-" +:+ d2 (t_month t) +:+ "-" +:+ d2 (t_day t) +:+ "T" +:+
  d2 (t_hour t) +:+ ":" +:+ d2 (t_min t) +:+ ":" +:+ d2 (t_sec t) +:+
  (if t_ns t =? 0 then "" else "." +:+ frac 9 (t_ns t)) +:+ fmt_off (t_off t).

(** t.String() = t.Format("2006-01-02 15:04:05.999999999 -0700 MST").  The zone's name, which times do not have here, is "UTC" or,
    as for zones without one, the offset. *)
Definition off_text (o : Z) : string :=
  String (if (o <? 0)%Z then "-"%char else "+"%char) (d2 (Z.to_N (Z.abs o) / 60) +:+ d2 (Z.to_N (Z.abs o) mod 60)).
Definition time_string (t : time) : string :=
  d4 (t_year t) +:+ "-" +:+ d2 (t_month t) +:+ "-" +:+ d2 (t_day t) +:+ " " +:+
  d2 (t_hour t) +:+ ":" +:+ d2 (t_min t) +:+ ":" +:+ d2 (t_sec t) +:+
  (if t_ns t =? 0 then "" else "." +:+ frac 9 (t_ns t)) +:+ " " +:+ off_text (t_off t) +:+ " " +:+ (if (t_off t =? 0)%Z then "UTC" else off_text (t_off t)).

(** time.Parse(time.RFC3339Nano, s).  A strict reading: Go releases differ on what else they accept
    (one-digit hours, a comma before the fraction). *)
Definition get_digit (s : string) : option (N * string) :=
  match s with
  | String c r => let d := N_of_ascii c in if (48 <=? d) && (d <=? 57) then Some (d - 48, r) else None
  | "" => None
  end.
Definition get2 (s : string) : option (N * string) :=
  match get_digit s with
  | Some (a, r) => match get_digit r with Some (b, r) => Some (10 * a + b, r) | None => None end
  | None => None
  end.
Definition get4 (s : string) : option (N * string) :=
  match get2 s with
  | Some (a, r) => match get2 r with Some (b, r) => Some (100 * a + b, r) | None => None end
  | None => None
  end.
Definition expect (c : ascii) (s : string) : option string :=
  match s with String d r => if Ascii.eqb c d then Some r else None | "" => None end.
(** Digits of a fraction; those after the ninth are ignored. *)
Fixpoint get_frac (k : nat) (s : string) : N * string :=
  match s with
  | String c r =>
      let d := N_of_ascii c in
      if (48 <=? d) && (d <=? 57) then
        match k with
        | O => get_frac O r
        | S k => let (v, r) := get_frac k r in ((d - 48) * 10 ^ N.of_nat k + v, r)
        end
      else (0, s)
  | "" => (0, s)
  end.
Definition get_ns (s : string) : option (N * string) :=
  match s with
  | String c r => if Ascii.eqb c "." then match get_digit r with Some _ => Some (get_frac 9 r) | None => None end else Some (0, s)
  | "" => Some (0, s)
  end.
Definition get_off (s : string) : option Z :=
  match s with
  | String c r =>
      if Ascii.eqb c "Z" then match r with "" => Some 0%Z | _ => None end
      else if Ascii.eqb c "+" || Ascii.eqb c "-" then
        match get2 r with
        | Some (h, r) => match expect ":" r with
            | Some r => match get2 r with
                | Some (m, "") => if (24 <=? h) || (60 <=? m) then None
                                  else Some (if Ascii.eqb c "-" then - Z.of_N (60 * h + m) else Z.of_N (60 * h + m))%Z
                | _ => None
                end
            | None => None
            end
        | None => None
        end
      else None
  | "" => None
  end.
Definition parse_time (s : string) : option time :=
  '(y, s) ← get4 s; s ← expect "-" s; '(mo, s) ← get2 s; s ← expect "-" s; '(d, s) ← get2 s; s ← expect "T" s;
  '(h, s) ← get2 s; s ← expect ":" s; '(mi, s) ← get2 s; s ← expect ":" s; '(sec, s) ← get2 s;
  '(ns, s) ← get_ns s; o ← get_off s;
  if (mo <? 1) || (12 <? mo) || (d <? 1) || (days_in y mo <? d) || (24 <=? h) || (60 <=? mi) || (60 <=? sec) then None
  else Some (MkTime y mo d h mi sec ns o).
