(** The calendars, by counting days one at a time. *)
From Coq Require Import List ZArith QArith Qround Bool.
Import ListNotations.
Open Scope Z_scope.

Record date := mkDate { year : Z; month : Z; day : Z }.

(** Leap years of the two calendars (year 0 is 1 BC). *)
Definition julian_leap (y : Z) : bool := y mod 4 =? 0.
Definition gregorian_leap (y : Z) : bool :=
  (y mod 4 =? 0) && (negb (y mod 100 =? 0) || (y mod 400 =? 0)).

Definition month_length (leap : Z -> bool) (y m : Z) : Z :=
  nth (Z.to_nat (m - 1)) [31; if leap y then 29 else 28; 31; 30; 31; 30; 31; 31; 30; 31; 30; 31] 0.

(** The date exists. *)
Definition valid (leap : Z -> bool) (t : date) : Prop :=
  1 <= month t <= 12 /\ 1 <= day t <= month_length leap (year t) (month t).

(** The day after. *)
Definition next_day (leap : Z -> bool) (t : date) : date :=
  if day t <? month_length leap (year t) (month t) then mkDate (year t) (month t) (day t + 1)
  else if month t <? 12 then mkDate (year t) (month t + 1) 1
  else mkDate (year t + 1) 1 1.
Definition days_later (leap : Z -> bool) (n : Z) (t : date) : date :=
  Nat.iter (Z.to_nat n) (next_day leap) t.

(** The date at noon of which the Julian date is [n].  Julian date 0 is noon of 1 January
    4713 BC of the Julian calendar; the Gregorian calendar started on 15 October 1582, whose
    noon has the Julian date 2299161. *)
Definition julian_date (n : Z) : date := days_later julian_leap n (mkDate (-4712) 1 1).
Definition first_gregorian : Z := 2299161.
Definition gregorian_date (n : Z) : date :=
  days_later gregorian_leap (n - first_gregorian) (mkDate 1582 10 15).

(** The day (from midnight to midnight) containing the Julian date [jd], by its noon; and
    the part of that day gone. *)
Definition day_containing (jd : Q) : Z := Qfloor (jd + (1 # 2)).
Definition part_of_day (jd : Q) : Q := jd + (1 # 2) - inject_Z (day_containing jd).

(** The position of a date in its year. *)
Definition day_in_year (leap : Z -> bool) (t : date) : Z :=
  fold_left Z.add (map (fun m => month_length leap (year t) (Z.of_nat m)) (seq 1 (Z.to_nat (month t - 1)))) (day t).

(** The days on which celest's calendar is one day behind: the first days of March of the
    century years that are not leap years.  In year [100 c] they are about [3 (c - 4) / 4]
    days. *)
Definition behind (n : Z) : Prop :=
  exists c first, c mod 4 <> 0 /\ first_gregorian <= first <= n /\
    gregorian_date first = mkDate (100 * c) 3 1 /\
    4 * (n - first) + 3 - c mod 4 < 3 * (c - 4).
