(** Words for floating-point results. *)
From Coq Require Import ZArith Reals.
From Flocq Require Import Core.Core IEEE754.BinarySingleNaN IEEE754.Binary IEEE754.Bits.
From Verif Require Import Py Fl_Model.
Open Scope R_scope.

(** The real number a float stands for. *)
Definition value (x : float) : R := B2R 53 1024 x.
Definition finite (x : float) : Prop := is_finite 53 1024 x = true.

(** The size of a unit in its base unit, as documented. *)
Definition size (a : unit_name) : R :=
  match a with
  | Um | Us | Ujd2000 | Udeg => 1
  | Umm => 1 / 1000 | Ucm => 1 / 100 | Ukm => 1000
  | Uinch => 254 / 10000 | Uft => 305 / 1000 | Uyd => 914 / 1000 | Umi => 1609344 / 1000
  | Umin => 60 | Uhr => 3600 | Udy => 86400
  | Urad => 5729577951308232 / 100000000000000
  | Uarcsec => 1 / 3600 | Uarcmin => 1 / 60 | Uhourangle => 15
  end.
(** What a unit measures. *)
Inductive measured := Lengths | Times | Dates | Angles.
Definition measures (a : unit_name) : measured :=
  match a with
  | Um | Umm | Ucm | Ukm | Uinch | Uft | Uyd | Umi => Lengths
  | Us | Umin | Uhr | Udy => Times
  | Ujd2000 => Dates
  | Udeg | Urad | Uarcsec | Uarcmin | Uhourangle => Angles
  end.
(** The physical size of the quantity [x a]. *)
Definition physical (x : float) (a : unit_name) : R := value x * size a.

(** A finite float of moderate size: zero, or of absolute value between [2 ^ -900] and
    [2 ^ 900] (about [1e-271] and [1e271]). *)
Definition moderate (x : float) : Prop :=
  finite x /\ (value x = 0 \/ / 2 ^ 900 <= Rabs (value x) <= 2 ^ 900).

(** A float that is a Julian date of the years 1029 to 6771. *)
Definition julian_date (t : float) : Prop := finite t /\ 2097152 <= value t < 4194304.
(** A float that is a duration of up to 70000 days. *)
Definition some_days (d : float) : Prop := finite d /\ 0 <= value d <= 70000.

(** How long the intervals [[s, s + d]] and [[t, t + e]] overlap (negative: how far apart they
    are). *)
Definition overlap (s d t e : R) : R := Rmin (s + d) (t + e) - Rmax s t.

(** The duration [dur] in seconds, in days. *)
Definition real_days (dur : float) : R := value dur / 86400.
(** A float that is a duration in seconds of up to 65536 days, not absurdly small. *)
Definition some_seconds (dur : float) : Prop := moderate dur /\ 0 <= value dur <= 65536 * 86400.
(** One unit of the last place of a Julian date, about 40 microseconds. *)
Definition tick : R := / 2 ^ 31.

(** The quality of a start before rounding down: 10 in the middle of the window, 1 at its
    ends. *)
Definition exact_quality (rise set start : R) : R :=
  10 - 9 * Rabs (start - (rise + set) / 2) / ((set - rise) / 2).
