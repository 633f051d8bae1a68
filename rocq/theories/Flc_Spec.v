(** Words for the calendar and the clock in floating point. *)
From Coq Require Import List ZArith QArith Qreals Reals.
From Flocq Require Import Core.Core IEEE754.BinarySingleNaN IEEE754.Binary IEEE754.Bits.
From Verif Require Import Py Fl_Model Fl_Spec.
Open Scope R_scope.

(** A float that is a Julian date of the years 1029 to 6771, at least a day before the end. *)
Definition dated (x : float) : Prop := finite x /\ 2097152 <= value x < 4194303.
(** The float is the rational number [q], exactly. *)
Definition is_exactly (x : float) (q : Q) : Prop := finite x /\ value x = Q2R q.

(** [r] is what is left of [x] after taking away a whole number of [m]. *)
Definition left_over (x m r : R) : Prop := 0 <= r < m /\ exists k : Z, x = r + IZR k * m.
(** The float nearest to a real number (a tie goes to the even one). *)
Definition nearest (x : R) : R := round radix2 (FLT_exp (-1074) 53) ZnearestE x.
(** Two angles (or times of day) [a] and [b] are [d] apart at most, going round a circle of
    [m]. *)
Definition apart_at_most (m d a b : R) : Prop := exists k : Z, Rabs (a - b - IZR k * m) <= d.
