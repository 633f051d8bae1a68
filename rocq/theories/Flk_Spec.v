(** Words for the clocks in floating point. *)
From Coq Require Import ZArith Reals.
From Flocq Require Import Core.Core IEEE754.BinarySingleNaN IEEE754.Binary IEEE754.Bits.
From Verif Require Import Py Fl_Model Fl_Spec Flc_Spec Time_Model Flk_Model.
Open Scope R_scope.

(** What is asked of numpy: tangents of arguments up to 1 with an error of [2 ^ -50] at most, and
    angles of points of the plane with the same error, the angles pi and - pi being the same. *)
Record accurate_more (B : more) : Prop := {
  np_tan_good : forall x, finite x -> Rabs (value x) <= 1 ->
    finite (n_tan B x) /\ Rabs (value (n_tan B x) - tan (value x)) <= / 2 ^ 50;
  np_arctan2_good : forall y x, finite y -> finite x -> value x <> 0 \/ value y <> 0 ->
    finite (n_arctan2 B y x) /\ Rabs (value (n_arctan2 B y x)) <= 22 / 7 /\
    apart_at_most (2 * PI) (/ 2 ^ 50) (value (n_arctan2 B y x)) (atan2 (value y) (value x))
}.
(** [x] is [r] reduced to a turn of [v] (360 degrees, 24 hours), with an error of [d] at most going
    round the circle; the rounding may give the end of the turn for its beginning. *)
Definition turned (d v r : R) (x : float) : Prop := finite x /\ 0 <= value x <= v /\ apart_at_most v d (value x) r.
