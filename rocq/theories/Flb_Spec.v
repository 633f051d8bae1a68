(** Words for radii and azimuths in floating point. *)
From Coq Require Import ZArith Reals.
From Flocq Require Import Core.Core IEEE754.BinarySingleNaN IEEE754.Binary IEEE754.Bits.
From Verif Require Import Py Fl_Model Fl_Spec Flg_Model Flg_Spec Rot_Model Rot_Spec Geo_Spec Fln_Spec.
Open Scope R_scope.

(** What is asked of [x ** 2] for a Python float: two units in the last place. *)
Definition accurate_square (square : float -> float) : Prop :=
  forall x, finite x -> Rabs (value x) <= 2 ^ 100 ->
    finite (square x) /\ Rabs (value (square x) - value x ^ 2) <= / 2 ^ 51 * value x ^ 2 + / 2 ^ 1000.
(** The latitude and the longitude of a location, in radians. *)
Definition latitude_at (l : flocation) : R := radians (fl_angle l) (fl_latitude l).
Definition longitude_at (l : flocation) : R := radians (fl_angle l) (fl_longitude l).
(** About a degree away from the equator and from the poles. *)
Definition mid_latitude (l : flocation) : Prop :=
  1 / 60 <= Rabs (sin (latitude_at l)) /\ 1 / 60 <= cos (latitude_at l).
