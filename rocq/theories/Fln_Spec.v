(** Words for the conversions between WGS84 and ITRS in floating point. *)
From Coq Require Import ZArith Reals.
From Flocq Require Import Core.Core IEEE754.BinarySingleNaN IEEE754.Binary IEEE754.Bits.
From Verif Require Import Py Fl_Model Fl_Spec Flg_Model Flg_Spec Rot_Model Rot_Spec Geo_Spec.
Open Scope R_scope.

(** [angle] is a longitude of the point: the direction in which it is seen from the axis. *)
Definition at_longitude (angle : R) (v : vec) : Prop :=
  vx v = sqrt (vx v ^ 2 + vy v ^ 2) * cos angle /\ vy v = sqrt (vx v ^ 2 + vy v ^ 2) * sin angle.
(** What is asked of [np.arctan2]: an angle between [-PI] and [PI], up to two units in the last place. *)
Definition accurate_arctan2 (f : float -> float -> float) : Prop :=
  forall y x, finite y -> finite x -> / 2 ^ 100 <= Rabs (value x) + Rabs (value y) <= 2 ^ 100 ->
    finite (f y x) /\ exists angle, - PI <= angle <= PI /\ Rabs (value (f y x) - angle) <= / 2 ^ 50 /\ at_longitude angle (V (value x) (value y) 0).
(** Angles and heights of a point on or around the Earth, up to 100000 km from it, in any units. *)
Definition around_earth (latitude longitude height : float) (angle length : unit_name) : Prop :=
  moderate latitude /\ moderate longitude /\ moderate height /\ measures angle = Angles /\ measures length = Lengths /\
  Rabs (value latitude * size angle) <= 90 /\ Rabs (value longitude * size angle) <= 180 /\
  Rabs (value height * size length) <= 100000 * 1000.
(** The vertical at a latitude and a longitude (radians): the direction that makes the angle
    [latitude] with the plane of the equator. *)
Definition up (latitude longitude : R) : vec := V (cos latitude * cos longitude) (cos latitude * sin longitude) (sin latitude).
(** [foot] is the point of the ellipsoid with this geodetic latitude and longitude: the vertical is
    normal to the ellipsoid there. *)
Definition foot_at (latitude longitude : R) (foot : vec) : Prop := on_ellipsoid foot /\ same_direction (gradient foot) (up latitude longitude).
(** The three numbers that describe a place. *)
Record geodetic := Geodetic { latitude_of : float; longitude_of : float; height_of : float }.
(** The angles in radians and the height in kilometres that the inputs stand for. *)
Definition radians (angle : unit_name) (x : float) : R := value x * size angle / 57.29577951308232.
Definition km (length : unit_name) (x : float) : R := value x * size length / 1000.
(** A place from the equator to 89.9 degrees north or south, not below the ellipsoid. *)
Definition ordinary_place (angle length : unit_name) (q : geodetic) : Prop :=
  around_earth (latitude_of q) (longitude_of q) (height_of q) angle length /\
  Rabs (value (latitude_of q) * size angle) <= 89.9 /\ 0 <= km length (height_of q) <= 90000.
