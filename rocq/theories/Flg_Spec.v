(** Words for the geometry of floating-point positions. *)
From Coq Require Import ZArith Reals.
From Flocq Require Import Core.Core IEEE754.BinarySingleNaN IEEE754.Binary IEEE754.Bits.
From Verif Require Import Py Fl_Model Fl_Spec Flg_Model Rot_Model Rot_Spec Geo_Model Flc_Spec.
Open Scope R_scope.

(** The vector a vector of floats stands for. *)
Definition vector (v : fvec) : vec := V (value (fx v)) (value (fy v)) (value (fz v)).
Definition finite_vec (v : fvec) : Prop := finite (fx v) /\ finite (fy v) /\ finite (fz v).
(** Not-a-number. *)
Definition is_NaN (x : float) : Prop := is_nan 53 1024 x = true.

(** The angle between two vectors, in radians, and an angle in degrees. *)
Definition angle (u v : vec) : R := acos (dot u v / (norm u * norm v)).
Definition in_degrees (a : R) : R := a * (180 / PI).

(** What is asked of the mathematics library: for sine, cosine and arc cosine an error of about
    one unit in the last place of the largest result, not-a-number for the arc cosine of numbers
    outside [[-1, 1]], an error of one unit for squares, and a dot product with the usual error
    bound of a sum of three products, in any order, fused or not. *)
Record accurate (M : maths) : Prop := {
  cos_good : forall x, finite x -> Rabs (value x) <= 10 ->
    finite (m_cos M x) /\ Rabs (value (m_cos M x) - cos (value x)) <= / 2 ^ 52;
  sin_good : forall x, finite x -> Rabs (value x) <= 10 ->
    finite (m_sin M x) /\ Rabs (value (m_sin M x) - sin (value x)) <= / 2 ^ 52;
  square_good : forall x, finite x -> Rabs (value x) <= 3 / 2 ->
    finite (m_square M x) /\ Rabs (value (m_square M x) - value x ^ 2) <= / 2 ^ 51;
  arccos_good : forall x, finite x -> Rabs (value x) <= 1 ->
    finite (m_arccos M x) /\ Rabs (value (m_arccos M x) - acos (value x)) <= / 2 ^ 50;
  arccos_domain : forall x, finite x -> 1 < Rabs (value x) -> is_NaN (m_arccos M x);
  dot_good : forall u v, finite_vec u -> finite_vec v -> norm (vector u) <= 2 ^ 100 -> norm (vector v) <= 2 ^ 100 ->
    finite (m_dot M u v) /\
    Rabs (value (m_dot M u v) - dot (vector u) (vector v)) <= 4 / 2 ^ 53 * (norm (vector u) * norm (vector v)) + / 2 ^ 1000
}.

(** A location given by floats, as the exact model of Geo_Model.v sees it: its position is
    [itrs_of], vertically above the ellipsoid (C60). *)
Definition exact_location (l : flocation) : location :=
  Location (value (fl_latitude l)) (value (fl_longitude l)) (value (fl_height l)) (size (fl_angle l)) (size (fl_length l)).
(** A sensible location: a latitude of at most 90 degrees and a longitude of at most 180 degrees
    either way, in any unit of angle, and a height of at most 1000 km either way, in any unit
    of length. *)
Definition on_earth (l : flocation) : Prop :=
  moderate (fl_latitude l) /\ moderate (fl_longitude l) /\ moderate (fl_height l) /\
  measures (fl_angle l) = Angles /\ measures (fl_length l) = Lengths /\
  Rabs (value (fl_latitude l) * size (fl_angle l)) <= 90 /\
  Rabs (value (fl_longitude l) * size (fl_angle l)) <= 180 /\
  Rabs (value (fl_height l) * size (fl_length l)) <= 1000 * 1000.
(** A position given by floats in a unit of length, in kilometres, and a sensible one: between
    one and a million kilometres from the centre of the Earth. *)
Definition exact_km (unit : unit_name) (p : fvec) : vec :=
  V (value (fx p) * size unit / 1000) (value (fy p) * size unit / 1000) (value (fz p) * size unit / 1000).
Definition in_orbit (unit : unit_name) (p : fvec) : Prop :=
  measures unit = Lengths /\ finite (fx p) /\ finite (fy p) /\ finite (fz p) /\ 1 <= norm (exact_km unit p) <= 1000000.
(** The vector from one point to another. *)
Definition from_to (a b : vec) : vec := V (vx b - vx a) (vy b - vy a) (vz b - vz a).
(** The elevation, in degrees, of a point seen from another: 90 degrees less the angle between
    the direction to it and the direction from the centre of the Earth. *)
Definition elevation_of (ground sat : vec) : R := 90 - in_degrees (angle (from_to ground sat) ground).
(** The angle, in degrees, at the satellite between the direction to the ground and the direction
    to the centre of the Earth. *)
Definition look_angle_of (ground sat : vec) : R := in_degrees (angle (from_to sat ground) (from_to sat (V 0 0 0))).

(** The best mathematics library: every function correctly rounded. *)
Definition nearest_float (x : float) (r : R) : Prop := finite x /\ value x = nearest r.
Record rounded (M : maths) : Prop := {
  cos_nearest : forall x, finite x -> nearest_float (m_cos M x) (cos (value x));
  sin_nearest : forall x, finite x -> nearest_float (m_sin M x) (sin (value x));
  square_nearest : forall x, finite x -> Rabs (value x) <= 3 / 2 -> nearest_float (m_square M x) (value x ^ 2);
  arccos_nearest : forall x, finite x -> Rabs (value x) <= 1 -> nearest_float (m_arccos M x) (acos (value x));
  arccos_outside : forall x, finite x -> 1 < Rabs (value x) -> is_NaN (m_arccos M x);
  dot_plain : forall u v, m_dot M u v = fdot u v }.
