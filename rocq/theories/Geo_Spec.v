(** Words for positions on and above the Earth. *)
From Coq Require Import List Reals.
From Verif Require Import Num Rot_Model Rot_Spec.
Import ListNotations.
Open Scope R_scope.

(** The axes of the WGS84 ellipsoid, in km. *)
Definition wgs84_a : R := 6378.137.
Definition wgs84_b : R := 6356.752314245.
Definition on_ellipsoid (f : vec) : Prop := (vx f ^ 2 + vy f ^ 2) / wgs84_a ^ 2 + vz f ^ 2 / wgs84_b ^ 2 = 1.
(** The gradient of the left-hand side, up to a factor 2: it is normal to the surface. *)
Definition gradient (f : vec) : vec := V (vx f / wgs84_a ^ 2) (vy f / wgs84_a ^ 2) (vz f / wgs84_b ^ 2).
Definition plus (u v : vec) : vec := V (vx u + vx v) (vy u + vy v) (vz u + vz v).
Definition times (k : R) (v : vec) : vec := V (k * vx v) (k * vy v) (k * vz v).
(** [p] is at height [h] vertically above the point [f] of the ellipsoid. *)
Definition above (f : vec) (h : R) (p : vec) : Prop :=
  on_ellipsoid f /\ p = plus f (times (h / norm (gradient f)) (gradient f)).
(** Not on the axis of the Earth. *)
Definition off_axis (p : vec) : Prop := vx p <> 0 \/ vy p <> 0.

(** A position in kilometres. *)
Definition in_km (times : list R) (l : list vec) : position R :=
  Position times (map vx l) (map vy l) (map vz l) 1000.
Definition same_direction (u v : vec) : Prop := exists k, 0 < k /\ u = times k v.
(** The [i]-th point of a position in kilometres, whatever its unit. *)
Definition kilometres (p : position R) (i : nat) : vec := times (p_unit p / 1000) (point p i).
(** A rotation about the axis of the Earth. *)
Definition turned (angle : R) (v : vec) : vec :=
  V (cos angle * vx v - sin angle * vy v) (sin angle * vx v + cos angle * vy v) (vz v).
(** The point with the opposite latitude. *)
Definition mirrored (v : vec) : vec := V (vx v) (vy v) (- vz v).
(** Off the axis and not inside the Earth. *)
Definition outside (v : vec) : Prop := off_axis v /\ wgs84_b <= norm v.
(** The directions at a point with the given latitude and longitude (radians). *)
Definition east (longitude : R) : vec := V (- sin longitude) (cos longitude) 0.
Definition opposite (v : vec) : vec := times (-1) v.
Definition zero : vec := V 0 0 0.
