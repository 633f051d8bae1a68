(** Words for the frame of a satellite and for its attitude. *)
From Coq Require Import List Reals.
From Verif Require Import Num Rot_Model Rot_Spec Geo_Spec Lvlh_Model.
Import ListNotations.
Open Scope R_scope.

(** The vector product. *)
Definition product (u v : vec) : vec :=
  V (vy u * vz v - vz u * vy v) (vz u * vx v - vx u * vz v) (vx u * vy v - vy u * vx v).
Definition unit_of (v : vec) : vec := times (/ norm v) v.
(** The axes of a satellite at [r] moving with velocity [w]: towards the centre of the
    Earth, against the angular momentum, and the third axis of a right-handed triple (close
    to the direction of motion). *)
Definition down (r : vec) : vec := opposite (unit_of r).
Definition right (r w : vec) : vec := opposite (unit_of (product r w)).
Definition forward (r w : vec) : vec := product (right r w) (down r).
(** The coordinates of a direction along them. *)
Definition on_axes (r w d : vec) : vec := V (dot (forward r w) d) (dot (right r w) d) (dot (down r) d).
Definition nadir : vec := V 0 0 1.

(** A matrix that keeps products and orientation. *)
Definition rotation (m : mat) : Prop :=
  (forall a b, dot (mat_vec m a) (mat_vec m b) = dot a b) /\
  (forall a b c, volume (mat_vec m a) (mat_vec m b) (mat_vec m c) = volume a b c).

(** The [i]-th point of an LVLH object. *)
Definition lvlh_point {U} (l : lvlh U) (i : nat) : nvec :=
  NV (nth i (l_x l) NaN) (nth i (l_y l) NaN) (nth i (l_z l) NaN).
Definition numbers (v : vec) : nvec := NV (Fin (vx v)) (Fin (vy v)) (Fin (vz v)).

(** The direction cosine matrix of the Euler 2-1-3 sequence (pitch, roll, yaw) in the work
    the code cites. *)
Definition euler_213 (roll pitch yaw : R) : mat :=
  M (V (cos yaw * cos pitch + sin yaw * sin roll * sin pitch) (sin yaw * cos roll) (- cos yaw * sin pitch + sin yaw * sin roll * cos pitch))
    (V (- sin yaw * cos pitch + cos yaw * sin roll * sin pitch) (cos yaw * cos roll) (sin yaw * sin pitch + cos yaw * sin roll * cos pitch))
    (V (cos roll * sin pitch) (- sin roll) (cos roll * cos pitch)).

(** Turning a vector about an axis by the right-hand rule. *)
Definition turn_about_x (a : R) (v : vec) : vec := V (vx v) (cos a * vy v - sin a * vz v) (sin a * vy v + cos a * vz v).
Definition turn_about_y (a : R) (v : vec) : vec := V (cos a * vx v + sin a * vz v) (vy v) (cos a * vz v - sin a * vx v).
Definition turn_about_z (a : R) (v : vec) : vec := V (cos a * vx v - sin a * vy v) (sin a * vx v + cos a * vy v) (vz v).
