(** The distance from a point to the WGS84 ellipsoid: what C185 compares the altitudes with. *)
From Coq Require Import Reals.
From Verif Require Import Rot_Model Rot_Spec Geo_Model Geo_Spec.
Open Scope R_scope.

(** The distance between two points. *)
Definition apart (u v : vec) : R := sqrt ((vx u - vx v) ^ 2 + (vy u - vy v) ^ 2 + (vz u - vz v) ^ 2).
(** [d] is the distance from [v] to the nearest point of the ellipsoid. *)
Definition distance_to_ellipsoid (v : vec) (d : R) : Prop :=
  (exists f, on_ellipsoid f /\ apart v f = d) /\ forall g, on_ellipsoid g -> d <= apart v g.
