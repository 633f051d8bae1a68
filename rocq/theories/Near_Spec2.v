(** The geodetic latitude: what C189 compares the latitudes of WGS84 coordinates with. *)
From Coq Require Import Reals.
From Verif Require Import Rot_Model Rot_Spec Geo_Model Geo_Spec.
Open Scope R_scope.

(** [latitude], in radians, is the angle between the vertical through [p] and the plane of the equator: the vertical is
    the normal of the ellipsoid at the point [f] that has [p] above it. *)
Definition geodetic_latitude (p : vec) (latitude : R) : Prop :=
  - (PI / 2) <= latitude <= PI / 2 /\
  exists f h k, above f h p /\ 0 <= h /\ 0 < k /\
    vz (gradient f) = k * sin latitude /\ sqrt (vx (gradient f) ^ 2 + vy (gradient f) ^ 2) = k * cos latitude.
