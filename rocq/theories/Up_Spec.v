(** The elevation above the true horizon: what C190 compares the elevations with. *)
From Coq Require Import Reals.
From Verif Require Import Rot_Model Rot_Spec Geo_Model Geo_Spec.
Open Scope R_scope.

(** Straight up at a location, the direction that its latitude (the angle between the vertical and the plane of the
    equator) and its longitude stand for. *)
Definition up (l : location) : vec := V (cos (lat_rad l) * cos (lon_rad l)) (cos (lat_rad l) * sin (lon_rad l)) (sin (lat_rad l)).
(** The elevation, in degrees, of a point above the plane through the location perpendicular to the vertical. *)
Definition true_elevation (l : location) (sat : vec) : R :=
  90 - acos (dot (sub sat (itrs_of l)) (up l) / norm (sub sat (itrs_of l))) * (180 / PI).
