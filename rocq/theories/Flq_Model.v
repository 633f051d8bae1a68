(** Model of what is measured of a place given by its latitude, longitude and height (an aircraft, a
    satellite), in binary64 floating point: celest/coordinates/coordinate.py turns it into the ITRS
    frame, celest/coordinates/transforms.py and celest/satellite.py measure it from a location.

    Simplifications: one place; the same unit of angle for the latitude and the longitude; the
    azimuth is Flb_Model.v's. *)
From Verif Require Import Py Fl_Model Flg_Model Flr_Model Fly_Model Fln_Model.

(** celest/coordinates/coordinate.py:119-128 with [frame] AzEl: the elevation, in degrees *)
Definition fplace_elevation (L : arrays) (J : geodesy) (M : maths) (l : flocation) (latitude longitude height : float) (angle length : unit_name) : res float :=
  itrs_position <- fwgs84_to_itrs L J latitude longitude height angle length ;;
  felevation M l Ukm itrs_position.
(** celest/coordinates/coordinate.py:119-123 with [frame] ITRS and celest/satellite.py:66-67, 201-221: the
    distance, in km *)
Definition fplace_distance (L : arrays) (J : geodesy) (M : maths) (l : flocation) (latitude longitude height : float) (angle length : unit_name) : res float :=
  itrs_position <- fwgs84_to_itrs L J latitude longitude height angle length ;;
  fdistance M l Ukm itrs_position.
(** celest/coordinates/coordinate.py:119-123 with [frame] ITRS and celest/satellite.py:66-67, 223-253: the
    look angle, in degrees *)
Definition fplace_look_angle (L : arrays) (J : geodesy) (M : maths) (l : flocation) (latitude longitude height : float) (angle length : unit_name) : res float :=
  itrs_position <- fwgs84_to_itrs L J latitude longitude height angle length ;;
  flook_angle M l Ukm itrs_position.
