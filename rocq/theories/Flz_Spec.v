(** Words for satellites given in the GCRS frame, in floating point. *)
From Coq Require Import List Reals.
From Verif Require Import Py Fl_Model Fl_Spec Flg_Model Flg_Spec Flc_Spec Flr_Model Flr_Spec Rot_Model Rot_Spec Geo_Model Vtw_Model.
Open Scope R_scope.

(** A point given by real numbers in a unit of length, in kilometres. *)
Definition in_km (unit : unit_name) (v : vec) : vec := V (vx v * size unit / 1000) (vy v * size unit / 1000) (vz v * size unit / 1000).
(** [sat] is where the exact conversion to the ITRS frame puts a point of the GCRS frame, in kilometres. *)
Definition placed (unit : unit_name) (jd : float) (v : fvec) (sat : vec) : Prop :=
  exists itrs, gcrs_to_itrs (one_row jd v unit) = Ok itrs /\ sat = in_km unit (point itrs 0).
(** A sensible point of the GCRS frame: finite coordinates in a unit of length, and a distance from
    the centre of the Earth between two bounds, in kilometres. *)
Definition within_km (low high : R) (unit : unit_name) (v : fvec) : Prop :=
  measures unit = Lengths /\ finite (fx v) /\ finite (fy v) /\ finite (fz v) /\ low <= norm (exact_km unit v) <= high.

(** The exact elevation of the [i]-th point above a location, in degrees, if there is such a point. *)
Definition gcrs_elevation (l : flocation) (unit : unit_name) (julian : list float) (points : list fvec) (i : nat) (e : R) : Prop :=
  exists jd p sat, nth_error julian i = Some jd /\ nth_error points i = Some p /\ placed unit jd p sat /\
    e = elevation_of (itrs_of (exact_location l)) sat.
(** Every point is a sensible satellite, at least 101 km away from the location at its time. *)
Definition all_sensible (l : flocation) (unit : unit_name) (julian : list float) (points : list fvec) : Prop :=
  forall i jd p, nth_error julian i = Some jd -> nth_error points i = Some p ->
    within_km 1000 900000 unit p /\ forall sat, placed unit jd p sat -> 101 <= norm (from_to (itrs_of (exact_location l)) sat).
(** The Sun is, and may be, where it should be: up to a tolerance either way. *)
Definition sun_surely (e : R) (light : lighting) (tolerance : R) : Prop :=
  match light with
  | Night => e < - tolerance /\ -90 + tolerance < e
  | Anytime => True
  | Daytime => tolerance < e /\ e < 90 - tolerance
  | OtherLight => False
  end.
Definition sun_possibly (e : R) (light : lighting) (tolerance : R) : Prop :=
  match light with
  | Night => e < tolerance
  | Anytime => True
  | Daytime => - tolerance < e
  | OtherLight => False
  end.
