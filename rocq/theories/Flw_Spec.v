(** Words for windows in floating point. *)
From Coq Require Import List Reals Arith.
From Verif Require Import Py Fl_Model Fl_Spec Flg_Model Flg_Spec Rot_Model Rot_Spec Geo_Model Vtw_Model.
Open Scope R_scope.

(** The elevation of the [i]-th point above a location, in degrees, if there is such a point. *)
Definition elevation_is (l : flocation) (unit : unit_name) (points : list fvec) (i : nat) (e : R) : Prop :=
  exists p, nth_error points i = Some p /\ e = elevation_of (itrs_of (exact_location l)) (exact_km unit p).
(** The Sun is where it should be at the [i]-th sample. *)
Definition sun_right (sun : list float) (light : lighting) (i : nat) : Prop :=
  exists x, nth_error sun i = Some x /\
  match light with
  | Night => value x < 0
  | Anytime => True
  | Daytime => 0 < value x
  | OtherLight => False
  end.
(** Every point is a sensible satellite, at least 100 km away from the location. *)
Definition all_far (l : flocation) (unit : unit_name) (points : list fvec) : Prop :=
  forall p, In p points -> in_orbit unit p /\ 100 <= norm (from_to (itrs_of (exact_location l)) (exact_km unit p)).
