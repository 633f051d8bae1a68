(** Model of celest/encounter/window_generator.py on satellites and ground locations: the
    same function as in Vtw_Model.v, here from positions and times to windows, through the
    conversions of Rot_Model.v, Geo_Model.v and Lvlh_Model.v.

    Simplifications: as there (real numbers, no rounding).  The JPL ephemeris is an
    arbitrary function [sun] giving the geocentric position of the Sun, in kilometres and in
    the GCRS frame, at a Julian date. *)
From Coq Require Import List Reals ZArith Arith Bool.
From Verif Require Import Py Num Time_Model Rot_Model Geo_Model Lvlh_Model Vtw_Model.
Import ListNotations.
Open Scope R_scope.
Open Scope list_scope.

(** celest/encounter/window_handling.py:41-44 *)
Record vwindow := Vwindow { vw_rise : R; vw_set : R; vw_attitude : attitude }.

(** celest/encounter/window_generator.py:120-131 *)
Definition sun_gcrs (sun : R -> vec) (julian : list R) : res (position R) :=
  let e2sun := map sun julian in
  position3d (array1 julian) (array1 (map vx e2sun)) (array1 (map vy e2sun)) (array1 (map vz e2sun)) 1000.
(** celest/encounter/window_generator.py:115-117 *)
Definition sun_elevation (sun : R -> vec) (julian : list R) (l : location) : res (list num) :=
  gcrs <- sun_gcrs sun julian ;;
  itrs <- gcrs_to_itrs gcrs ;;
  a <- itrs_to_azel itrs l ;;
  Ok (az_elevation a).
(** celest/encounter/window_generator.py:97-112, 134-137 *)
Definition lighting_constraint_indices (sun : R -> vec) (julian : list R) (l : location) (light : lighting)
  : res (list nat) :=
  match light with
  | Night => e <- sun_elevation sun julian l ;; Ok (np_where 0 (map (fun x => n_lt x (Fin 0)) e))
  | Anytime => Ok (seq 0 (length julian))
  | Daytime => e <- sun_elevation sun julian l ;; Ok (np_where 0 (map (fun x => n_lt (Fin 0) x) e))
  | OtherLight => Raise ValueError
  end.
(** celest/encounter/window_generator.py:89-92 *)
Definition vwindow_of (julian : list R) (att : attitude) (idx : list nat) : res vwindow :=
  first <- py_index idx 0 ;;
  rise <- py_index julian (Z.of_nat first - 1) ;;
  last <- py_index idx (-1) ;;
  set <- py_index julian (Z.of_nat last) ;;
  Ok (Vwindow rise set att).
(** celest/encounter/window_generator.py:35-94 *)
Definition generate_windows (sun : R -> vec) (sat : satellite) (l : location) (threshold : R) (light : lighting)
  : res (list vwindow) :=
  match sat_velocity sat with
  | None => Raise PyWarning
  | Some _ =>
      if Rlt_dec threshold 0 then Raise ValueError
      else if Rlt_dec 90 threshold then Raise ValueError
      else
        satellite_azel <- itrs_to_azel (sat_position sat) l ;;
        let julian := p_time (sat_position sat) in
        let window_indices := np_where 0 (map (n_lt (Fin threshold)) (az_elevation satellite_azel)) in
        lighting_indices <- lighting_constraint_indices sun julian l light ;;
        let window_indices := intersect1d window_indices lighting_indices in
        let cuts := map S (np_where 0 (map (fun d => negb (d =? 1)%Z) (np_diff window_indices))) in
        att <- satellite_attitude sat l ;;
        mapM (vwindow_of julian att) (np_split 0 window_indices cuts)
  end.
