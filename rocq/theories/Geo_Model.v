(** Model of celest/coordinates/ground_location.py, of the ITRS/WGS84 and ITRS/AzEl parts of
    celest/coordinates/transforms.py (lines 157-429) and of the methods [altitude],
    [distance] and [look_angle] of celest/satellite.py.

    Simplifications: numbers as in Num.v (real numbers, infinities, not-a-number; no
    rounding); coordinates and latitudes given by the user are real numbers.  A unit is its
    scale: metres per unit for lengths, degrees per unit for angles. *)
From Coq Require Import List Reals Arith Bool.
From Verif Require Import Py Num Time_Model Rot_Model.
Import ListNotations.
Open Scope R_scope.
Open Scope list_scope.
Set Implicit Arguments.

(** celest/constants.py:12-15 *)
Definition major_axis : R := 6378.137.
Definition minor_axis : R := 6356.752314245.
Definition eccentricity : R := 0.08181919084296284.

(** [Quantity.to(u.km)] and [Quantity.to(u.rad)]: celest/units/quantity.py:253-297 with
    celest/units/unit_initialization.py:35-39. *)
Definition to_km (scale x : R) : R := x * (scale / 1000).
Definition to_rad (scale x : R) : R := x * (scale / deg_per_rad).

(** ** celest/coordinates/ground_location.py *)

Record location := Location {
  loc_latitude : R; loc_longitude : R; loc_height : R; angular_scale : R; length_scale : R }.

(** celest/coordinates/ground_location.py:73-80: the numbers are compared as they are *)
Definition ground_location (latitude longitude height ang len : R) : res location :=
  if Rlt_dec latitude (-90) then Raise ValueError
  else if Rlt_dec 90 latitude then Raise ValueError
  else if Rlt_dec longitude (-180) then Raise ValueError
  else if Rlt_dec 180 longitude then Raise ValueError
  else Ok (Location latitude longitude height ang len).

Definition lat_rad (l : location) : R := to_rad (angular_scale l) (loc_latitude l).
Definition lon_rad (l : location) : R := to_rad (angular_scale l) (loc_longitude l).
Definition height_km (l : location) : R := to_km (length_scale l) (loc_height l).

(** celest/coordinates/astronomical_quantities.py:613-615, in km; the argument in radians *)
Definition radius_of_curvature_in_prime_vertical (latitude : R) : R :=
  major_axis / sqrt (1 - eccentricity ^ 2 * sin latitude ^ 2).

(** celest/coordinates/ground_location.py:110-139, in km *)
Definition radius (l : location) : R :=
  let cos_latitude := cos (lat_rad l) in
  let sin_latitude := sin (lat_rad l) in
  let numerator := (major_axis ^ 2 * cos_latitude) ^ 2 + (minor_axis ^ 2 * sin_latitude) ^ 2 in
  let denominator := (major_axis * cos_latitude) ^ 2 + (minor_axis * sin_latitude) ^ 2 in
  sqrt (numerator / denominator) + height_km l.
(** celest/coordinates/ground_location.py:141-149, in km (the height is converted to the unit of the first operand) *)
Definition itrs_x (l : location) : R :=
  (radius_of_curvature_in_prime_vertical (lat_rad l) + height_km l) * cos (lat_rad l) * cos (lon_rad l).
(** celest/coordinates/ground_location.py:151-159 *)
Definition itrs_y (l : location) : R :=
  (radius_of_curvature_in_prime_vertical (lat_rad l) + height_km l) * cos (lat_rad l) * sin (lon_rad l).
(** celest/coordinates/ground_location.py:161-169 *)
Definition itrs_z (l : location) : R :=
  (radius_of_curvature_in_prime_vertical (lat_rad l) * (1 - eccentricity ^ 2) + height_km l) * sin (lat_rad l).
Definition itrs_of (l : location) : vec := V (itrs_x l) (itrs_y l) (itrs_z l).

(** ** celest/coordinates/transforms.py: ITRS and WGS84 *)

(** An ITRS object: the unit of [position] is the scale in metres.  Its points in km, as in
    [np.array([x.to(u.km), y.to(u.km), z.to(u.km)]).T]; arrays of different lengths are
    rejected by numpy.  [_altitude] and [_itrs_to_wgs84] do not stack the arrays: they would
    broadcast a coordinate array of length one, which is left out (rejected) here. *)
Definition km_points (p : position R) : res (list vec) :=
  columns (map (to_km (p_unit p)) (p_x p)) (map (to_km (p_unit p)) (p_y p)) (map (to_km (p_unit p)) (p_z p)).

(** What [_altitude] computes on for one point: the distance from the axis, and z. *)
Definition axis_distance (v : vec) : R := sqrt (vx v ^ 2 + vy v ^ 2).
(** celest/coordinates/transforms.py:232 *)
Definition altitude_e : R := sqrt (1 - minor_axis ^ 2 / major_axis ^ 2).
(** celest/coordinates/transforms.py:235 *)
Definition altitude_start (v : vec) : num :=
  Fin (sqrt (vx v ^ 2 + vy v ^ 2 + vz v ^ 2) - sqrt (major_axis * minor_axis)).
(** celest/coordinates/transforms.py:236 and 241: [np.arctan((z / p) * (1 - (e ** 2 * n) / (n + h)) ** -1)] *)
Definition latitude_from (v : vec) (n h : num) : num :=
  n_arctan (n_mul (n_div (Fin (vz v)) (Fin (axis_distance v)))
                  (n_inv (n_sub (Fin 1) (n_div (n_mul (Fin (altitude_e ^ 2)) n) (n_add n h))))).
(** celest/coordinates/transforms.py:238-243, for one point *)
Definition new_vals (v : vec) (phi : num) : num * num :=
  let c := n_cos phi in
  let s := n_sin phi in
  let n := n_div (Fin major_axis)
             (n_sqrt (n_add (n_mul c c) (n_mul (Fin (minor_axis ^ 2 / major_axis ^ 2)) (n_mul s s)))) in
  let h := n_sub (n_div (Fin (axis_distance v)) c) n in
  (h, latitude_from v n h).
Definition tolerance : R := 10e-10.
(** celest/coordinates/transforms.py:247: the test of the while statement *)
Definition keep_going (old new : list (num * num)) : bool :=
  (n_lt (Fin (major_axis * tolerance)) (n_mean (map2 n_sub (map fst new) (map fst old)))
   || n_lt (Fin tolerance) (n_mean (map2 n_sub (map snd new) (map snd old))))%bool.
(** The values [h, phi] before the loop. *)
Definition first_vals (v : vec) : num * num :=
  let h := altitude_start v in (h, latitude_from v (Fin major_axis) h).
(** celest/coordinates/transforms.py:245-251: what the while statement started with [h, phi = old] and
    [hp, phip = new_vals(old)] returns, if it ends. *)
Inductive altitude_loop (points : list vec) : list (num * num) -> list num -> Prop :=
| loop_ends old :
    keep_going old (map2 (fun v hp => new_vals v (snd hp)) points old) = false ->
    altitude_loop points old (map fst old)
| loop_continues old result :
    keep_going old (map2 (fun v hp => new_vals v (snd hp)) points old) = true ->
    altitude_loop points (map2 (fun v hp => new_vals v (snd hp)) points old) result ->
    altitude_loop points old result.
(** celest/coordinates/transforms.py:192-251: [_altitude] returns [result], in km (it may also raise ValueError, or
    not return) *)
Definition altitude_returns (p : position R) (result : list num) : Prop :=
  exists points, km_points p = Ok points /\ altitude_loop points (map first_vals points) result.

(** celest/coordinates/transforms.py:157-189: [_itrs_to_wgs84], given what [_altitude] returns.  Latitude and longitude
    are in radians, the height in km. *)
Record wgs84 := Wgs84 {
  w_time : list R; w_latitude : list num; w_longitude : list num; w_height : list num }.
Definition wgs84_latitude (v : vec) : num := n_arctan (n_div (Fin (vz v)) (Fin (axis_distance v))).
Definition wgs84_longitude (v : vec) : num := Fin (atan2 (vy v) (vx v)).
Definition itrs_to_wgs84 (p : position R) (result : wgs84) : Prop :=
  exists points heights,
    km_points p = Ok points /\ altitude_returns p heights /\
    result = Wgs84 (p_time p) (map wgs84_latitude points) (map wgs84_longitude points) heights.

(** celest/coordinates/transforms.py:254-302, for one point; angles in radians, height in km *)
Definition wgs84_point (latitude longitude height : R) : vec :=
  let e := eccentricity in
  let n := major_axis / sqrt (1 - e ^ 2 * sin latitude ^ 2) in
  V ((n + height) * cos latitude * cos longitude)
    ((n + height) * cos latitude * sin longitude)
    ((n * (1 - e ^ 2) + height) * sin latitude).
(** [_wgs84_to_itrs] for equally long arrays (others are broadcast or rejected by numpy),
    given as [WGS84(julian, latitude, longitude, height, angular_unit, length_unit)]. *)
Definition wgs84_to_itrs (julian latitude longitude height : list R) (ang len : R) : position R :=
  let l := map2 (fun a b => wgs84_point (to_rad ang (fst a)) (to_rad ang (snd a)) (to_km len b))
             (combine latitude longitude) height in
  Position julian (map vx l) (map vy l) (map vz l) 1000.

(** ** celest/coordinates/transforms.py: ITRS to AzEl *)

Definition fin_vec (v : vec) : nvec := NV (Fin (vx v)) (Fin (vy v)) (Fin (vz v)).

(** celest/coordinates/transforms.py:379-403, for one pair of rows, in degrees *)
Definition get_ang (u v : nvec) : num :=
  n_mul (n_arccos (n_div (nv_dot u v) (n_mul (nv_norm u) (nv_norm v)))) (Fin (180 / PI)).

(** celest/coordinates/transforms.py:335-376, for one row of the array of points *)
Definition azimuth (l : location) (sat : vec) : num :=
  let ground := fin_vec (itrs_of l) in
  let r := Fin (radius l) in
  let ground_to_satellite := nv_sub (fin_vec sat) ground in
  let z_axis_vector := NV (Fin 0) (Fin 0) (n_div r (Fin (sin (lat_rad l)))) in
  let surface_tangent := nv_sub z_axis_vector ground in
  let k := n_div (nv_dot ground_to_satellite ground) (n_mul r r) in
  let ground_to_sat_on_plane := nv_sub ground_to_satellite (nv_scale k ground) in
  let direction := nv_cross surface_tangent ground in
  let negative := n_lt (nv_dot ground_to_sat_on_plane direction) (Fin 0) in
  let ang := get_ang surface_tangent ground_to_sat_on_plane in
  if negative then n_sub (Fin 360) (n_mul (Fin 1) ang) else n_sub (Fin 0) (n_mul (Fin (-1)) ang).
(** celest/coordinates/transforms.py:406-429, for one row *)
Definition elevation (l : location) (sat : vec) : num :=
  let ground := fin_vec (itrs_of l) in
  n_sub (Fin 90) (get_ang (nv_sub (fin_vec sat) ground) ground).

(** celest/coordinates/transforms.py:305-332; in degrees *)
Record azel := Azel { az_time : list R; az_azimuth : list num; az_elevation : list num; az_location : location }.
Definition itrs_to_azel (p : position R) (l : location) : res azel :=
  points <- km_points p ;;
  let azimuths := map (azimuth l) points in
  let elevations := map (elevation l) points in
  (* celest/coordinates/frames/base_positions.py:24-27 *)
  if (negb (length (p_time p) =? length azimuths) && negb (length azimuths =? length elevations))%nat%bool
  then Raise ValueError
  else Ok (Azel (p_time p) azimuths elevations l).

(** ** celest/satellite.py *)

(** celest/satellite.py:82-106, in km *)
Definition satellite_altitude (itrs : position R) (result : list num) : Prop := altitude_returns itrs result.
(** celest/satellite.py:201-221, for one point, in km *)
Definition distance_to (l : location) (sat : vec) : num :=
  nv_norm (nv_sub (fin_vec sat) (fin_vec (itrs_of l))).
Definition satellite_distance (itrs : position R) (l : location) : res (list num) :=
  points <- km_points itrs ;; Ok (map (distance_to l) points).
(** celest/satellite.py:223-253, for one point, in degrees *)
Definition look_angle_to (l : location) (sat : vec) : num :=
  get_ang (nv_sub (fin_vec sat) (fin_vec (itrs_of l))) (fin_vec sat).
Definition satellite_look_angle (itrs : position R) (l : location) : res (list num) :=
  points <- km_points itrs ;; Ok (map (look_angle_to l) points).
