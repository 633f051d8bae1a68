(** The conversions between frames when the coordinates are arrays of integers: the parts of
    celest/coordinates/transforms.py and celest/satellite.py whose result depends on the element
    type of the arrays.  With arrays of floats they are Rot_Model.v and Geo_Model.v.

    Simplifications: as in Rot_Model.v and Geo_Model.v (exact real numbers, a unit is its scale);
    int64 numbers do not overflow; the times are an array of floats. *)
From Coq Require Import List Reals ZArith Bool.
From Verif Require Import Py Num Time_Model Rot_Model Geo_Model.
Import ListNotations.
Open Scope R_scope.
Open Scope list_scope.
Set Implicit Arguments.

(** Element types of numpy arrays: float64 and int64. *)
Inductive dtype := F64 | I64.

(** numpy: what is stored when the float [x] is assigned to a cell of an array: in an array of
    integers, the integer next to it toward zero. *)
Definition toward_zero (x : R) : R :=
  if Rle_dec 0 x then IZR (Int_part x) else - IZR (Int_part (- x)).
Definition assign (t : dtype) (x : R) : R :=
  match t with F64 => x | I64 => toward_zero x end.

(** numpy: the element type of [np.concatenate] of arrays, and of a product of two arrays. *)
Definition common (s t : dtype) : dtype :=
  match s, t with I64, I64 => I64 | _, _ => F64 end.

(** A position with the element types of its three coordinate arrays
    (celest/coordinates/frames/base_positions.py:85-88 keeps the arrays as they are). *)
Record typed (U : Type) := Typed {
  x_type : dtype; y_type : dtype; z_type : dtype; data : position U }.
Arguments Typed {U}.
Definition data_type {U} (p : typed U) : dtype := common (common (x_type p) (y_type p)) (z_type p).

(** celest/coordinates/transforms.py:94-102: the rows are computed in floats and assigned to the
    array they came from. *)
Definition rotate_row_into (t : dtype) (degree_era : R) (v : vec) : vec :=
  let a := deg_to_rad degree_era in
  let c := cos a in let s := sin a in
  V (assign t (c * vx v - s * vy v)) (assign t (s * vx v + c * vy v)) (assign t (vz v)).
Definition rotate_into (t : dtype) (rows : list vec) (degree_era : list R) : res (list vec) :=
  if (length degree_era =? length rows)%nat then Ok (map2 (rotate_row_into t) degree_era rows)
  else match degree_era with
       | [a] => Ok (map (rotate_row_into t a) rows)
       | _ => Raise ValueError
       end.

(** celest/coordinates/transforms.py:105-154: the array made by [np.concatenate] is rotated in
    place before it is multiplied with the matrices. *)
Definition t_itrs_to_gcrs {U} (p : typed U) : res (typed U) :=
  let itrs := data p in
  let julian := p_time itrs in
  rows <- columns (p_x itrs) (p_y itrs) (p_z itrs) ;;
  let t := data_type p in
  let era := map earth_rotation_angle julian in
  gcrs <- rotate_into t rows era ;;
  n <- mapM np_inv (map nutation_matrix julian) ;;
  gcrs <- np_broadcast mat_vec n gcrs ;;
  let t := common F64 t in
  m <- mapM np_inv (map precession_matrix julian) ;;
  gcrs <- np_broadcast mat_vec m gcrs ;;
  let t := common F64 t in
  b <- np_inv bias_matrix ;;
  let gcrs := map (mat_vec b) gcrs in
  let t := common F64 t in
  r <- position3d (array1 julian) (array1 (map vx gcrs)) (array1 (map vy gcrs)) (array1 (map vz gcrs)) (p_unit itrs) ;;
  Ok (Typed t t t r).

(** celest/coordinates/transforms.py:26-75: here the array is multiplied with the matrices first. *)
Definition t_gcrs_to_itrs {U} (p : typed U) : res (typed U) :=
  let gcrs := data p in
  let julian := p_time gcrs in
  rows <- columns (p_x gcrs) (p_y gcrs) (p_z gcrs) ;;
  let t := data_type p in
  let era := map earth_rotation_angle julian in
  let itrs := map (mat_vec bias_matrix) rows in
  let t := common F64 t in
  itrs <- np_broadcast mat_vec (map precession_matrix julian) itrs ;;
  let t := common F64 t in
  itrs <- np_broadcast mat_vec (map nutation_matrix julian) itrs ;;
  let t := common F64 t in
  itrs <- rotate_into t itrs (map Ropp era) ;;
  r <- position3d (array1 julian) (array1 (map vx itrs)) (array1 (map vy itrs)) (array1 (map vz itrs)) (p_unit gcrs) ;;
  Ok (Typed t t t r).

(** celest/units/quantity.py:253-297 [Quantity.to] for an array: nothing is done if the units are
    the same (here: have the same scale), otherwise the array is multiplied in place, which numpy
    refuses (UFuncTypeError, a TypeError) for an array of integers. *)
Definition t_to (from to : R) (t : dtype) (l : list R) : res (list R) :=
  if Req_EM_T from to then Ok l
  else match t with
       | F64 => Ok (map (fun x => x * (from / to)) l)
       | I64 => Raise TypeError
       end.

(** [np.array([x.to(u.km), y.to(u.km), z.to(u.km)]).T] *)
Definition t_km_points (p : typed R) : res (list vec) :=
  let q := data p in
  x <- t_to (p_unit q) 1000 (x_type p) (p_x q) ;;
  y <- t_to (p_unit q) 1000 (y_type p) (p_y q) ;;
  z <- t_to (p_unit q) 1000 (z_type p) (p_z q) ;;
  columns x y z.
(** celest/satellite.py:201-221 *)
Definition t_satellite_distance (p : typed R) (l : location) : res (list num) :=
  points <- t_km_points p ;; Ok (map (distance_to l) points).
(** celest/satellite.py:223-253 *)
Definition t_satellite_look_angle (p : typed R) (l : location) : res (list num) :=
  points <- t_km_points p ;; Ok (map (look_angle_to l) points).
(** celest/coordinates/transforms.py:305-332 *)
Definition t_itrs_to_azel (p : typed R) (l : location) : res azel :=
  points <- t_km_points p ;;
  let azimuths := map (azimuth l) points in
  let elevations := map (elevation l) points in
  if (negb (length (p_time (data p)) =? length azimuths) && negb (length azimuths =? length elevations))%nat%bool
  then Raise ValueError
  else Ok (Azel (p_time (data p)) azimuths elevations l).

(** celest/coordinates/transforms.py:254-302 for equally long arrays, given as
    [WGS84(julian, latitude, longitude, height, angular_unit, length_unit)] *)
Definition t_wgs84_to_itrs (lat_type lon_type h_type : dtype)
    (julian latitude longitude height : list R) (ang len : R) : res (typed R) :=
  lat <- t_to ang deg_per_rad lat_type latitude ;;
  lon <- t_to ang deg_per_rad lon_type longitude ;;
  h <- t_to len 1000 h_type height ;;
  let l := map2 (fun a b => wgs84_point (fst a) (snd a) b) (combine lat lon) h in
  Ok (Typed F64 F64 F64 (Position julian (map vx l) (map vy l) (map vz l) 1000)).
