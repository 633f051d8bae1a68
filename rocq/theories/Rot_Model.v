(** Model of celest/coordinates/nutation_precession_matrices.py, of the GCRS/ITRS part of
    celest/coordinates/transforms.py (lines 26-154) and of the position constructors
    celest/coordinates/frames/base_positions.py.

    Simplifications: floats are exact real numbers and decimal literals the decimals they
    show; a matrix or vector is a record of its entries; [np.linalg.inv] is the exact
    inverse and raises LinAlgError for a singular matrix; the copies ([deepcopy],
    [np.copy]) disappear because values are immutable here. *)
From Coq Require Import List Reals Arith Bool.
From Verif Require Import Py Time_Model.
Import ListNotations.
Open Scope R_scope.
Open Scope list_scope.
Set Implicit Arguments.

(** ** Vectors and matrices of numpy *)

Record vec := V { vx : R; vy : R; vz : R }.
Record mat := M { r0 : vec; r1 : vec; r2 : vec }.

(** One entry of ['ijk, ik -> ij'] and of ['ij, kj -> ki']: the sum over the last index. *)
Definition row_times (r v : vec) : R := vx r * vx v + vy r * vy v + vz r * vz v.
Definition mat_vec (m : mat) (v : vec) : vec :=
  V (row_times (r0 m) v) (row_times (r1 m) v) (row_times (r2 m) v).

(** [np.linalg.inv] of one 3x3 matrix. *)
Definition np_det (m : mat) : R :=
  vx (r0 m) * (vy (r1 m) * vz (r2 m) - vz (r1 m) * vy (r2 m))
  - vy (r0 m) * (vx (r1 m) * vz (r2 m) - vz (r1 m) * vx (r2 m))
  + vz (r0 m) * (vx (r1 m) * vy (r2 m) - vy (r1 m) * vx (r2 m)).
Definition np_inv (m : mat) : res mat :=
  let d := np_det m in
  if Req_EM_T d 0 then Raise LinAlgError
  else
    let a := r0 m in let b := r1 m in let c := r2 m in
    Ok (M (V ((vy b * vz c - vz b * vy c) / d) ((vz a * vy c - vy a * vz c) / d) ((vy a * vz b - vz a * vy b) / d))
          (V ((vz b * vx c - vx b * vz c) / d) ((vx a * vz c - vz a * vx c) / d) ((vz a * vx b - vx a * vz b) / d))
          (V ((vx b * vy c - vy b * vx c) / d) ((vy a * vx c - vx a * vy c) / d) ((vx a * vy b - vy a * vx b) / d))).

(** ** celest/coordinates/nutation_precession_matrices.py *)

(** celest/coordinates/nutation_precession_matrices.py:14-55 *)
Definition bias_matrix : mat :=
  let xi := -0.0166170 in let eta := -0.0068192 in let dalpha := -0.01460 in
  let a1 := radians (dalpha / 3600) in
  let a2 := radians (xi / 3600) in
  let a3 := radians (- eta / 3600) in
  let s1 := sin a1 in let c1 := cos a1 in
  let s2 := sin a2 in let c2 := cos a2 in
  let s3 := sin a3 in let c3 := cos a3 in
  M (V (c1 * c2) (s1 * c2) (- s2))
    (V (- s1 * c3 + c1 * s2 * s3) (c1 * c3 + s1 * s2 * s3) (c2 * s3))
    (V (s1 * s3 + c1 * s2 * c3) (- c1 * s3 + s1 * s2 * c3) (c2 * c3)).

(** celest/coordinates/nutation_precession_matrices.py:58-104, for one Julian date *)
Definition precession_matrix (jd : R) : mat :=
  let a1 := arcsec_to_rad (zeta_precession_angle jd) in
  let a2 := arcsec_to_rad (theta_precession_angle jd) in
  let a3 := - arcsec_to_rad (z_precession_angle jd) in
  let s1 := sin a1 in let c1 := cos a1 in
  let s2 := sin a2 in let c2 := cos a2 in
  let s3 := sin a3 in let c3 := cos a3 in
  M (V (- s1 * s3 + c1 * c2 * c3) (c1 * s3 + s1 * c2 * c3) (- s2 * c3))
    (V (- s1 * c3 - c1 * c2 * s3) (c1 * c3 - s1 * c2 * s3) (s2 * s3))
    (V (c1 * s2) (s1 * s2) c2).

(** celest/coordinates/nutation_precession_matrices.py:134, in arcseconds: [mean_obliquity(julian).to(u.arcsec)] and three more terms *)
Definition nutation_obliquity (jd : R) : R :=
  let t := centuries jd in
  mean_obliquity jd * (1 / (1 / 3600)) - 46.84024 * t - 0.00059 * t ^ 2 + 0.001813 * t ^ 3.
(** celest/coordinates/nutation_precession_matrices.py:107-155, for one Julian date *)
Definition nutation_matrix (jd : R) : mat :=
  let eps := nutation_obliquity jd in
  let a1 := radians (eps / 3600) in
  let a2 := - arcsec_to_rad (fst (nutation_components jd)) in
  let a3 := - radians (eps / 3600 + arcsec_to_deg (snd (nutation_components jd))) in
  let s1 := sin a1 in let c1 := cos a1 in
  let s2 := sin a2 in let c2 := cos a2 in
  let s3 := sin a3 in let c3 := cos a3 in
  M (V c2 (s1 * s2) (- c1 * s2))
    (V (s2 * s3) (c1 * c3 - s1 * c2 * s3) (s1 * c3 + c1 * c2 * s3))
    (V (s2 * c3) (- c1 * s3 - s1 * c2 * c3) (- s1 * s3 + c1 * c2 * c3)).

(** ** celest/coordinates/frames/base_positions.py *)

(** The data of a position object: coordinates with their unit, and times.  [U] stands for
    the type of units, which these conversions only pass on. *)
Record position (U : Type) := Position {
  p_time : list R; p_x : list R; p_y : list R; p_z : list R; p_unit : U }.
Arguments Position {U}.

(** What is passed to a constructor: an array is given by its rank and its entries. *)
Record ndarray := Array { a_ndim : nat; a_data : list R }.

(** base_positions.py:80-83.  Python reads [a != b != c != d] as
    [a != b and b != c and c != d]. *)
Definition position3d {U} (time x y z : ndarray) (unit : U) : res (position U) :=
  if (negb (a_ndim time =? 1) || negb (a_ndim x =? 1) || negb (a_ndim y =? 1) || negb (a_ndim z =? 1))%nat%bool
  then Raise ValueError
  else if (negb (length (a_data time) =? length (a_data x)) && negb (length (a_data x) =? length (a_data y))
           && negb (length (a_data y) =? length (a_data z)))%nat%bool
  then Raise ValueError
  else Ok (Position (a_data time) (a_data x) (a_data y) (a_data z) unit).
(** base_positions.py:24-27; the second coordinate is also stored in the third field, which
    two-dimensional positions do not have. *)
Definition position2d {U} (time x y : ndarray) (unit : U) : res (position U) :=
  if (negb (a_ndim time =? 1) || negb (a_ndim x =? 1) || negb (a_ndim y =? 1))%nat%bool
  then Raise ValueError
  else if (negb (length (a_data time) =? length (a_data x)) && negb (length (a_data x) =? length (a_data y)))%nat%bool
  then Raise ValueError
  else Ok (Position (a_data time) (a_data x) (a_data y) (a_data y) unit).
Definition array1 (l : list R) : ndarray := Array 1 l.

(** ** celest/coordinates/transforms.py *)

(** celest/coordinates/transforms.py:59-62 (and 138-141): [np.concatenate] of three columns, which must be equally
    long *)
Definition columns (x y z : list R) : res (list vec) :=
  if ((length x =? length y) && (length y =? length z))%nat%bool
  then Ok (map (fun p => V (fst (fst p)) (snd (fst p)) (snd p)) (combine (combine x y) z))
  else Raise ValueError.

(** celest/coordinates/transforms.py:76-101.  The angles are broadcast to the rows of the array, which cannot grow: as
    many angles as rows, or one angle. *)
Definition rotate_row (degree_era : R) (v : vec) : vec :=
  let a := deg_to_rad degree_era in
  let c := cos a in let s := sin a in
  V (c * vx v - s * vy v) (s * vx v + c * vy v) (vz v).
Definition rotate_by_earth_rotation_angle (data : list vec) (degree_era : list R) : res (list vec) :=
  if (length degree_era =? length data)%nat then Ok (map2 rotate_row degree_era data)
  else match degree_era with
       | [a] => Ok (map (rotate_row a) data)
       | _ => Raise ValueError
       end.

(** celest/coordinates/transforms.py:26-75.  [np.einsum] broadcasts a dimension of length one, as arithmetic does. *)
Definition gcrs_to_itrs {U} (gcrs : position U) : res (position U) :=
  let julian := p_time gcrs in
  data <- columns (p_x gcrs) (p_y gcrs) (p_z gcrs) ;;
  let era := map earth_rotation_angle julian in
  let itrs := map (mat_vec bias_matrix) data in
  itrs <- np_broadcast mat_vec (map precession_matrix julian) itrs ;;
  itrs <- np_broadcast mat_vec (map nutation_matrix julian) itrs ;;
  itrs <- rotate_by_earth_rotation_angle itrs (map Ropp era) ;;
  position3d (array1 julian) (array1 (map vx itrs)) (array1 (map vy itrs)) (array1 (map vz itrs)) (p_unit gcrs).

(** celest/coordinates/transforms.py:105-154 *)
Definition itrs_to_gcrs {U} (itrs : position U) : res (position U) :=
  let julian := p_time itrs in
  data <- columns (p_x itrs) (p_y itrs) (p_z itrs) ;;
  let era := map earth_rotation_angle julian in
  gcrs <- rotate_by_earth_rotation_angle data era ;;
  n <- mapM np_inv (map nutation_matrix julian) ;;
  gcrs <- np_broadcast mat_vec n gcrs ;;
  p <- mapM np_inv (map precession_matrix julian) ;;
  gcrs <- np_broadcast mat_vec p gcrs ;;
  b <- np_inv bias_matrix ;;
  let gcrs := map (mat_vec b) gcrs in
  position3d (array1 julian) (array1 (map vx gcrs)) (array1 (map vy gcrs)) (array1 (map vz gcrs)) (p_unit itrs).
