(** Model of ground locations, distances, elevations and look angles on binary64 floating-point
    numbers (celest/coordinates/ground_location.py, celest/coordinates/transforms.py,
    celest/coordinates/astronomical_quantities.py, celest/satellite.py), with the rounding of
    IEEE 754 as formalised in Flocq.  Geo_Model.v is the same code on exact numbers.

    Simplifications: one point of the arrays at a time; functions of the C mathematics library
    and of BLAS, whose last digits are not specified, are parameters. *)
From Coq Require Import List ZArith Bool.
From Flocq Require Import Core.Core IEEE754.BinarySingleNaN IEEE754.Binary IEEE754.Bits.
From Verif Require Import Py Fl_Model.
Import ListNotations.
Open Scope Z_scope.

Definition fsqrt : float -> float := b64_sqrt mode_NE.
(** One row of an array of vectors *)
Record fvec := FV { fx : float; fy : float; fz : float }.
(** The mathematics library: [math.cos], [math.sin], [x ** 2] for a Python float, [np.arccos],
    and [u.dot(v)] for 1-D arrays of three numbers, which BLAS may add in any order and with
    fused operations. *)
Record maths := Maths {
  m_cos : float -> float; m_sin : float -> float; m_square : float -> float;
  m_arccos : float -> float; m_dot : fvec -> fvec -> float }.

(** celest/constants.py:13, 15 *)
Definition fmajor_axis : float := literal 6378137 1000.
Definition feccentricity : float := literal 8181919084296284 100000000000000000.

(** ** celest/coordinates/ground_location.py *)

(** celest/coordinates/ground_location.py:72-79 *)
Record flocation := FLocation {
  fl_latitude : float; fl_longitude : float; fl_height : float; fl_angle : unit_name; fl_length : unit_name }.
Definition fground_location (latitude longitude height : float) (angle length : unit_name) : res flocation :=
  if flt latitude (of_Z (-90)) || flt (of_Z 90) latitude then Raise ValueError
  else if flt longitude (of_Z (-180)) || flt (of_Z 180) longitude then Raise ValueError
  else Ok (FLocation latitude longitude height angle length).
(** celest/coordinates/astronomical_quantities.py:613-615, in km *)
Definition fprime_vertical (M : maths) (latitude : float) : float :=
  fdiv fmajor_axis (fsqrt (fsub (of_Z 1) (fmul (m_square M feccentricity) (m_square M (m_sin M latitude))))).
(** celest/coordinates/ground_location.py:141-149, in km *)
Definition fitrs_x (M : maths) (l : flocation) : res float :=
  latitude <- fconvert (fl_latitude l) (fl_angle l) Urad ;;
  longitude <- fconvert (fl_longitude l) (fl_angle l) Urad ;;
  s <- fq_add (fprime_vertical M latitude) Ukm (fl_height l) (fl_length l) ;;
  Ok (fmul (fmul s (m_cos M latitude)) (m_cos M longitude)).
(** celest/coordinates/ground_location.py:151-159, in km *)
Definition fitrs_y (M : maths) (l : flocation) : res float :=
  latitude <- fconvert (fl_latitude l) (fl_angle l) Urad ;;
  longitude <- fconvert (fl_longitude l) (fl_angle l) Urad ;;
  s <- fq_add (fprime_vertical M latitude) Ukm (fl_height l) (fl_length l) ;;
  Ok (fmul (fmul s (m_cos M latitude)) (m_sin M longitude)).
(** celest/coordinates/ground_location.py:161-169, in km *)
Definition fitrs_z (M : maths) (l : flocation) : res float :=
  latitude <- fconvert (fl_latitude l) (fl_angle l) Urad ;;
  s <- fq_add (fmul (fprime_vertical M latitude) (fsub (of_Z 1) (m_square M feccentricity))) Ukm (fl_height l) (fl_length l) ;;
  Ok (fmul s (m_sin M latitude)).
Definition fitrs (M : maths) (l : flocation) : res fvec :=
  x <- fitrs_x M l ;; y <- fitrs_y M l ;; z <- fitrs_z M l ;; Ok (FV x y z).

(** ** celest/coordinates/transforms.py *)

(** [np.sum(u * v, axis=1)] *)
Definition fdot (u v : fvec) : float :=
  fadd (fadd (fmul (fx u) (fx v)) (fmul (fy u) (fy v))) (fmul (fz u) (fz v)).
(** [np.linalg.norm(v, axis=1)] (or [axis=0]) *)
Definition fnorm (v : fvec) : float := fsqrt (fdot v v).
(** [np.linalg.norm(v)] for a 1-D array *)
Definition fnorm_1d (M : maths) (v : fvec) : float := fsqrt (m_dot M v v).
Definition fvsub (u v : fvec) : fvec := FV (fsub (fx u) (fx v)) (fsub (fy u) (fy v)) (fsub (fz u) (fz v)).
(** [np.degrees] *)
Definition fdegrees (x : float) : float := fmul x (fdiv (of_Z 180) (literal 3141592653589793 1000000000000000)).
(** celest/coordinates/transforms.py:379-403, for one row of [u] and the norm of [v] *)
Definition fget_ang (M : maths) (u v : fvec) (norm_v : float) : float :=
  fdegrees (m_arccos M (fdiv (fdot u v) (fmul (fnorm u) norm_v))).
(** celest/coordinates/transforms.py:406-429 *)
Definition felevation_at (M : maths) (ground sat : fvec) : float :=
  fsub (of_Z 90) (fget_ang M (fvsub sat ground) ground (fnorm_1d M ground)).

(** ** celest/satellite.py, positions in any unit of length *)

(** [x.to(u.km)] of the three coordinates *)
Definition fkm (unit : unit_name) (p : fvec) : res fvec :=
  x <- fconvert (fx p) unit Ukm ;; y <- fconvert (fy p) unit Ukm ;; z <- fconvert (fz p) unit Ukm ;; Ok (FV x y z).
(** celest/coordinates/transforms.py:305-332, the elevation in degrees *)
Definition felevation (M : maths) (l : flocation) (unit : unit_name) (p : fvec) : res float :=
  s <- fkm unit p ;; g <- fitrs M l ;; Ok (felevation_at M g s).
(** celest/satellite.py:201-221, in km *)
Definition fdistance (M : maths) (l : flocation) (unit : unit_name) (p : fvec) : res float :=
  s <- fkm unit p ;; g <- fitrs M l ;; Ok (fnorm (fvsub s g)).
(** celest/satellite.py:223-253, in degrees *)
Definition flook_angle (M : maths) (l : flocation) (unit : unit_name) (p : fvec) : res float :=
  s <- fkm unit p ;; g <- fitrs M l ;; Ok (fget_ang M (fvsub s g) s (fnorm s)).
