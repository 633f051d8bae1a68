(** Model of the geocentric radius of a ground location and of azimuths on binary64
    floating-point numbers (celest/coordinates/ground_location.py:110-139,
    celest/coordinates/transforms.py:335-403), with the rounding of IEEE 754 as formalised in
    Flocq.  Geo_Model.v is the same code on exact numbers.

    Simplifications: one point of the arrays at a time; functions of the C mathematics library,
    of numpy and of BLAS, whose last digits are not specified, are parameters ([maths], [arrays],
    and [square] for [x ** 2] of a Python float of any size). *)
From Coq Require Import List ZArith Bool.
From Flocq Require Import Core.Core IEEE754.BinarySingleNaN IEEE754.Binary IEEE754.Bits.
From Verif Require Import Py Fl_Model Flg_Model Flr_Model Flv_Model Fly_Model.
Import ListNotations.
Open Scope Z_scope.

Section Library.
Variable M : maths.
Variable L : arrays.
Variable square : float -> float.

(** celest/coordinates/ground_location.py:130-137, the latitude in radians and the height in km *)
Definition fradius_at (latitude height : float) : float :=
  let cos_latitude := m_cos M latitude in
  let sin_latitude := m_sin M latitude in
  let numerator := fadd (square (fmul (square fmajor_axis) cos_latitude)) (square (fmul (square fminor_axis) sin_latitude)) in
  let denominator := fadd (square (fmul fmajor_axis cos_latitude)) (square (fmul fminor_axis sin_latitude)) in
  fadd (fsqrt (fdiv numerator denominator)) height.
(** celest/coordinates/ground_location.py:110-139, in km *)
Definition fradius (l : flocation) : res float :=
  latitude <- fconvert (fl_latitude l) (fl_angle l) Urad ;;
  height <- fconvert (fl_height l) (fl_length l) Ukm ;;
  Ok (fradius_at latitude height).

(** [k * v] for a number and an array *)
Definition fvscale (k : float) (v : fvec) : fvec := FV (fmul k (fx v)) (fmul k (fy v)) (fmul k (fz v)).
(** celest/coordinates/transforms.py:379-403, for the 1-D array [u] and one row of [v] *)
Definition fget_ang_1d (u v : fvec) : float :=
  fdegrees (m_arccos M (fdiv (fdot u v) (fmul (fnorm_1d M u) (fnorm v)))).
(** celest/coordinates/transforms.py:363-364 *)
Definition ftangent (ground : fvec) (latitude radius : float) : fvec :=
  fvsub (FV (of_Z 0) (of_Z 0) (fdiv radius (a_sin L latitude))) ground.
(** celest/coordinates/transforms.py:366-369, for one row *)
Definition fon_plane (ground : fvec) (radius : float) (ground_to_satellite : fvec) : fvec :=
  let k := fdiv (m_dot M ground_to_satellite ground) (square radius) in
  fvsub ground_to_satellite (fvscale k ground).
(** celest/coordinates/transforms.py:361-374, for one row; in degrees *)
Definition fazimuth_at (ground sat : fvec) (latitude radius : float) : float :=
  let ground_to_satellite := fvsub sat ground in
  let surface_tangent := ftangent ground latitude radius in
  let on_plane := fon_plane ground radius ground_to_satellite in
  let direction := fcross surface_tangent ground in
  let negative := flt (fdot on_plane direction) (of_Z 0) in
  let azimuth := fget_ang_1d surface_tangent on_plane in
  if negative then fsub (of_Z 360) (fmul (of_Z 1) azimuth) else fsub (of_Z 0) (fmul (of_Z (-1)) azimuth).
(** celest/coordinates/transforms.py:335-376, for one point [p] in any unit of length *)
Definition fazimuth (l : flocation) (unit : unit_name) (p : fvec) : res float :=
  s <- fkm unit p ;; g <- fitrs M l ;;
  latitude <- fconvert (fl_latitude l) (fl_angle l) Urad ;;
  radius <- fradius l ;;
  Ok (fazimuth_at g s latitude radius).
End Library.
