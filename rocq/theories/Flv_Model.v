(** Model of the LVLH frame and of attitudes on binary64 floating-point numbers
    (celest/coordinates/transforms.py:432-536, celest/satellite.py:108-199), with the rounding of
    IEEE 754 as formalised in Flocq.  Lvlh_Model.v is the same code on exact numbers.

    Simplifications: one row of the arrays at a time; the functions of numpy whose last digits
    are not specified are parameters ([arrays], [more], [np.arcsin]); the unit of the velocity is the
    factor that converts it to metres per second, or nothing when it is that unit. *)
From Coq Require Import List ZArith Bool.
From Flocq Require Import Core.Core IEEE754.BinarySingleNaN IEEE754.Binary IEEE754.Bits.
From Verif Require Import Py Fl_Model Flg_Model Flc_Model Flr_Model Flk_Model.
Open Scope Z_scope.

(** [np.cross(u, v)], one row: each coordinate is a product minus a product *)
Definition fcross (u v : fvec) : fvec :=
  FV (fsub (fmul (fy u) (fz v)) (fmul (fz u) (fy v)))
     (fsub (fmul (fz u) (fx v)) (fmul (fx u) (fz v)))
     (fsub (fmul (fx u) (fy v)) (fmul (fy u) (fx v))).
Definition fvneg (u : fvec) : fvec := FV (fneg (fx u)) (fneg (fy u)) (fneg (fz u)).
(** A row divided by a number *)
Definition fvover (u : fvec) (k : float) : fvec := FV (fdiv (fx u) k) (fdiv (fy u) k) (fdiv (fz u) k).

Section Numpy.
Variable A : arrays.

(** ** celest/coordinates/transforms.py *)

(** celest/coordinates/transforms.py:523-536, one row of each array *)
Definition flvlh_rows (position velocity : fvec) : fmat :=
  let norm_position := fnorm position in
  let position_cross_velocity := fcross position velocity in
  let norm_position_cross_velocity := fnorm position_cross_velocity in
  let lvlh_z := fvover (fvneg position) norm_position in
  let lvlh_y := fvover (fvneg position_cross_velocity) norm_position_cross_velocity in
  let lvlh_x := fcross lvlh_y lvlh_z in
  FM lvlh_x lvlh_y lvlh_z.
(** celest/coordinates/transforms.py:463-506, one row of each array, in the units of the arguments *)
Definition fgcrs_to_lvlh (position velocity : fvec) : fvec * fvec :=
  let transformation_matrix := flvlh_rows position velocity in
  (fmat_vec A transformation_matrix position, fmat_vec A transformation_matrix velocity).

(** ** celest/satellite.py *)

Variable B : more.
Variable arcsin : float -> float.
(** [x ** 2] for an array is [x * x]. *)
Definition fsquare (x : float) : float := fmul x x.
(** celest/satellite.py:180-196, for one row: the positions of the satellite and of the target, in km
    and in the LVLH frame; roll, pitch and yaw in radians *)
Definition fattitude_angles (lvlh_position ground_lvlh : fvec) : float * float * float :=
  let satellite_lvlh_norm := fnorm lvlh_position in
  let s := fvover (fvneg lvlh_position) satellite_lvlh_norm in
  let ground_norm := fnorm (fvsub ground_lvlh lvlh_position) in
  let g := fvover (fvsub ground_lvlh lvlh_position) ground_norm in
  let v := fcross s g in
  let c := fdot s g in
  let d := fadd (of_Z 1) c in
  let a32 := fadd (fx v) (fdiv (fmul (fy v) (fz v)) d) in
  let a31 := fadd (fneg (fy v)) (fdiv (fmul (fx v) (fz v)) d) in
  let a33 := fsub (of_Z 1) (fdiv (fadd (fsquare (fx v)) (fsquare (fy v))) d) in
  let a12 := fadd (fneg (fz v)) (fdiv (fmul (fx v) (fy v)) d) in
  let a22 := fsub (of_Z 1) (fdiv (fadd (fsquare (fx v)) (fsquare (fz v))) d) in
  (fneg (arcsin a32), n_arctan2 B a31 a33, n_arctan2 B a12 a22).

(** [to(u.m / u.s)] of the three coordinates of a velocity (celest/units/quantity.py:292-295) *)
Definition fspeed (factor : option float) (v : fvec) : fvec :=
  match factor with
  | None => v
  | Some k => FV (fmul (fx v) k) (fmul (fy v) k) (fmul (fz v) k)
  end.
(** celest/satellite.py:138-199, one row: roll, pitch and yaw in radians.  [position] and [velocity]
    are the ITRS coordinates of the satellite at [jd]. *)
Definition fattitude (M : maths) (l : flocation) (jd : float) (unit : unit_name) (position : fvec)
    (factor : option float) (velocity : fvec) : res (float * float * float) :=
  gcrs_position <- fitrs_to_gcrs A jd position ;;
  gcrs_velocity <- fitrs_to_gcrs A jd velocity ;;
  gcrs_position_array <- fkm unit gcrs_position ;;
  let gcrs_velocity_array := fspeed factor gcrs_velocity in
  lvlh_position_array <- fkm unit (fst (fgcrs_to_lvlh gcrs_position gcrs_velocity)) ;;
  ground_itrs <- fitrs M l ;;
  ground_gcrs <- fitrs_to_gcrs A jd ground_itrs ;;
  let transformation_matrix := flvlh_rows gcrs_position_array gcrs_velocity_array in
  let ground_lvlh := fmat_vec A transformation_matrix ground_gcrs in
  Ok (fattitude_angles lvlh_position_array ground_lvlh).
End Numpy.
