(** Model of the conversions between GCRS and ITRS on binary64 floating-point numbers
    (celest/coordinates/transforms.py, nutation_precession_matrices.py,
    astronomical_quantities.py), with the rounding of IEEE 754 as formalised in Flocq.
    Rot_Model.v and Time_Model.v are the same code on exact numbers.

    Simplifications: one time and one point of the arrays at a time; the functions of numpy
    whose last digits are not specified are parameters ([arrays]); unit conversions are between
    units of angles and cannot raise (celest/units/quantity.py:253-297). *)
From Coq Require Import List ZArith Bool.
From Flocq Require Import Core.Core IEEE754.BinarySingleNaN IEEE754.Binary IEEE754.Bits.
From Verif Require Import Py Fl_Model Flg_Model Flc_Model.
Import ListNotations.
Open Scope Z_scope.

Record fmat := FM { f0 : fvec; f1 : fvec; f2 : fvec }.
(** numpy: [np.sin], [np.cos], [x ** p] for an array [x] and an int [p], one entry of
    [np.einsum] over an index of length three (which may be added in any order and with fused
    operations), and [np.linalg.inv] of one matrix. *)
Record arrays := Arrays {
  a_sin : float -> float; a_cos : float -> float; a_pow : float -> nat -> float;
  a_contract : fvec -> fvec -> float; a_inv : fmat -> res fmat }.

(** [np.radians] *)
Definition fradians (x : float) : float := fmul x (fdiv (literal 3141592653589793 1000000000000000) (of_Z 180)).
(** [Quantity.to] between different units of angles (celest/units/quantity.py:293-295) *)
Definition fto (x : float) (from to : unit_name) : float := fmul x (fdiv (unit_scale from) (unit_scale to)).

Section Numpy.
Variable A : arrays.

(** ** celest/coordinates/astronomical_quantities.py *)

(** celest/coordinates/astronomical_quantities.py:125-127 *)
Definition fcenturies (julian : float) : float := fdiv (fsub julian (of_Z 2451545)) (of_Z 36525).
Definition ft (julian : float) (p : nat) : float := a_pow A (fcenturies julian) p.

(** celest/coordinates/astronomical_quantities.py:148-151, in degrees *)
Definition flongitude_of_ascending_node (jd : float) : float :=
  fpymod (fadd (fadd (fsub (literal 12504452 100000) (fmul (literal 1934136261 1000000) (ft jd 1)))
                     (fmul (literal 20708 10000000) (ft jd 2)))
               (fdiv (ft jd 3) (of_Z 450000))) (of_Z 360).
(** celest/coordinates/astronomical_quantities.py:198-205, in degrees *)
Definition fmean_longitude_of_sun (jd : float) : float :=
  fadd (literal 28046645 100000) (fmul (literal 3600076983 100000) (ft jd 1)).
Definition fmean_longitude_of_moon (jd : float) : float :=
  fadd (literal 2183165 10000) (fmul (literal 4812678813 10000) (ft jd 1)).
(** celest/coordinates/astronomical_quantities.py:208-216, arguments in degrees, in arcseconds *)
Definition fnutation_in_longitude (node sun moon : float) : float :=
  let p1 := fmul (fneg (literal 1720 100)) (a_sin A (fto node Udeg Urad)) in
  let p2 := fmul (fneg (literal 132 100)) (a_sin A (fmul (of_Z 2) (fto sun Udeg Urad))) in
  let p3 := fmul (fneg (literal 23 100)) (a_sin A (fmul (of_Z 2) (fto moon Udeg Urad))) in
  let p4 := fmul (literal 21 100) (a_sin A (fmul (of_Z 2) (fto node Udeg Urad))) in
  fadd (fadd (fadd p1 p2) p3) p4.
(** celest/coordinates/astronomical_quantities.py:219-227, arguments in degrees, in arcseconds *)
Definition fnutation_in_obliquity (node sun moon : float) : float :=
  let e1 := fmul (literal 920 100) (a_cos A (fto node Udeg Urad)) in
  let e2 := fmul (literal 57 100) (a_cos A (fmul (of_Z 2) (fto sun Udeg Urad))) in
  let e3 := fmul (literal 10 100) (a_cos A (fmul (of_Z 2) (fto moon Udeg Urad))) in
  let e4 := fmul (fneg (literal 9 100)) (a_cos A (fmul (of_Z 2) (fto node Udeg Urad))) in
  fadd (fadd (fadd e1 e2) e3) e4.
(** celest/coordinates/astronomical_quantities.py:154-195, both in arcseconds *)
Definition fnutation_components (jd : float) : float * float :=
  let node := flongitude_of_ascending_node jd in
  let sun := fmean_longitude_of_sun jd in
  let moon := fmean_longitude_of_moon jd in
  (fnutation_in_longitude node sun moon, fnutation_in_obliquity node sun moon).
(** celest/coordinates/astronomical_quantities.py:261-265, in arcseconds *)
Definition fzeta (jd : float) : float :=
  fsub (fsub (fadd (fadd (fadd (literal 259796176 100000000) (fmul (literal 23060809506 10000000) (ft jd 1)))
    (fmul (literal 3019015 10000000) (ft jd 2))) (fmul (literal 179663 10000000) (ft jd 3)))
    (fmul (literal 327 10000000) (ft jd 4))) (fmul (literal 2 10000000) (ft jd 5)).
(** celest/coordinates/astronomical_quantities.py:268-272 *)
Definition ftheta (jd : float) : float :=
  fsub (fsub (fsub (fsub (fmul (literal 20041917476 10000000) (ft jd 1)) (fmul (literal 4269353 10000000) (ft jd 2)))
    (fmul (literal 418251 10000000) (ft jd 3))) (fmul (literal 601 10000000) (ft jd 4))) (fmul (literal 1 10000000) (ft jd 5)).
(** celest/coordinates/astronomical_quantities.py:275-279 *)
Definition fz_angle (jd : float) : float :=
  fsub (fadd (fadd (fadd (fadd (fneg (literal 25976176 10000000)) (fmul (literal 23060803226 10000000) (ft jd 1)))
    (fmul (literal 10947790 10000000) (ft jd 2))) (fmul (literal 182273 10000000) (ft jd 3)))
    (fmul (literal 470 10000000) (ft jd 4))) (fmul (literal 3 10000000) (ft jd 5)).
(** celest/coordinates/astronomical_quantities.py:282-324, in degrees *)
Definition fmean_obliquity (jd : float) : float :=
  let u := fdiv (ft jd 1) (of_Z 100) in
  let s := literal 84381448 1000 in
  let s := fsub s (fmul (literal 468093 100) u) in
  let s := fsub s (fmul (literal 155 100) (a_pow A u 2)) in
  let s := fadd s (fmul (literal 199925 100) (a_pow A u 3)) in
  let s := fsub s (fmul (literal 5138 100) (a_pow A u 4)) in
  let s := fsub s (fmul (literal 24967 100) (a_pow A u 5)) in
  let s := fsub s (fmul (literal 3905 100) (a_pow A u 6)) in
  let s := fadd s (fmul (literal 712 100) (a_pow A u 7)) in
  let s := fadd s (fmul (literal 2787 100) (a_pow A u 8)) in
  let s := fadd s (fmul (literal 579 100) (a_pow A u 9)) in
  let s := fadd s (fmul (literal 245 100) (a_pow A u 10)) in
  fdiv s (of_Z 3600).

(** ** celest/coordinates/nutation_precession_matrices.py *)

(** celest/coordinates/nutation_precession_matrices.py:34-55: from the three angles *)
Definition fbias_of (a1 a2 a3 : float) : fmat :=
  let s1 := a_sin A a1 in let c1 := a_cos A a1 in
  let s2 := a_sin A a2 in let c2 := a_cos A a2 in
  let s3 := a_sin A a3 in let c3 := a_cos A a3 in
  FM (FV (fmul c1 c2) (fmul s1 c2) (fneg s2))
     (FV (fadd (fmul (fneg s1) c3) (fmul (fmul c1 s2) s3)) (fadd (fmul c1 c3) (fmul (fmul s1 s2) s3)) (fmul c2 s3))
     (FV (fadd (fmul s1 s3) (fmul (fmul c1 s2) c3)) (fadd (fmul (fneg c1) s3) (fmul (fmul s1 s2) c3)) (fmul c2 c3)).
Definition fbias_matrix : fmat :=
  fbias_of (fradians (fdiv (fneg (literal 1460 100000)) (of_Z 3600)))
           (fradians (fdiv (fneg (literal 166170 10000000)) (of_Z 3600)))
           (fradians (fdiv (fneg (fneg (literal 68192 10000000))) (of_Z 3600))).
(** celest/coordinates/nutation_precession_matrices.py:82-104 *)
Definition fprecession_of (a1 a2 a3 : float) : fmat :=
  let s1 := a_sin A a1 in let c1 := a_cos A a1 in
  let s2 := a_sin A a2 in let c2 := a_cos A a2 in
  let s3 := a_sin A a3 in let c3 := a_cos A a3 in
  FM (FV (fadd (fmul (fneg s1) s3) (fmul (fmul c1 c2) c3)) (fadd (fmul c1 s3) (fmul (fmul s1 c2) c3)) (fmul (fneg s2) c3))
     (FV (fsub (fmul (fneg s1) c3) (fmul (fmul c1 c2) s3)) (fsub (fmul c1 c3) (fmul (fmul s1 c2) s3)) (fmul s2 s3))
     (FV (fmul c1 s2) (fmul s1 s2) c2).
Definition fprecession_matrix (jd : float) : fmat :=
  fprecession_of (fto (fzeta jd) Uarcsec Urad) (fto (ftheta jd) Uarcsec Urad) (fneg (fto (fz_angle jd) Uarcsec Urad)).
(** celest/coordinates/nutation_precession_matrices.py:134, in arcseconds *)
Definition fnutation_obliquity (jd : float) : float :=
  fadd (fsub (fsub (fto (fmean_obliquity jd) Udeg Uarcsec) (fmul (literal 4684024 100000) (ft jd 1)))
    (fmul (literal 59 100000) (ft jd 2))) (fmul (literal 1813 1000000) (ft jd 3)).
(** celest/coordinates/nutation_precession_matrices.py:136-155 *)
Definition fnutation_of (a1 a2 a3 : float) : fmat :=
  let s1 := a_sin A a1 in let c1 := a_cos A a1 in
  let s2 := a_sin A a2 in let c2 := a_cos A a2 in
  let s3 := a_sin A a3 in let c3 := a_cos A a3 in
  FM (FV c2 (fmul s1 s2) (fmul (fneg c1) s2))
     (FV (fmul s2 s3) (fsub (fmul c1 c3) (fmul (fmul s1 c2) s3)) (fadd (fmul s1 c3) (fmul (fmul c1 c2) s3)))
     (FV (fmul s2 c3) (fsub (fmul (fneg c1) s3) (fmul (fmul s1 c2) c3)) (fadd (fmul (fneg s1) s3) (fmul (fmul c1 c2) c3))).
Definition fnutation_matrix (jd : float) : fmat :=
  let eps := fnutation_obliquity jd in
  fnutation_of (fradians (fdiv eps (of_Z 3600)))
    (fneg (fto (fst (fnutation_components jd)) Uarcsec Urad))
    (fneg (fradians (fadd (fdiv eps (of_Z 3600)) (fto (snd (fnutation_components jd)) Uarcsec Udeg)))).

(** ** celest/coordinates/transforms.py *)

(** One row of ['ijk, ik -> ij'] or ['ij, kj -> ki']. *)
Definition fmat_vec (m : fmat) (v : fvec) : fvec :=
  FV (a_contract A (f0 m) v) (a_contract A (f1 m) v) (a_contract A (f2 m) v).
(** celest/coordinates/transforms.py:78-102, for one row *)
Definition frotate_row (degree_era : float) (v : fvec) : fvec :=
  let a := fto degree_era Udeg Urad in
  let c := a_cos A a in let s := a_sin A a in
  FV (fsub (fmul c (fx v)) (fmul s (fy v))) (fadd (fmul s (fx v)) (fmul c (fy v))) (fz v).
(** celest/coordinates/transforms.py:26-75 *)
Definition fgcrs_to_itrs (jd : float) (v : fvec) : fvec :=
  let itrs := fmat_vec fbias_matrix v in
  let itrs := fmat_vec (fprecession_matrix jd) itrs in
  let itrs := fmat_vec (fnutation_matrix jd) itrs in
  frotate_row (fneg (fearth_rotation_angle jd)) itrs.
(** celest/coordinates/transforms.py:105-154 *)
Definition fitrs_to_gcrs (jd : float) (v : fvec) : res fvec :=
  let gcrs := frotate_row (fearth_rotation_angle jd) v in
  n <- a_inv A (fnutation_matrix jd) ;;
  let gcrs := fmat_vec n gcrs in
  p <- a_inv A (fprecession_matrix jd) ;;
  let gcrs := fmat_vec p gcrs in
  b <- a_inv A fbias_matrix ;;
  Ok (fmat_vec b gcrs).
End Numpy.
