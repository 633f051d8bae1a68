(** Words for the conversions between GCRS and ITRS in floating point. *)
From Coq Require Import List ZArith Reals.
From Flocq Require Import Core.Core IEEE754.BinarySingleNaN IEEE754.Binary IEEE754.Bits.
From Verif Require Import Py Fl_Model Fl_Spec Flg_Model Flg_Spec Flr_Model Rot_Model Rot_Spec.
Import ListNotations.
Open Scope R_scope.

(** The position with one time and one point that the floats stand for. *)
Definition one_row {U} (jd : float) (v : fvec) (u : U) : position U :=
  Position [value jd] [value (fx v)] [value (fy v)] [value (fz v)] u.

Definition finite_mat (m : fmat) : Prop := finite_vec (f0 m) /\ finite_vec (f1 m) /\ finite_vec (f2 m).
(** The matrix a matrix of floats stands for. *)
Definition matrix (m : fmat) : mat := M (vector (f0 m)) (vector (f1 m)) (vector (f2 m)).
(** Every entry is [d] at most. *)
Definition vec_within (d : R) (v : vec) : Prop := Rabs (vx v) <= d /\ Rabs (vy v) <= d /\ Rabs (vz v) <= d.
Definition mat_within (d : R) (m : mat) : Prop := vec_within d (r0 m) /\ vec_within d (r1 m) /\ vec_within d (r2 m).
(** Every entry of one is [d] at most from that of the other. *)
Definition vec_near (d : R) (v w : vec) : Prop := vec_within d (V (vx v - vx w) (vy v - vy w) (vz v - vz w)).
Definition mat_near (d : R) (m n : mat) : Prop := vec_near d (r0 m) (r0 n) /\ vec_near d (r1 m) (r1 n) /\ vec_near d (r2 m) (r2 n).
(** The product of two matrices, and the matrix that changes nothing. *)
Definition row_mat (r : vec) (n : mat) : vec :=
  V (vx r * vx (r0 n) + vy r * vx (r1 n) + vz r * vx (r2 n))
    (vx r * vy (r0 n) + vy r * vy (r1 n) + vz r * vy (r2 n))
    (vx r * vz (r0 n) + vy r * vz (r1 n) + vz r * vz (r2 n)).
Definition mat_mul (m n : mat) : mat := M (row_mat (r0 m) n) (row_mat (r1 m) n) (row_mat (r2 m) n).
Definition unit_mat : mat := M (V 1 0 0) (V 0 1 0) (V 0 0 1).

(** What is asked of numpy: sines and cosines of arguments up to [2 ^ 30] with an error of two
    units in the last place of 1 at most, powers up to the tenth with a relative error of
    [2 ^ -51], sums of three products with the usual error bound (in any order, fused or not), and
    for a matrix with entries of about 1 and a determinant of about 1 a matrix whose product
    with it is the unit matrix up to [2 ^ -42]. *)
Record accurate_arrays (A : arrays) : Prop := {
  np_sin_good : forall x, finite x -> Rabs (value x) <= 2 ^ 30 ->
    finite (a_sin A x) /\ Rabs (value (a_sin A x) - sin (value x)) <= / 2 ^ 51;
  np_cos_good : forall x, finite x -> Rabs (value x) <= 2 ^ 30 ->
    finite (a_cos A x) /\ Rabs (value (a_cos A x) - cos (value x)) <= / 2 ^ 51;
  np_pow_good : forall x p, finite x -> Rabs (value x) <= 2 ^ 10 -> (1 <= p <= 10)%nat ->
    finite (a_pow A x p) /\ Rabs (value (a_pow A x p) - value x ^ p) <= / 2 ^ 51 * Rabs (value x ^ p) + / 2 ^ 1000;
  np_einsum_good : forall u v, finite_vec u -> finite_vec v -> norm (vector u) <= 2 ^ 100 -> norm (vector v) <= 2 ^ 100 ->
    finite (a_contract A u v) /\
    Rabs (value (a_contract A u v) - dot (vector u) (vector v)) <= 4 / 2 ^ 53 * (norm (vector u) * norm (vector v)) + / 2 ^ 1000;
  np_inv_good : forall m, finite_mat m -> mat_within (101 / 100) (matrix m) -> 99 / 100 <= np_det (matrix m) <= 101 / 100 ->
    exists n, a_inv A m = Ok n /\ finite_mat n /\ mat_within 3 (matrix n) /\
      mat_near (/ 2 ^ 42) (mat_mul (matrix n) (matrix m)) unit_mat
}.
