(** Words for coordinates given as arrays of integers. *)
From Coq Require Import List Reals ZArith.
From Verif Require Import Rot_Model Rot_Spec Int_Model.
Import ListNotations.
Open Scope R_scope.

Definition whole (x : R) : Prop := exists z : Z, x = IZR z.
(** An array of integers holds integers. *)
Definition holds (t : dtype) (l : list R) : Prop := t = I64 -> forall x, In x l -> whole x.
(** A position as numpy can store it: [n] times and points. *)
Definition stored {U} (n : nat) (p : typed U) : Prop :=
  of_size n (data p) /\
  holds (x_type p) (p_x (data p)) /\ holds (y_type p) (p_y (data p)) /\ holds (z_type p) (p_z (data p)).
(** The same numbers, in arrays of floats. *)
Definition as_floats {U} (p : typed U) : typed U := Typed F64 F64 F64 (data p).
Definition all_integers {U} (p : typed U) : Prop := x_type p = I64 /\ y_type p = I64 /\ z_type p = I64.

(** [k] is [x] without its digits after the decimal point. *)
Definition cut_off (x k : R) : Prop :=
  whole k /\ (0 <= x -> k <= x < k + 1) /\ (x <= 0 -> k - 1 < x <= k).
Definition cut_off_point (v w : vec) : Prop :=
  cut_off (vx v) (vx w) /\ cut_off (vy v) (vy w) /\ cut_off (vz v) (vz w).
(** The point turned about the axis of the Earth by an angle in degrees (a degree being the
    [1 / 57.29577951308232] of the units of celest). *)
Definition turned (degrees : R) (v : vec) : vec :=
  let a := degrees * (1 / 57.29577951308232) in
  V (cos a * vx v - sin a * vy v) (sin a * vx v + cos a * vy v) (vz v).
