(** Words for positions and rotations. *)
From Coq Require Import List Reals.
From Verif Require Import Rot_Model.
Import ListNotations.
Open Scope R_scope.

(** A position with [n] times and [n] points. *)
Definition of_size {U} (n : nat) (p : position U) : Prop :=
  length (p_time p) = n /\ length (p_x p) = n /\ length (p_y p) = n /\ length (p_z p) = n.
(** Its [i]-th point. *)
Definition point {U} (p : position U) (i : nat) : vec :=
  V (nth i (p_x p) 0) (nth i (p_y p) 0) (nth i (p_z p) 0).
(** Same times and unit. *)
Definition same_record {U} (p q : position U) : Prop := p_time p = p_time q /\ p_unit p = p_unit q.

(** The scalar product, and the volume of the box spanned by three vectors (positive when
    they form a right-handed triple). *)
Definition dot (a b : vec) : R := vx a * vx b + vy a * vy b + vz a * vz b.
Definition volume (a b c : vec) : R :=
  vx a * (vy b * vz c - vz b * vy c) + vy a * (vz b * vx c - vx b * vz c) + vz a * (vx b * vy c - vy b * vx c).
Definition norm (a : vec) : R := sqrt (dot a a).
Definition sub (a b : vec) : vec := V (vx a - vx b) (vy a - vy b) (vz a - vz b).
