(** Words for times and angles. *)
From Coq Require Import List Reals.
Import ListNotations.
Open Scope R_scope.

(** [a] and [b] differ by a whole number of turns of size [m]. *)
Definition congruent (m a b : R) : Prop := exists k : Z, a - b = m * IZR k.
(** [a] is the representative of [b] in [0, m). *)
Definition normal_form (m a b : R) : Prop := 0 <= a < m /\ congruent m a b.

(** numpy arrays of lengths [m] and [n] can be combined, giving an array of length [k]. *)
Definition fits (m n k : nat) : Prop :=
  (m = k /\ n = k) \/ (m = 1%nat /\ n = k) \/ (m = k /\ n = 1%nat).
(** The entry of an array used at position [i] of the combination. *)
Definition entry (l : list R) (i : nat) : R := nth (if Nat.eqb (length l) 1 then 0%nat else i) l 0.

(** Hours since midnight in Greenwich, not reduced. *)
Definition universal_hours (jd : R) : R := 24 * (jd + 1 / 2).
(** Julian centuries from the epoch J2000.0. *)
Definition T_of (jd : R) : R := (jd - 2451545) / 36525.
