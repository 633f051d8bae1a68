(** Words for the LVLH frame and for attitudes in floating point. *)
From Coq Require Import ZArith Reals.
From Flocq Require Import Core.Core IEEE754.BinarySingleNaN IEEE754.Binary IEEE754.Bits.
From Verif Require Import Py Fl_Model Fl_Spec Flg_Model Flg_Spec Rot_Model Rot_Spec.
Open Scope R_scope.

(** A position or velocity of ordinary size, in whatever unit. *)
Definition ordinary (v : fvec) : Prop := finite_vec v /\ / 2 ^ 45 <= norm (vector v) <= 2 ^ 45.
(** The factor that converts a velocity to metres per second: none, or between [2 ^ -10] and [2 ^ 10]
    ([km / s] has the factor 1000). *)
Definition fair (factor : option float) : Prop :=
  match factor with None => True | Some c => finite c /\ / 2 ^ 10 <= value c <= 2 ^ 10 end.
Definition times_factor (factor : option float) : R := match factor with None => 1 | Some c => value c end.
(** What is assumed of [np.arcsin]: in its domain, an error of a few units in the last place. *)
Definition accurate_arcsin (arcsin : float -> float) : Prop :=
  forall x, finite x -> Rabs (value x) <= 1 -> finite (arcsin x) /\ Rabs (value (arcsin x) - asin (value x)) <= / 2 ^ 50.
