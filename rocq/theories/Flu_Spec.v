(** Words for quantities of any units in floating point. *)
From Coq Require Import String List ZArith QArith Qreals Reals.
From Verif Require Import Py Units_Model Units_Spec Fl_Model Fl_Spec Flu_Model.
Import ListNotations.
Open Scope R_scope.

(** The size of a unit in its base units, and of a quantity. *)
Definition real_size (u : punit) : R := Q2R (si_size u).
Definition magnitude (q : fquantity) : R := value (fq_data q) * real_size (fq_unit q).

(** The scales of the units in [u] are the floats nearest to their sizes (relative error up to
    [2 ^ -53]), and these sizes are between [2 ^ -17] and [2 ^ 17] (about 8e-6 and 130000), as
    those of all predefined units are. *)
Definition well_scaled (scale : named -> float) (u : punit) : Prop :=
  forall n p, In (n, p) (unit_bases u) ->
    finite (scale n) /\ / 2 ^ 17 <= Q2R (n_scale n) <= 2 ^ 17 /\
    Rabs (value (scale n) - Q2R (n_scale n)) <= / 2 ^ 53 * Q2R (n_scale n).

(** [x ** n] is right to two units of [2 ^ -53] unless it is too large or small for a float. *)
Definition accurate_power (pow : float -> Z -> res float) : Prop :=
  forall x n, finite x -> / 2 ^ 1000 <= Rabs (powerRZ (value x) n) <= 2 ^ 1000 ->
    exists y, pow x n = Ok y /\ finite y /\
      Rabs (value y - powerRZ (value x) n) <= 2 * / 2 ^ 53 * Rabs (powerRZ (value x) n).

(** How complicated a unit is: each named unit in a product counts three and the absolute
    value of its exponent; a named unit counts one. *)
Fixpoint base_count (l : list (named * Z)) : Z :=
  match l with [] => 0 | (_, p) :: r => (Z.abs p + 3 + base_count r)%Z end.
Definition complexity (u : punit) : Z :=
  match u with UN _ => 1%Z | UC c => base_count (c_bases c) end.

(** Zero, or of absolute value between [2 ^ -k] and [2 ^ k]. *)
Definition sensible (k : nat) (x : float) : Prop :=
  finite x /\ (value x = 0 \/ / 2 ^ k <= Rabs (value x) <= 2 ^ k).
