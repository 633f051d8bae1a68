(** Words for altitudes in floating point. *)
From Coq Require Import List ZArith Reals.
From Flocq Require Import Core.Core IEEE754.BinarySingleNaN IEEE754.Binary IEEE754.Bits.
From Verif Require Import Py Fl_Model Fl_Spec Flg_Model Flg_Spec Rot_Model Rot_Spec Geo_Spec Fly_Model.
Import ListNotations.
Open Scope R_scope.

Definition total (l : list float) : R := fold_right (fun x s => value x + s) 0 l.
(** What is assumed of the numerical functions: errors of a few units in the last place; for the mean
    of [n] numbers of size at most [m], an error of at most [m n / 2 ^ 52] (summing in any order is as
    accurate as that). *)
Record accurate_geodesy (J : geodesy) : Prop := {
  square_good : forall x, finite x -> / 2 ^ 100 <= Rabs (value x) <= 2 ^ 100 ->
    finite (g_square J x) /\ Rabs (value (g_square J x) - value x ^ 2) <= / 2 ^ 51 * value x ^ 2;
  arctan_good : forall x, finite x -> finite (g_arctan J x) /\ Rabs (value (g_arctan J x) - atan (value x)) <= / 2 ^ 50;
  mean_good : forall l m, l <> [] -> (Z.of_nat (length l) <= 2 ^ 40)%Z -> m <= 2 ^ 900 ->
    (forall x, In x l -> finite x /\ Rabs (value x) <= m) ->
    finite (g_mean J l) /\ Rabs (value (g_mean J l) - total l / INR (length l)) <= m * INR (length l) / 2 ^ 52 + / 2 ^ 1000
}.
(** The place, in kilometres, of a position given in some unit of length. *)
Definition place (unit : unit_name) (p : fvec) : vec := times (size unit / 1000) (vector p).
(** Not farther than 100000 km, and not nearly above a pole: within a thousandth of a radian, about 7 km. *)
Definition clear_of_poles (v : vec) : Prop := norm v <= 100000 /\ Rabs (vz v) <= 1000 * sqrt (vx v ^ 2 + vy v ^ 2).

Definition average (l : list R) : R := fold_right Rplus 0 l / INR (length l).
