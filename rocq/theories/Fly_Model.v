(** Model of the altitude of a satellite on binary64 floating-point numbers
    (celest/coordinates/transforms.py:192-251), with the rounding of IEEE 754 as formalised in
    Flocq.  Geo_Model.v is the same code on exact numbers.

    Simplifications: the functions of numpy and of the C mathematics library whose last digits
    are not specified are parameters ([arrays], [geodesy]); arrays of different lengths are
    left out (the positions are a list of points). *)
From Coq Require Import List ZArith Bool.
From Flocq Require Import Core.Core IEEE754.BinarySingleNaN IEEE754.Binary IEEE754.Bits.
From Verif Require Import Py Fl_Model Flg_Model Flr_Model Flv_Model.
Import ListNotations.
Open Scope Z_scope.

(** [x ** 2] for a Python float or a numpy scalar, [np.arctan] and [np.mean] *)
Record geodesy := Geodesy { g_square : float -> float; g_arctan : float -> float; g_mean : list float -> float }.
(** celest/constants.py:14 *)
Definition fminor_axis : float := literal 6356752314245 1000000000.

Section Numpy.
Variable L : arrays.
Variable J : geodesy.

(** [b ** 2 / a ** 2] (celest/coordinates/transforms.py:232, 239) *)
Definition fratio : float := fdiv (g_square J fminor_axis) (g_square J fmajor_axis).
(** [e ** 2], where [e = np.sqrt(1 - b ** 2 / a ** 2)] (celest/coordinates/transforms.py:232) *)
Definition fe_squared : float := g_square J (fsqrt (fsub (of_Z 1) fratio)).
(** celest/coordinates/transforms.py:233, for one point in km *)
Definition faxis_distance (v : fvec) : float := fsqrt (fadd (fsquare (fx v)) (fsquare (fy v))).
(** celest/coordinates/transforms.py:236 and 241: [np.arctan((z / p) * (1 - (e ** 2 * n) / (n + h)) ** -1)].
    [x ** -1] for an array is [1 / x]. *)
Definition flatitude_from (p z n h : float) : float :=
  g_arctan J (fmul (fdiv z p) (fdiv (of_Z 1) (fsub (of_Z 1) (fdiv (fmul fe_squared n) (fadd n h))))).
(** celest/coordinates/transforms.py:235-236 *)
Definition ffirst_vals (v : fvec) : float * float :=
  let h := fsub (fsqrt (fadd (fadd (fsquare (fx v)) (fsquare (fy v))) (fsquare (fz v))))
                (fsqrt (fmul fmajor_axis fminor_axis)) in
  (h, flatitude_from (faxis_distance v) (fz v) fmajor_axis h).
(** celest/coordinates/transforms.py:238-243 *)
Definition fnew_vals (p phi z : float) : float * float :=
  let n := fdiv fmajor_axis (fsqrt (fadd (fsquare (a_cos L phi)) (fmul fratio (fsquare (a_sin L phi))))) in
  let h := fsub (fdiv p (a_cos L phi)) n in
  (h, flatitude_from p z n h).
(** The call in celest/coordinates/transforms.py:245 and 249, for all points *)
Definition fnext (points : list fvec) (old : list (float * float)) : list (float * float) :=
  map (fun x => fnew_vals (faxis_distance (fst x)) (snd (snd x)) (fz (fst x))) (combine points old).
(** celest/coordinates/transforms.py:226 *)
Definition ftolerance : float := literal 1 1000000000.
(** celest/coordinates/transforms.py:247: the test of the while statement *)
Definition fkeep_going (old new : list (float * float)) : bool :=
  let change f := g_mean J (map (fun x => fsub (f (snd x)) (f (fst x))) (combine old new)) in
  flt (fmul fmajor_axis ftolerance) (change fst) || flt ftolerance (change snd).
(** celest/coordinates/transforms.py:245-251: the while statement started with [h, phi = old] and
    [hp, phip = new_vals(old)] returns the heights after [steps] rounds. *)
Inductive faltitude_loop (points : list fvec) : list (float * float) -> nat -> list float -> Prop :=
| floop_ends old :
    fkeep_going old (fnext points old) = false ->
    faltitude_loop points old 0 (map fst old)
| floop_continues old steps result :
    fkeep_going old (fnext points old) = true ->
    faltitude_loop points (fnext points old) steps result ->
    faltitude_loop points old (S steps) result.
(** celest/coordinates/transforms.py:192-251 (celest/satellite.py:106): the heights in km of positions
    in [unit], after [steps] rounds of the loop *)
Definition faltitude (unit : unit_name) (positions : list fvec) (steps : nat) (result : list float) : Prop :=
  exists points, Forall2 (fun p s => fkm unit p = Ok s) positions points /\
    faltitude_loop points (map ffirst_vals points) steps result.
End Numpy.
