(** Words for the adaptive search in floating point. *)
From Coq Require Import List ZArith Reals Permutation.
From Verif Require Import Py Fl_Model Fl_Spec Fls_Model Fls_Spec Fla_Model.
Import ListNotations.
Open Scope R_scope.
Open Scope list_scope.

(** A float between 0 and 1. *)
Definition fraction (x : float) : Prop := finite x /\ 0 <= value x <= 1.
(** What [random.random()] returns: a float from 0 up to but not including 1. *)
Definition unit_draw (u : float) : Prop := finite u /\ 0 <= value u < 1.
Definition unit_draws (d : draws) : Prop :=
  unit_draw (d_destroy d) /\ unit_draw (d_repair d) /\ unit_draw (d_accept d).

(** The exact sum of some weights. *)
Fixpoint total (l : list float) : R := match l with [] => 0 | x :: r => value x + total r end.
(** Operator [i] owns, up to [err], the draws of the [i]-th of the consecutive intervals of
    [0, 1] whose lengths are proportional to the weights. *)
Definition owns_nearly (err : R) (weights : list float) (i : nat) (u : float) : Prop :=
  total (firstn i weights) / total weights - err <= value u <= total (firstn (S i) weights) / total weights + err.

(** [b] is the first of the cheapest elements of [l]. *)
Definition earliest_best {Sol} (cost : Sol -> res Z) (l : list Sol) (b : Sol) : Prop :=
  exists l1 l2 c, l = l1 ++ b :: l2 /\ cost b = Ok c /\
    (forall x, In x l1 -> exists c', cost x = Ok c' /\ (c < c')%Z) /\
    (forall x, In x l2 -> exists c', cost x = Ok c' /\ (c <= c')%Z).
Definition candidates {Sol} (log : list (entry Sol)) : list Sol := map e_candidate log.

(** [math.exp] raises nothing unless its argument is positive ... *)
Definition quiet_exp (exp : float -> res float) : Prop :=
  forall x, flt (of_Z 0) x = false -> exists y, exp x = Ok y.
(** ... and is exact at zero. *)
Definition exp_of_zero (exp : float -> res float) : Prop :=
  forall x, finite x -> value x = 0 -> exists y, exp x = Ok y /\ finite y /\ value y = 1.

(** The observation [w] serves request [r]: duration and place asked for, inside one of its
    windows and before its deadline as real numbers, with the quality asked for up to what
    rounding can change. *)
Definition serves (r : request) (w : observation) : Prop :=
  o_dur w = r_dur r /\ o_loc w = r_loc r /\
  exists v, In v (r_vtws r) /\ in_window r v (o_start w) /\ in_time r (o_start w) /\ good_enough r v (o_start w).
(** Total priority. *)
Definition worth (l : list request) : Z := fold_right Z.add 0%Z (map r_prio l).

(** The solution the search works on after some rounds: the last accepted candidate, or the
    initial one. *)
Definition current_after {Sol} (initial : Sol) (log : list (entry Sol)) : Sol :=
  last (map e_candidate (filter e_accepted log)) initial.
(** The temperature after [k] rounds. *)
Fixpoint cooled (p : float) (k : nat) (T : float) : float :=
  match k with O => T | S j => cooled p j (fmul p T) end.
(** The weight of operator [i] after some rounds: only the rounds that used it count. *)
Fixpoint weight_after {Sol} (which : entry Sol -> nat) (l : float) (i : nat) (log : list (entry Sol)) (w : float) : float :=
  match log with
  | [] => w
  | e :: r => weight_after which l i r
                (if Nat.eqb (which e) i
                 then fadd (fmul (fsub (of_Z 1) l) w) (fdiv (fmul l (of_Z (e_score e))) (of_Z 6)) else w)
  end.
