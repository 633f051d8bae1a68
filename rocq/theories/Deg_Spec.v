(** What "ordered by conflict degree" means: the mean, over all the windows of a handler
    that meet a given window, of the time the two share. *)
From Coq Require Import List ZArith QArith Bool.
From Verif Require Import Py Sched_Model Sched_Spec.
Import ListNotations.
Open Scope Q_scope.

(** Every window of every request. *)
Definition all_windows (h : handler) : list vtw := concat (map r_vtws (reqs h)).
(** Two windows meet: neither begins after the other ends. *)
Definition meets (v w : vtw) : bool := Qle_bool (v_rise w) (v_set v) && Qle_bool (v_rise v) (v_set w).

Fixpoint total (l : list Q) : Q := match l with [] => 0 | x :: r => x + total r end.
Definition mean (l : list Q) : Q := total l / inject_Z (Z.of_nat (length l)).

(** The mean, over the windows that meet [v], of some measure of what they share with [v]. *)
Definition mean_over (measure : vtw -> vtw -> Q) (h : handler) (v : vtw) : Q :=
  mean (map (measure v) (filter (meets v) (all_windows h))).

(** The measure intended: the length of the common part. *)
Definition mean_overlap : handler -> vtw -> Q := mean_over intersection_length.

(** The measure used: the length of the inner window if one lies strictly inside the
    other; otherwise from the beginning of the second to the end of the first -- or, if
    the second begins exactly when the first ends, from the beginning of the first to the
    end of the second. *)
Definition strictly_inside (v w : vtw) : bool := Qltb (v_rise w) (v_rise v) && Qltb (v_set v) (v_set w).
Definition measured_overlap (v w : vtw) : Q :=
  if strictly_inside w v then v_set w - v_rise w
  else if strictly_inside v w then v_set v - v_rise v
  else if Qeqb (v_rise w) (v_set v) then v_set w - v_rise v
  else v_set v - v_rise w.
Definition measured_degree : handler -> vtw -> Q := mean_over measured_overlap.

(** The pairs for which the two measures agree: one window strictly inside the other, or
    the first neither begins nor ends after the second. *)
Definition well_placed (v w : vtw) : Prop :=
  (v_rise v < v_rise w /\ v_set w < v_set v) \/ (v_rise w < v_rise v /\ v_set v < v_set w) \/
  (v_rise v <= v_rise w /\ v_rise w < v_set v /\ v_set v <= v_set w).

(** The window a request is booked in. *)
Definition booked_window (r : request) : option vtw :=
  match r_vidx r with Some k => nth_error (r_vtws r) k | None => None end.
