(** Specification vocabulary for schedules, independent of how the operators work. *)
From Coq Require Import List ZArith QArith Qabs Bool Permutation Sorted.
From Verif Require Import Py Sched_Model.
Import ListNotations.
Open Scope Q_scope.
Open Scope list_scope.

(** Requests currently booked, and how many. *)
Definition scheduled (h : handler) : list request := filter r_sched (reqs h).
Definition scheduled_count (h : handler) : Z := Z.of_nat (length (scheduled h)).

(** The handler's two counters are right. *)
Definition counters_ok (h : handler) : Prop :=
  h_n h = length (reqs h) /\ h_nsched h = scheduled_count h.

(** Total value of what is booked. *)
Fixpoint sum_Z (l : list Z) : Z := match l with [] => 0%Z | x :: r => (x + sum_Z r)%Z end.
Definition value (l : list request) : Z := sum_Z (map r_prio (filter r_sched l)).

(** Same request: what the user asked for is unchanged; windows may be reordered. *)
Definition same_static (r r' : request) : Prop :=
  r_loc r' = r_loc r /\ r_deadline r' = r_deadline r /\ r_dur r' = r_dur r /\
  r_prio r' = r_prio r /\ r_qual r' = r_qual r /\ r_look r' = r_look r /\
  Permutation (r_vtws r) (r_vtws r').
(** Same booking (or none in both). *)
Definition same_booking (r r' : request) : Prop :=
  r_sched r' = r_sched r /\ r_start r' = r_start r /\ r_sdur r' = r_sdur r /\
  r_vidx r' = r_vidx r.

(** No booking at all. *)
Definition no_booking (r : request) : Prop :=
  r_sched r = false /\ r_start r = None /\ r_sdur r = None /\ r_vidx r = None.

(** [h'] has the requests of [h], in some order, each related to its old self by [R]. *)
Definition evolves (R : request -> request -> Prop) (h h' : handler) : Prop :=
  exists l, Permutation (reqs h) l /\ Forall2 R l (reqs h').

(** One day has 86400 seconds. *)
Definition days (seconds : Q) : Q := seconds / 86400.

(** Booking at [s] in window [v] is allowed for request [r]. *)
Definition allowed (r : request) (v : vtw) (s : Q) : Prop :=
  v_rise v < s /\ s + days (r_dur r) < v_set v /\ s + days (r_dur r) < r_deadline r /\
  exists q, image_quality v s = Ok q /\ (r_qual r <= q)%Z.

(** The request is booked, for the requested duration, at an allowed time in the window
    its window index designates. *)
Definition booked_well (r : request) : Prop :=
  r_sched r = true /\ r_sdur r = Some (r_dur r) /\
  exists k v s, r_vidx r = Some k /\ r_start r = Some s /\
    nth_error (r_vtws r) k = Some v /\ allowed r v s.
(** The same without the window index: some window of the request. *)
Definition booked_in_some_window (r : request) : Prop :=
  r_sched r = true /\ r_sdur r = Some (r_dur r) /\
  exists v s, r_start r = Some s /\ In v (r_vtws r) /\ allowed r v s.

(** Two half-open intervals [s, s+d) intersect. *)
Definition intervals_meet (s1 d1 s2 d2 : Q) : Prop :=
  exists t, s1 <= t < s1 + d1 /\ s2 <= t < s2 + d2.

(** Request [r] is booked during [s, s + d). *)
Definition booked_during (r : request) (s d : Q) : Prop :=
  r_sched r = true /\ exists sd, r_start r = Some s /\ r_sdur r = Some sd /\ d == days sd.

Definition clash (r r' : request) : Prop :=
  exists s d s' d', booked_during r s d /\ booked_during r' s' d' /\ intervals_meet s d s' d'.

(** Pairwise disjoint bookings (for requests at different positions). *)
Definition no_clashes (l : list request) : Prop :=
  forall i j r r', i <> j -> nth_error l i = Some r -> nth_error l j = Some r' -> ~ clash r r'.

(** The start time the scheduler proposes for [r] in window [v]: without a look angle
    it is derived from the window and the duration, else it is a sample time found by the
    look-angle search. *)
Definition proposed_start (r : request) (v : vtw) (s : Q) : Prop :=
  match r_look r with
  | NoLook => s = (v_rise v + v_set v + days (r_dur r)) / 2
  | lk => look_angle_time (a_pitch (v_att v)) lk (a_time (v_att v)) (v_rise v) (v_set v)
          = Ok (Some s)
  end.

(** Booked requests have a start and a duration. *)
Definition bookings_filled (h : handler) : Prop :=
  forall r, In r (reqs h) -> r_sched r = true -> exists s d, r_start r = Some s /\ r_sdur r = Some d.

(** Stable sortedness with respect to a key: permutation, ordered, ties keep order. *)
Definition stable_sort_of {A} (le : A -> A -> Prop) (tie : A -> A -> bool) (l l' : list A) : Prop :=
  Permutation l l' /\ StronglySorted le l' /\
  forall x, filter (tie x) l' = filter (tie x) l.

(** Closed intervals of two windows intersect; length of the intersection. *)
Definition windows_intersect (v w : vtw) : Prop :=
  exists t, v_rise v <= t <= v_set v /\ v_rise w <= t <= v_set w.
Definition Qmax2 (x y : Q) : Q := if Qle_bool x y then y else x.
Definition Qmin2 (x y : Q) : Q := if Qle_bool x y then x else y.
Definition intersection_length (v w : vtw) : Q :=
  Qmin2 (v_set v) (v_set w) - Qmax2 (v_rise v) (v_rise w).

(** The operations of the request handler and its operators; a history is a list. *)
Inductive operation :=
| OpAdd (loc : nat) (deadline dur : Q) (prio qual : Z) (lk : look) (vtws : list vtw)
| OpSortPriority | OpSortDecOpportunity | OpSortIncOpportunity | OpSortConflict
| OpSortWindowsConflict | OpSortWindowsRise | OpUnscheduleAll
| OpRemove (which : nat) (rnd : nat -> nat) (n : Z)
| OpInsert (which : nat) (n : Z)
| OpInitialize.

Definition run_operation (o : operation) (h : handler) : res handler :=
  match o with
  | OpAdd loc deadline dur prio qual lk vtws =>
      Ok (add_request h loc deadline dur prio qual lk vtws)
  | OpSortPriority => Ok (sort_by_decreasing_priority h)
  | OpSortDecOpportunity => Ok (sort_by_decreasing_opportunity h)
  | OpSortIncOpportunity => Ok (sort_by_increasing_opportunity h)
  | OpSortConflict => sort_by_decreasing_conflict_degree h
  | OpSortWindowsConflict => sort_vtws_by_increasing_conflict_degree h
  | OpSortWindowsRise => Ok (sort_vtws_by_increasing_rise_time h)
  | OpUnscheduleAll => unschedule_all h
  | OpRemove which rnd n =>
      match nth_error removal_functions which with
      | Some f => f rnd h n
      | None => Ok h
      end
  | OpInsert which n =>
      match nth_error insertion_functions which with
      | Some f => f (fun i => i) h n
      | None => Ok h
      end
  | OpInitialize => initialize_solution h
  end.

Fixpoint run_history (os : list operation) (h : handler) : res handler :=
  match os with
  | [] => Ok h
  | o :: r => match run_operation o h with
              | Ok h' => run_history r h'
              | Raise e => Raise e
              end
  end.

(** Handlers reachable from the empty one. *)
Definition reachable (h : handler) : Prop :=
  exists os, run_history os empty_handler = Ok h.
