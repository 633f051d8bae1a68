(** Specification vocabulary for schedules made with floating-point numbers. *)
From Coq Require Import List ZArith Bool Reals Permutation.
From Verif Require Import Py Fl_Model Fl_Spec Fls_Model.
Import ListNotations.
Open Scope R_scope.
Open Scope list_scope.

(** Requests currently booked, and how many. *)
Definition scheduled (h : handler) : list request := filter r_sched (reqs h).
Definition scheduled_count (h : handler) : Z := Z.of_nat (length (scheduled h)).

(** The handler's two counters are right. *)
Definition counters_ok (h : handler) : Prop :=
  h_n h = length (reqs h) /\ h_nsched h = scheduled_count h.

(** Same request: what the user asked for is unchanged; windows may be reordered. *)
Definition same_static (r r' : request) : Prop :=
  r_loc r' = r_loc r /\ r_deadline r' = r_deadline r /\ r_dur r' = r_dur r /\
  r_prio r' = r_prio r /\ r_qual r' = r_qual r /\ r_look r' = r_look r /\
  Permutation (r_vtws r) (r_vtws r').
(** Same booking (or none in both). *)
Definition same_booking (r r' : request) : Prop :=
  r_sched r' = r_sched r /\ r_start r' = r_start r /\ r_sdur r' = r_sdur r /\
  r_vidx r' = r_vidx r.

(** No booking at all. *)
Definition no_booking (r : request) : Prop :=
  r_sched r = false /\ r_start r = None /\ r_sdur r = None /\ r_vidx r = None.

(** [h'] has the requests of [h], in some order, each related to its old self by [R]. *)
Definition evolves (R : request -> request -> Prop) (h h' : handler) : Prop :=
  exists l, Permutation (reqs h) l /\ Forall2 R l (reqs h').

(** ** What the user asks for *)

(** A window of ordinary dates (the years 1029 to 6239) and of up to 65536 days, with the
    samples of its attitude at such dates. *)
Definition ordinary_date (t : float) : Prop := julian_date t /\ value t <= 4000000.
Definition ordinary_window (v : vtw) : Prop :=
  ordinary_date (v_rise v) /\ ordinary_date (v_set v) /\ value (v_set v) - value (v_rise v) <= 65536 /\
  forall t, In t (a_time (v_att v)) -> ordinary_date t.
(** A request with an ordinary deadline and duration, in ordinary windows. *)
Definition ordinary_request (r : request) : Prop :=
  julian_date (r_deadline r) /\ some_seconds (r_dur r) /\ forall v, In v (r_vtws r) -> ordinary_window v.

(** ** What the user gets *)

(** Request [r] is booked at [s] for the duration asked for. *)
Definition booked_at (r : request) (s : float) : Prop :=
  r_sched r = true /\ r_start r = Some s /\ r_sdur r = Some (r_dur r).
(** An observation for [r] that starts at [s] is in the window [v] and ends before the
    deadline, in real numbers, and it has the quality asked for, up to what rounding can
    change. *)
Definition in_window (r : request) (v : vtw) (s : float) : Prop :=
  value (v_rise v) < value s /\ value s + real_days (r_dur r) < value (v_set v).
Definition in_time (r : request) (s : float) : Prop :=
  value s + real_days (r_dur r) < value (r_deadline r).
Definition quality_margin (v : vtw) : R := 40 * tick / (value (v_set v) - value (v_rise v)).
Definition good_enough (r : request) (v : vtw) (s : float) : Prop :=
  IZR (r_qual r) <= exact_quality (value (v_rise v)) (value (v_set v)) (value s) + quality_margin v.
(** How long the observations of two requests overlap. *)
Definition overlap_of (r : request) (s : float) (r' : request) (s' : float) : R :=
  overlap (value s) (real_days (r_dur r)) (value s') (real_days (r_dur r')).
(** No two bookings overlap by more than three quarters of a tick, about 30 microseconds. *)
Definition nearly_disjoint (l : list request) : Prop :=
  forall i j r r' s s', i <> j -> nth_error l i = Some r -> nth_error l j = Some r' ->
    booked_at r s -> booked_at r' s' -> overlap_of r s r' s' <= 3 / 4 * tick.

(** The middle of a window, half a duration later: where an observation without a look angle
    starts. *)
Definition middle_start (r : request) (v : vtw) : R := (value (v_rise v) + value (v_set v) + real_days (r_dur r)) / 2.
(** An observation for [r] starting at [m] fits in the window [v] with two ticks to spare. *)
Definition roomy (r : request) (v : vtw) (m : R) : Prop :=
  value (v_rise v) + 2 * tick <= m /\
  m + real_days (r_dur r) + 3 * tick <= value (v_set v) /\
  m + real_days (r_dur r) + 3 * tick <= value (r_deadline r) /\
  IZR (r_qual r) + 60 * tick / (value (v_set v) - value (v_rise v)) <= exact_quality (value (v_rise v)) (value (v_set v)) m.

(** An angle: zero, or neither absurdly small nor absurdly large. *)
Definition angle (x : float) : Prop := finite x /\ (value x = 0 \/ / 2 ^ 400 <= Rabs (value x) <= 2 ^ 400).

(** The operations of the request handler and its operators; a history is a list. *)
Inductive operation :=
| OpAdd (loc : nat) (deadline dur : float) (prio qual : Z) (lk : look) (vtws : list vtw)
| OpSortPriority | OpSortDecOpportunity | OpSortIncOpportunity | OpSortConflict
| OpSortWindowsConflict | OpSortWindowsRise | OpUnscheduleAll
| OpRemove (which : nat) (rnd : nat -> nat) (n : Z)
| OpInsert (which : nat) (n : Z)
| OpInitialize.

Definition run_operation (o : operation) (h : handler) : res handler :=
  match o with
  | OpAdd loc deadline dur prio qual lk vtws =>
      Ok (add_request h loc deadline dur prio qual lk vtws)
  | OpSortPriority => Ok (sort_by_decreasing_priority h)
  | OpSortDecOpportunity => Ok (sort_by_decreasing_opportunity h)
  | OpSortIncOpportunity => Ok (sort_by_increasing_opportunity h)
  | OpSortConflict => sort_by_decreasing_conflict_degree h
  | OpSortWindowsConflict => sort_vtws_by_increasing_conflict_degree h
  | OpSortWindowsRise => Ok (sort_vtws_by_increasing_rise_time h)
  | OpUnscheduleAll => unschedule_all h
  | OpRemove which rnd n =>
      match nth_error removal_functions which with
      | Some f => f rnd h n
      | None => Ok h
      end
  | OpInsert which n =>
      match nth_error insertion_functions which with
      | Some f => f (fun i => i) h n
      | None => Ok h
      end
  | OpInitialize => initialize_solution h
  end.

Fixpoint run_history (os : list operation) (h : handler) : res handler :=
  match os with
  | [] => Ok h
  | o :: r => match run_operation o h with
              | Ok h' => run_history r h'
              | Raise e => Raise e
              end
  end.

(** A history in which every request added is ordinary. *)
Definition ordinary_operation (o : operation) : Prop :=
  match o with
  | OpAdd loc deadline dur prio qual lk vtws => ordinary_request (new_request loc deadline dur prio qual lk vtws)
  | _ => True
  end.
(** Handlers reachable from the empty one by such a history. *)
Definition reachable (h : handler) : Prop :=
  exists os, Forall ordinary_operation os /\ run_history os empty_handler = Ok h.
