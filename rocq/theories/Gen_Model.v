(** Model of Scheduler.generate (celest/schedule/scheduler.py).

    Further simplifications: [Scheduler.__init__]'s type checks (lines 69-72) are not
    modelled; [add_request] (lines 78-118) is [Sched_Model.add_request] applied to the
    windows that generate_vtws returns (modelled in Vtw_Model). *)
From Coq Require Import List ZArith QArith Bool Arith.
From Verif Require Import Py Sched_Model Alns_Model.
Import ListNotations.
Open Scope Q_scope.
Open Scope list_scope.

(** celest/encounter/window_handling.py:67-125 *)
Record observation := mkObs { o_start : Q; o_dur : Q; o_loc : nat; o_att : attitude }.

(** celest/schedule/scheduler.py:152-155 *)
Definition schedule_problem (exceeds : Q -> Q -> bool) : problem handler :=
  mkProblem (fun h => rmap inject_Z (cost h)) is_complete removal_functions
    insertion_functions exceeds.

(** celest/schedule/scheduler.py:178-181: [attitude.time.to(u.jd2000)] is an array, its
    [.data] a memoryview, and a memoryview never equals a Quantity: the comparison is the
    plain value False, [np.where(False)[0]] is empty. *)
Definition attitude_indices (a : attitude) (start : Q) : list nat := [].

(** Fancy indexing of an array. *)
Definition take (l : list Q) (idx : list nat) : res (list Q) := mapM (py_nth l) idx.

(** celest/schedule/scheduler.py:174-196, for one scheduled request.  A scheduled request
    without an index would raise TypeError (list index). *)
Definition emit_one (r : request) : res observation :=
  match r_vidx r, r_start r, r_sdur r with
  | Some k, Some s, Some d =>
      v <- py_nth (r_vtws r) k ;;
      let a := v_att v in
      let idx := attitude_indices a s in
      time <- take (a_time a) idx ;;
      roll <- take (a_roll a) idx ;;
      pitch <- take (a_pitch a) idx ;;
      yaw <- take (a_yaw a) idx ;;
      Ok (mkObs s d (r_loc r) (mkAtt time roll pitch yaw (a_loc a)))
  | _, _, _ => Raise TypeError
  end.

(** celest/schedule/scheduler.py:170-198.  Every added window is an ObservationWindow, so
    add_window (window_handling.py:192-200) always appends. *)
Definition emit (h : handler) : res (list observation) :=
  l <- h_items h ;; mapM emit_one (filter r_sched l).

(** [math.ceil(n / 4)] *)
Definition quarter (n : nat) : Z := (Z.of_nat n + 3) / 4.

(** celest/schedule/scheduler.py:146-166: the request handler afterwards (initialised in
    place), the best solution and the ghost log of the search. *)
Definition search (exceeds : Q -> Q -> bool) (h : handler) (max_iter : Z)
  (annealing react : Q) (ds : nat -> draws) : res (handler * handler * list (entry handler)) :=
  if (h_n h =? 0)%nat then Raise PyException
  else
    h1 <- initialize_solution h ;;
    r <- solve (schedule_problem exceeds) h1 max_iter annealing react
           (quarter (h_n h1)) (Z.of_nat (h_n h1)) ds ;;
    Ok (h1, fst r, snd r).

(** celest/schedule/scheduler.py:120-168: the handler afterwards and the returned
    windows. *)
Definition generate (exceeds : Q -> Q -> bool) (h : handler) (max_iter : Z)
  (annealing react : Q) (ds : nat -> draws) : res (handler * list observation) :=
  s <- search exceeds h max_iter annealing react ds ;;
  ws <- emit (snd (fst s)) ;;
  Ok (fst (fst s), ws).

(** celest/encounter/window_handling.py:238-261 (called by save_text_file, 211-219):
    the rows of the table, each with the first sample of the attitude. *)
Definition observation_rows (ws : list observation) : res (list (Q * Q * nat * Q * Q * Q)) :=
  match ws with
  | [] => Raise PyException
  | _ => mapM (fun w =>
           roll <- py_nth (a_roll (o_att w)) 0 ;;
           pitch <- py_nth (a_pitch (o_att w)) 0 ;;
           yaw <- py_nth (a_yaw (o_att w)) 0 ;;
           Ok (o_start w, o_dur w, o_loc w, roll, pitch, yaw)) ws
  end.
