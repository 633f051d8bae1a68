(** Model of a Scheduler object over its life (celest/schedule/scheduler.py): the constructor,
    [add_request] and [generate] called any number of times, in any order, also after calls
    that raised.

    Simplifications: those of Sched_Model.v, Vtw_Model.v and Gen_Model.v.  The satellite is
    what Vtw_Model.generate_vtws needs of it: whether it has a velocity and, for each
    location, the samples and the attitude.  Here the insertion loop keeps its state when it
    raises, because the handler is changed in place. *)
From Coq Require Import List ZArith QArith Bool Arith.
From Verif Require Import Py Sched_Model Vtw_Model Alns_Model Gen_Model.
Import ListNotations.
Open Scope Q_scope.
Open Scope list_scope.

Record sky := mkSky { sky_velocity : bool; sky_samples : nat -> list sample; sky_attitude : nat -> attitude }.
Record scheduler := mkScheduler { sch_sky : sky; sch_threshold : Q; sch_handler : handler }.

(** celest/schedule/scheduler.py:51-76: the class of the first argument and of the second are tested *)
Definition new_scheduler (is_satellite is_number : bool) (satellite : sky) (threshold : Q) : res scheduler :=
  if negb is_satellite then Raise TypeError
  else if negb is_number then Raise TypeError
  else Ok (mkScheduler satellite threshold empty_handler).

(** The arguments of add_request (lines 78-80). *)
Record ask := mkAsk {
  k_loc : nat; k_deadline : Q; k_dur : Q; k_prio : Z; k_qual : Z; k_look : look; k_light : lighting }.

(** celest/schedule/scheduler.py:103-118 *)
Definition scheduler_add (s : scheduler) (a : ask) : res scheduler :=
  let sat := sch_sky s in
  vtws <- generate_vtws (sky_velocity sat) (sky_samples sat (k_loc a)) (sky_attitude sat (k_loc a))
            (sch_threshold s) (k_light a) ;;
  Ok (mkScheduler sat (sch_threshold s)
        (add_request (sch_handler s) (k_loc a) (k_deadline a) (k_dur a) (k_prio a) (k_qual a) (k_look a) vtws)).

(** celest/schedule/insertion_operators.py:28-71: the handler afterwards and the exception, if
    any *)
Fixpoint insert_loop_st (is : list nat) (h : handler) (n : Z) : handler * option exn :=
  match is with
  | [] => (h, None)
  | i :: rest =>
      if (n =? 0)%Z then (h, None)
      else
        match py_nth (reqs h) i with
        | Raise e => (h, Some e)
        | Ok r =>
            if r_sched r then insert_loop_st rest h n
            else
              match find_slot h r 0 (r_vtws r) with
              | Raise e => (h, Some e)
              | Ok None => insert_loop_st rest h n
              | Ok (Some (k, start)) =>
                  match schedule_request h i k start (r_dur r) with
                  | Raise e => (h, Some e)
                  | Ok h' => insert_loop_st rest h' (n - 1)
                  end
              end
        end
  end.
(** celest/schedule/scheduling_utils.py:7-25 *)
Definition initialize_st (h : handler) : handler * option exn :=
  let h := sort_vtws_by_increasing_rise_time (sort_by_decreasing_priority h) in
  insert_loop_st (seq 0 (h_n h)) h (Z.of_nat (h_n h)).

(** scheduler.py:146-168: the scheduler afterwards and what is returned or raised.  [solve]
    works on copies of the handler. *)
Definition scheduler_generate (exceeds : Q -> Q -> bool) (s : scheduler) (max_iter : Z) (annealing react : Q)
  (ds : nat -> draws) : scheduler * res (list observation) :=
  let h := sch_handler s in
  if (h_n h =? 0)%nat then (s, Raise PyException)
  else
    let (h1, failure) := initialize_st h in
    let s1 := mkScheduler (sch_sky s) (sch_threshold s) h1 in
    match failure with
    | Some e => (s1, Raise e)
    | None =>
        (s1, best <- solve (schedule_problem exceeds) h1 max_iter annealing react
                       (quarter (h_n h1)) (Z.of_nat (h_n h1)) ds ;;
             emit (fst best))
    end.

(** One call of a method. *)
Inductive call := CAdd (a : ask) | CGenerate (exceeds : Q -> Q -> bool) (max_iter : Z) (annealing react : Q) (ds : nat -> draws).
Inductive answer := Accepted | Windows (ws : list observation) | Failed (e : exn).
Definition do_call (c : call) (s : scheduler) : scheduler * answer :=
  match c with
  | CAdd a => match scheduler_add s a with Ok s' => (s', Accepted) | Raise e => (s, Failed e) end
  | CGenerate exceeds mi an re ds =>
      match scheduler_generate exceeds s mi an re ds with
      | (s', Ok ws) => (s', Windows ws)
      | (s', Raise e) => (s', Failed e)
      end
  end.
(** A session: any number of calls. *)
Fixpoint session (cs : list call) (s : scheduler) : scheduler * list answer :=
  match cs with
  | [] => (s, [])
  | c :: r => let (s1, a) := do_call c s in let (s2, l) := session r s1 in (s2, a :: l)
  end.
