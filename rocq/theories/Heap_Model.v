(** Model of the scheduler with mutable objects: request handlers, their lists and their
    requests live on a heap and are changed in place, [copy.deepcopy] allocates, and several
    schedulers share the heap.  Sched_Model.v, Alns_Model.v, Gen_Model.v and Sess_Model.v are
    the same code with values instead of objects.

    Simplifications, besides those of these files:
    - windows, quantities, locations and the lists of windows are values, because no code in
      celest/schedule changes one of them (request[vtw_list] is only ever replaced);
    - a computation that only reads is the function of Sched_Model.v on what is read from the
      heap at that moment; [iteration_index], which loops reset, is not kept;
    - a heap is a list of objects and an address a position in it; nothing is freed. *)
From Coq Require Import List ZArith QArith Bool Arith.
From Verif Require Import Py Sched_Model Vtw_Model Alns_Model Gen_Model Sess_Model.
Import ListNotations.
Open Scope Q_scope.
Open Scope list_scope.

Definition addr := nat.
(** celest/schedule/request_handler.py:31-34, 53-67: a handler refers to its list, the list
    to the requests. *)
Inductive obj :=
| OHandler (requests : addr) (number : nat) (scheduled : Z)
| OList (items : list addr)
| ORequest (fields : request).
Definition heap := list obj.

(** Statements: they change the heap also when they raise. *)
Definition M (A : Type) := heap -> heap * res A.
Definition ret {A} (x : A) : M A := fun H => (H, Ok x).
Definition fail {A} (e : exn) : M A := fun H => (H, Raise e).
Definition lift {A} (r : res A) : M A := fun H => (H, r).
Definition mbind {A B} (m : M A) (k : A -> M B) : M B :=
  fun H => let (H', r) := m H in match r with Ok x => k x H' | Raise e => (H', Raise e) end.
Notation "x <~ m ;; k" := (mbind m (fun x => k)) (at level 61, m at next level, right associativity).

Definition alloc (o : obj) : M addr := fun H => (H ++ [o], Ok (length H)).
Definition write (a : addr) (o : obj) : M unit := fun H => (upd H a (fun _ => o), Ok tt).
Definition get_handler (a : addr) : M (addr * nat * Z) := fun H =>
  (H, match nth_error H a with Some (OHandler l n s) => Ok (l, n, s) | _ => Raise AttributeError end).
Definition get_list (a : addr) : M (list addr) := fun H =>
  (H, match nth_error H a with Some (OList l) => Ok l | _ => Raise AttributeError end).
Definition get_request (a : addr) : M request := fun H =>
  (H, match nth_error H a with Some (ORequest r) => Ok r | _ => Raise AttributeError end).
Fixpoint get_requests (l : list addr) : M (list request) :=
  match l with
  | [] => ret []
  | a :: l' => r <~ get_request a ;; rs <~ get_requests l' ;; ret (r :: rs)
  end.
(** [handler.requests] *)
Definition get_items (a : addr) : M (list addr) :=
  x <~ get_handler a ;; let '(la, _, _) := x in get_list la.
(** What a computation that only reads sees of a handler. *)
Definition contents (a : addr) : M handler :=
  x <~ get_handler a ;; let '(la, n, s) := x in
  l <~ get_list la ;; rs <~ get_requests l ;; ret (mkH rs n s).

(** ** celest/schedule/request_handler.py *)

(** celest/schedule/request_handler.py:31-34 *)
Definition new_handler : M addr := la <~ alloc (OList []) ;; alloc (OHandler la 0 0).
(** celest/schedule/request_handler.py:53-67 *)
Definition h_add_request (a : addr) (loc : nat) (deadline dur : Q) (prio qual : Z) (lk : look) (vtws : list vtw) : M unit :=
  x <~ get_handler a ;; let '(la, n, s) := x in
  _ <~ write a (OHandler la (S n) s) ;;
  l <~ get_list la ;;
  ra <~ alloc (ORequest (new_request loc deadline dur prio qual lk vtws)) ;;
  write la (OList (l ++ [ra])).
(** [self.requests[i]] *)
Definition request_at (a : addr) (i : nat) : M addr := l <~ get_items a ;; lift (py_nth l i).
(** [self.number_of_scheduled_requests += d] *)
Definition count (a : addr) (d : Z) : M unit :=
  x <~ get_handler a ;; let '(la, n, s) := x in write a (OHandler la n (s + d)).
(** [self.requests[i]] changed in place *)
Definition change (a : addr) (i : nat) (f : request -> request) : M unit :=
  ra <~ request_at a i ;; r <~ get_request ra ;; write ra (ORequest (f r)).
(** celest/schedule/request_handler.py:69-74 *)
Definition h_schedule_request (a : addr) (i k : nat) (start dur : Q) : M unit :=
  _ <~ change a i (book k start dur) ;; count a 1.
(** celest/schedule/request_handler.py:81-86 *)
Definition h_unschedule_request (a : addr) (i : nat) : M unit :=
  _ <~ change a i unbook ;; count a (-1).
Fixpoint h_for (is : list nat) (body : nat -> M unit) : M unit :=
  match is with [] => ret tt | i :: r => _ <~ body i ;; h_for r body end.
(** celest/schedule/request_handler.py:76-79 *)
Definition h_unschedule_all (a : addr) : M unit :=
  x <~ get_handler a ;; let '(_, n, _) := x in
  _ <~ h_for (seq 0 n) (h_unschedule_request a) ;;
  x <~ get_handler a ;; let '(la, n, _) := x in write a (OHandler la n 0).
(** celest/schedule/request_handler.py:88-89 *)
Definition h_is_scheduled (a : addr) (i : nat) : M bool :=
  ra <~ request_at a i ;; r <~ get_request ra ;; ret (r_sched r).
(** [self.requests = l]: a new list of the old requests *)
Definition set_items (a : addr) (l : list addr) : M unit :=
  la' <~ alloc (OList l) ;;
  x <~ get_handler a ;; let '(_, n, s) := x in write a (OHandler la' n s).
(** [self.requests = sorted(self.requests, ...)] with the comparison [lt] of requests *)
Definition h_sort (lt : request -> request -> bool) (a : addr) : M unit :=
  l <~ get_items a ;; rs <~ get_requests l ;;
  set_items a (map fst (py_sorted (fun x y => lt (snd x) (snd y)) (combine l rs))).
(** celest/schedule/request_handler.py:118-120 *)
Definition h_sort_priority : addr -> M unit := h_sort (fun x y => (r_prio y <? r_prio x)%Z).
(** celest/schedule/request_handler.py:122-124 *)
Definition h_sort_decreasing_opportunity : addr -> M unit :=
  h_sort (fun x y => (length (r_vtws y) <? length (r_vtws x))%nat).
(** celest/schedule/request_handler.py:126-128 *)
Definition h_sort_increasing_opportunity : addr -> M unit :=
  h_sort (fun x y => (length (r_vtws x) <? length (r_vtws y))%nat).
(** celest/schedule/request_handler.py:130-147 *)
Definition h_sort_conflict (a : addr) : M unit :=
  h <~ contents a ;;
  degrees <~ lift (mapM (request_conflict_degree h) (reqs h)) ;;
  sorted <~ lift (py_sortedM pair_lt (combine degrees (seq 0 (length degrees)))) ;;
  l <~ get_items a ;;
  l' <~ lift (mapM (py_nth l) (rev (map snd sorted))) ;;
  set_items a l'.
(** celest/schedule/request_handler.py:184-194 *)
Definition h_sort_windows_of (a : addr) (i : nat) : M unit :=
  ra <~ request_at a i ;; r <~ get_request ra ;; h <~ contents a ;;
  degrees <~ lift (mapM (conflict_degree h) (r_vtws r)) ;;
  sorted <~ lift (py_sortedM pair_lt_vtw (combine degrees (r_vtws r))) ;;
  change a i (set_vtws (map snd sorted)).
Definition h_sort_windows_conflict (a : addr) : M unit :=
  x <~ get_handler a ;; let '(_, n, _) := x in h_for (seq 0 n) (h_sort_windows_of a).
(** celest/schedule/request_handler.py:196-201 *)
Fixpoint h_change_all (f : request -> request) (l : list addr) : M unit :=
  match l with
  | [] => ret tt
  | ra :: l' => r <~ get_request ra ;; _ <~ write ra (ORequest (f r)) ;; h_change_all f l'
  end.
Definition h_sort_windows_rise (a : addr) : M unit :=
  l <~ get_items a ;;
  h_change_all (fun r => set_vtws (py_sorted (fun v w => Qltb (v_rise v) (v_rise w)) (r_vtws r)) r) l.

(** ** celest/schedule/removal_operators.py *)

(** celest/schedule/removal_operators.py:25-30, with the fuel of Sched_Model.random_removal_loop *)
Fixpoint h_random_loop (fuel : nat) (rnd : nat -> nat) (a : addr) (unchecked : list nat) (n : Z) : M unit :=
  if (n >? 0)%Z then
    match fuel with
    | O => fail IndexError
    | S f =>
        i <~ lift (choice (rnd f) unchecked) ;;
        b <~ h_is_scheduled a i ;;
        if b : bool then
          _ <~ h_unschedule_request a i ;;
          h_random_loop f rnd a (list_remove i unchecked) (n - 1)
        else h_random_loop f rnd a (list_remove i unchecked) n
    end
  else ret tt.
(** celest/schedule/removal_operators.py:6-32 *)
Definition h_random_removal (rnd : nat -> nat) (a : addr) (n : Z) : M unit :=
  x <~ get_handler a ;; let '(_, number, s) := x in
  if (n >=? s)%Z then h_unschedule_all a
  else let unchecked := seq 0 (number - 1) in h_random_loop (S (length unchecked)) rnd a unchecked n.
(** celest/schedule/removal_operators.py:58-63, with the fuel of Sched_Model.remove_loop *)
Fixpoint h_remove_loop (fuel : nat) (a : addr) (i : nat) (n : Z) : M unit :=
  if (n >? 0)%Z then
    match fuel with
    | O => fail IndexError
    | S f =>
        b <~ h_is_scheduled a i ;;
        if b : bool then _ <~ h_unschedule_request a i ;; h_remove_loop f a (S i) (n - 1)
        else h_remove_loop f a (S i) n
    end
  else ret tt.
(** celest/schedule/removal_operators.py:53-65 *)
Definition h_remove_first_n (a : addr) (n : Z) : M unit :=
  x <~ get_handler a ;; let '(_, _, s) := x in
  if (n >=? s)%Z then h_unschedule_all a
  else l <~ get_items a ;; h_remove_loop (S (length l)) a 0 n.
(** celest/schedule/removal_operators.py:35-50, 68-90, 93-115, 118-123 *)
Definition h_removal_functions : list ((nat -> nat) -> addr -> Z -> M unit) :=
  [h_random_removal;
   fun _ a n => _ <~ h_sort_priority a ;; h_remove_first_n a n;
   fun _ a n => _ <~ h_sort_decreasing_opportunity a ;; h_remove_first_n a n;
   fun _ a n => _ <~ h_sort_conflict a ;; h_remove_first_n a n].

(** ** celest/schedule/insertion_operators.py *)

(** celest/schedule/insertion_operators.py:28-71 *)
Fixpoint h_insert_loop (is : list nat) (a : addr) (n : Z) : M unit :=
  match is with
  | [] => ret tt
  | i :: rest =>
      if (n =? 0)%Z then ret tt
      else
        ra <~ request_at a i ;; r <~ get_request ra ;;
        if r_sched r then h_insert_loop rest a n
        else
          h <~ contents a ;;
          o <~ lift (find_slot h r 0 (r_vtws r)) ;;
          match o with
          | None => h_insert_loop rest a n
          | Some (k, start) =>
              _ <~ h_schedule_request a i k start (r_dur r) ;;
              h_insert_loop rest a (n - 1)
          end
  end.
Definition h_insert_first_n (a : addr) (n : Z) : M unit :=
  x <~ get_handler a ;; let '(_, number, _) := x in h_insert_loop (seq 0 number) a n.
(** celest/schedule/insertion_operators.py:10-25, 186-208, 211-231, 234-238 *)
Definition h_insertion_functions : list ((nat -> nat) -> addr -> Z -> M unit) :=
  [fun _ a n => _ <~ h_sort_priority a ;; h_insert_first_n a n;
   fun _ a n => _ <~ h_sort_increasing_opportunity a ;; h_insert_first_n a n;
   fun _ a n => _ <~ h_sort_windows_conflict a ;; h_insert_first_n a n].

(** ** celest/schedule/scheduling_utils.py *)

(** celest/schedule/scheduling_utils.py:7-25 *)
Definition h_initialize (a : addr) : M unit :=
  _ <~ h_sort_priority a ;; _ <~ h_sort_windows_rise a ;;
  x <~ get_handler a ;; let '(_, number, _) := x in h_insert_first_n a (Z.of_nat number).
(** celest/schedule/scheduling_utils.py:28-48, 51-72 *)
Definition h_is_complete (a : addr) : M bool := h <~ contents a ;; lift (is_complete h).
Definition h_cost (a : addr) : M Q := h <~ contents a ;; lift (rmap inject_Z (cost h)).

(** ** celest/schedule/alns.py *)

(** [copy.deepcopy] of a handler: a new list and new requests; its memo keeps shared requests
    shared. *)
Fixpoint lookup (a : addr) (memo : list (addr * addr)) : option addr :=
  match memo with [] => None | (x, y) :: m => if (a =? x)%nat then Some y else lookup a m end.
Fixpoint copy_requests (l : list addr) (memo : list (addr * addr)) : M (list addr) :=
  match l with
  | [] => ret []
  | a :: l' =>
      match lookup a memo with
      | Some b => bs <~ copy_requests l' memo ;; ret (b :: bs)
      | None =>
          r <~ get_request a ;; b <~ alloc (ORequest r) ;;
          bs <~ copy_requests l' ((a, b) :: memo) ;; ret (b :: bs)
      end
  end.
Definition deepcopy (a : addr) : M addr :=
  x <~ get_handler a ;; let '(la, n, s) := x in
  l <~ get_list la ;; bs <~ copy_requests l [] ;;
  lb <~ alloc (OList bs) ;; alloc (OHandler lb n s).

Record h_problem := mkHProblem {
  hp_cost : addr -> M Q; hp_complete : addr -> M bool;
  hp_destroy : list ((nat -> nat) -> addr -> Z -> M unit);
  hp_repair : list ((nat -> nat) -> addr -> Z -> M unit);
  hp_exceeds : Q -> Q -> bool }.

(** celest/schedule/alns.py:225-254 *)
Definition h_accept (pb : h_problem) (u : Q) (tmp cur : addr) (T : Q) : M bool :=
  cc <~ hp_cost pb cur ;;
  ct <~ hp_cost pb tmp ;;
  if Qltb ct cc then ret true
  else if Qeqb (T * cc) 0 then fail ZeroDivisionError
  else let x := 100 * (ct - cc) / (T * cc) in
       if Qltb exp_limit x then fail OverflowError else ret (negb (hp_exceeds pb u x)).

(** The loop variables. *)
Record h_state := mkHState { hs_cur : addr; hs_best : addr; hs_T : Q; hs_dw : list Q; hs_rw : list Q }.

(** celest/schedule/alns.py:124-149; the boolean says that it returned at line 144. *)
Definition h_round (pb : h_problem) (p l : Q) (n_remove n_add : Z) (d : draws) (s : h_state) : M (h_state * bool) :=
  i <~ lift (get_index (hs_dw s) (d_destroy d)) ;;
  j <~ lift (get_index (hs_rw s) (d_repair d)) ;;
  tmp <~ deepcopy (hs_cur s) ;;
  fd <~ lift (py_nth (hp_destroy pb) i) ;;
  _ <~ fd (d_rnd1 d) tmp n_remove ;;
  fr <~ lift (py_nth (hp_repair pb) j) ;;
  _ <~ fr (d_rnd2 d) tmp n_add ;;
  a <~ h_accept pb (d_accept d) tmp (hs_cur s) (hs_T s) ;;
  cs <~ (if a : bool then
           cur <~ deepcopy tmp ;;
           c1 <~ hp_cost pb tmp ;; c2 <~ hp_cost pb cur ;;
           ret (cur, if Qltb c2 c1 then better_score else accept_score)
         else ret (hs_cur s, reject_score)) ;;
  ct <~ hp_cost pb tmp ;;
  cb <~ hp_cost pb (hs_best s) ;;
  bs <~ (if Qltb ct cb then best <~ deepcopy tmp ;; ret (best, best_score) else ret (hs_best s, snd cs)) ;;
  done <~ hp_complete pb (fst bs) ;;
  if done : bool then ret (mkHState (fst cs) (fst bs) (hs_T s) (hs_dw s) (hs_rw s), true)
  else ret (mkHState (fst cs) (fst bs) (p * hs_T s) (update_weights l (snd bs) i (hs_dw s))
              (update_weights l (snd bs) j (hs_rw s)), false).
(** celest/schedule/alns.py:122-151 *)
Fixpoint h_rounds (pb : h_problem) (p l : Q) (n_remove n_add : Z) (k : nat) (ds : nat -> draws) (s : h_state) : M addr :=
  match k with
  | O => ret (hs_best s)
  | S k' =>
      o <~ h_round pb p l n_remove n_add (ds 0%nat) s ;;
      if snd o then ret (hs_best (fst o))
      else h_rounds pb p l n_remove n_add k' (fun m => ds (S m)) (fst o)
  end.
(** celest/schedule/alns.py:89-151 *)
Definition h_solve (pb : h_problem) (initial : addr) (max_iter : Z) (p l : Q) (n_remove n_add : Z) (ds : nat -> draws) : M addr :=
  cur <~ deepcopy initial ;;
  best <~ deepcopy initial ;;
  c <~ hp_cost pb cur ;;
  let T := (5 # 100) * c / log_half in
  b <~ hp_complete pb best ;;
  if b : bool then ret best
  else h_rounds pb p l n_remove n_add (Z.to_nat max_iter) ds
         (mkHState cur best T (map (fun _ => 1) (hp_destroy pb)) (map (fun _ => 1) (hp_repair pb))).

(** ** celest/schedule/scheduler.py *)

(** celest/schedule/scheduler.py:152-155 *)
Definition h_schedule_problem (exceeds : Q -> Q -> bool) : h_problem :=
  mkHProblem h_cost h_is_complete h_removal_functions h_insertion_functions exceeds.
(** celest/schedule/scheduler.py:120-198 *)
Definition h_generate (exceeds : Q -> Q -> bool) (a : addr) (max_iter : Z) (annealing react : Q) (ds : nat -> draws)
  : M (list observation) :=
  x <~ get_handler a ;; let '(_, number, _) := x in
  if (number =? 0)%nat then fail PyException
  else
    _ <~ h_initialize a ;;
    x <~ get_handler a ;; let '(_, number, _) := x in
    best <~ h_solve (h_schedule_problem exceeds) a max_iter annealing react (quarter number) (Z.of_nat number) ds ;;
    h <~ contents best ;; lift (emit h).

(** A Scheduler object (lines 51-76): the satellite, the threshold and the handler. *)
Record h_scheduler := mkHScheduler { hc_sky : sky; hc_threshold : Q; hc_handler : addr }.
Definition new_h_scheduler (satellite : sky) (threshold : Q) : M h_scheduler :=
  a <~ new_handler ;; ret (mkHScheduler satellite threshold a).
(** celest/schedule/scheduler.py:103-118 *)
Definition h_scheduler_add (s : h_scheduler) (a : ask) : M unit :=
  let sat := hc_sky s in
  vtws <~ lift (generate_vtws (sky_velocity sat) (sky_samples sat (k_loc a)) (sky_attitude sat (k_loc a))
                  (hc_threshold s) (k_light a)) ;;
  h_add_request (hc_handler s) (k_loc a) (k_deadline a) (k_dur a) (k_prio a) (k_qual a) (k_look a) vtws.
Definition h_call (c : call) (s : h_scheduler) (H : heap) : heap * answer :=
  match c with
  | CAdd a => match h_scheduler_add s a H with (H', Ok _) => (H', Accepted) | (H', Raise e) => (H', Failed e) end
  | CGenerate exceeds mi an re ds =>
      match h_generate exceeds (hc_handler s) mi an re ds H with
      | (H', Ok ws) => (H', Windows ws)
      | (H', Raise e) => (H', Failed e)
      end
  end.

(** Several schedulers in one program: creating one more, or calling a method of the [i]-th. *)
Inductive action := Create (satellite : sky) (threshold : Q) | Call (i : nat) (c : call).
Fixpoint program (acts : list action) (ss : list h_scheduler) (H : heap) : list h_scheduler * heap * list (nat * answer) :=
  match acts with
  | [] => (ss, H, [])
  | Create sat th :: r =>
      match new_h_scheduler sat th H with
      | (H', Ok s) => program r (ss ++ [s]) H'
      | (H', Raise _) => (ss, H', [])
      end
  | Call i c :: r =>
      match nth_error ss i with
      | None => program r ss H
      | Some s => let (H', an) := h_call c s H in
                  let '(ss', H'', l) := program r ss H' in (ss', H'', (i, an) :: l)
      end
  end.
