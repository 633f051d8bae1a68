(** Model of celest/schedule (RequestHandler, removal and insertion operators, scheduling
    utilities) on binary64 floating-point numbers.  Sched_Model.v is the same code on exact
    rationals.

    Simplifications, used throughout:
    - times are floats in jd2000, the only date unit, and durations are floats in seconds,
      which is what Scheduler.add_request stores (scheduler.py:111-112); sums, differences
      and comparisons of such quantities are those of the floats;
    - a ground location is an abstract number (only its identity matters here);
    - [request[vtw_list]] is a plain list of pairwise distinct window objects;
    - mutation of the handler is state passing; an exception discards the state;
    - numbers are numpy's float64 (see Fl_Model.v). *)
From Coq Require Import List ZArith Bool Arith.
From Verif Require Import Py Fl_Model.
Import ListNotations.
Open Scope list_scope.

(** celest/coordinates/frames/attitude.py: the sampled attitude carried by a window
    (times in jd2000; the pitch in the unit [a_unit]). *)
Record attitude := mkAtt {
  a_time : list float; a_pitch : list float; a_unit : unit_name }.

(** celest/encounter/window_handling.py:12-64 *)
Record vtw := mkVtw { v_rise : float; v_set : float; v_att : attitude }.

(** The look angle of a request: None, a plain float (what scheduler.py:79 documents)
    or a Quantity. *)
Inductive look := NoLook | LookFloat (x : float) | LookQty (x : float) (u : unit_name).

(** celest/schedule/request_handler.py:6-18, 53-67: the fields of a request list. *)
Record request := mkReq {
  r_sched : bool;
  r_vidx : option nat;
  r_start : option float;
  r_sdur : option float;
  r_loc : nat;
  r_deadline : float;
  r_dur : float;
  r_prio : Z;
  r_qual : Z;
  r_look : look;
  r_vtws : list vtw }.

(** celest/schedule/request_handler.py:31-34 *)
Record handler := mkH { reqs : list request; h_n : nat; h_nsched : Z }.
Definition empty_handler : handler := mkH [] 0 0.

(** celest/schedule/request_handler.py:36-37 *)
Definition h_len (h : handler) : nat := h_n h.

(** celest/schedule/request_handler.py:46-51, [__next__] with the iteration index
    given and returned; [None] is StopIteration. *)
Definition h_next (h : handler) (i : nat) : res (option request * nat) :=
  if (S i <? h_n h)%nat then r <- py_nth (reqs h) i ;; Ok (Some r, S i)
  else Ok (None, S i).

(** [for request in handler] run to exhaustion: what the loop variable takes
    (celest/schedule/request_handler.py:42-51).  [fuel] bounds the number of calls
    of [__next__]; [h_n] calls always suffice (Sched_Proofs.h_items_spec).  The loop
    bodies in /repo do not change the handler, so leaving a loop early only means not
    looking at the remaining items; [__iter__] resets the index. *)
Fixpoint h_iter (fuel : nat) (h : handler) (i : nat) : res (list request) :=
  match fuel with
  | O => Ok []
  | S f =>
      o <- h_next h i ;;
      match o with
      | (None, _) => Ok []
      | (Some r, j) => l <- h_iter f h j ;; Ok (r :: l)
      end
  end.
Definition h_items (h : handler) : res (list request) := h_iter (S (h_n h)) h 0.

(** celest/schedule/request_handler.py:53-67 *)
Definition new_request (loc : nat) (deadline dur : float) (prio qual : Z) (lk : look)
  (vtws : list vtw) : request :=
  mkReq false None None None loc deadline dur prio qual lk vtws.
Definition add_request (h : handler) (loc : nat) (deadline dur : float) (prio qual : Z)
  (lk : look) (vtws : list vtw) : handler :=
  mkH (reqs h ++ [new_request loc deadline dur prio qual lk vtws]) (S (h_n h)) (h_nsched h).

(** The field updates of schedule_request and unschedule_request
    (celest/schedule/request_handler.py:70-73, 82-85). *)
Definition book (k : nat) (start dur : float) (r : request) : request :=
  mkReq true (Some k) (Some start) (Some dur) (r_loc r) (r_deadline r) (r_dur r)
    (r_prio r) (r_qual r) (r_look r) (r_vtws r).
Definition unbook (r : request) : request :=
  mkReq false None None None (r_loc r) (r_deadline r) (r_dur r)
    (r_prio r) (r_qual r) (r_look r) (r_vtws r).

(** celest/schedule/request_handler.py:69-74 *)
Definition schedule_request (h : handler) (i k : nat) (start dur : float) : res handler :=
  _ <- py_nth (reqs h) i ;;
  Ok (mkH (upd (reqs h) i (book k start dur)) (h_n h) (h_nsched h + 1)).

(** celest/schedule/request_handler.py:81-86 *)
Definition unschedule_request (h : handler) (i : nat) : res handler :=
  _ <- py_nth (reqs h) i ;;
  Ok (mkH (upd (reqs h) i unbook) (h_n h) (h_nsched h - 1)).

(** [for i in is: s = body(i, s)] with exceptions. *)
Fixpoint for_each {S : Type} (is : list nat) (body : nat -> S -> res S) (s : S) : res S :=
  match is with
  | [] => Ok s
  | i :: r => s' <- body i s ;; for_each r body s'
  end.

(** celest/schedule/request_handler.py:76-79 *)
Definition unschedule_all (h : handler) : res handler :=
  h' <- for_each (seq 0 (h_n h)) (fun i h => unschedule_request h i) h ;;
  Ok (mkH (reqs h') (h_n h') 0).

(** celest/schedule/request_handler.py:88-89 *)
Definition is_request_scheduled (h : handler) (i : nat) : res bool :=
  rmap r_sched (py_nth (reqs h) i).

(** celest/schedule/request_handler.py:118-120 *)
Definition sort_by_decreasing_priority (h : handler) : handler :=
  mkH (py_sorted (fun x y => (r_prio y <? r_prio x)%Z) (reqs h)) (h_n h) (h_nsched h).

(** celest/schedule/request_handler.py:122-124 *)
Definition sort_by_decreasing_opportunity (h : handler) : handler :=
  mkH (py_sorted (fun x y => (length (r_vtws y) <? length (r_vtws x))%nat) (reqs h))
      (h_n h) (h_nsched h).

(** celest/schedule/request_handler.py:126-128 *)
Definition sort_by_increasing_opportunity (h : handler) : handler :=
  mkH (py_sorted (fun x y => (length (r_vtws x) <? length (r_vtws y))%nat) (reqs h))
      (h_n h) (h_nsched h).

(** celest/schedule/request_handler.py:166-167 *)
Definition are_vtws_overlapping (v1 v2 : vtw) : bool :=
  negb (flt (v_set v1) (v_rise v2) || flt (v_set v2) (v_rise v1)).

(** A Python value that is either a plain number (the integer 0 or a float, here the float)
    or a Quantity (in days). *)
Inductive num := PNum (x : float) | PQty (x : float).

(** celest/schedule/request_handler.py:169-182; [None] is falling off the end. *)
Definition julian_day_overlap (v1 v2 : vtw) : option num :=
  let s1 := v_rise v1 in let s2 := v_rise v2 in
  let e1 := v_set v1 in let e2 := v_set v2 in
  if flt e1 s2 || flt e2 s1 then Some (PNum (of_Z 0))
  else if flt s1 s2 && flt e2 e1 then Some (PQty (fadd e2 (fneg s2)))
  else if flt s2 s1 && flt e1 e2 then Some (PQty (fadd e1 (fneg s1)))
  else if flt s2 e1 then Some (PQty (fadd e1 (fneg s2)))
  else if flt s1 e2 then Some (PQty (fadd e2 (fneg s1)))
  else None.

(** [x + y] where [x] is a number or Quantity and [y] what the function above returned
    (quantity.py __add__/__radd__: a plain number is added to the data). *)
Definition num_add (x : num) (y : option num) : res num :=
  match x, y with
  | _, None => Raise TypeError
  | PNum a, Some (PNum b) => Ok (PNum (fadd a b))
  | PNum a, Some (PQty b) => Ok (PQty (fadd b a))
  | PQty a, Some (PNum b) => Ok (PQty (fadd a b))
  | PQty a, Some (PQty b) => Ok (PQty (fadd a b))
  end.
Definition num_div (x : num) (n : nat) : res num :=
  match n with
  | O => Raise ZeroDivisionError
  | _ => Ok (match x with
             | PNum a => PNum (fdiv a (of_Z (Z.of_nat n)))
             | PQty a => PQty (fdiv a (of_Z (Z.of_nat n)))
             end)
  end.

(** celest/schedule/request_handler.py:157-164 *)
Definition set_of_overlapping_vtws (h : handler) (v : vtw) : list vtw :=
  flat_map (fun r => filter (are_vtws_overlapping v) (r_vtws r)) (reqs h).

(** celest/schedule/request_handler.py:149-155 *)
Fixpoint total_overlap (acc : num) (v : vtw) (l : list vtw) : res num :=
  match l with
  | [] => Ok acc
  | w :: r => acc' <- num_add acc (julian_day_overlap v w) ;; total_overlap acc' v r
  end.
Definition conflict_degree (h : handler) (v : vtw) : res num :=
  let overlapping := set_of_overlapping_vtws h v in
  t <- total_overlap (PNum (of_Z 0)) v overlapping ;;
  num_div t (length overlapping).

(** [x == y] and [x < y] between numbers and Quantities: mixed equality is False
    (both operands decline), mixed order raises TypeError (quantity.py:174-208, see
    Units_Model.q_cmp). *)
Definition num_eq (x y : num) : bool :=
  match x, y with
  | PNum a, PNum b => feq a b
  | PQty a, PQty b => feq a b
  | _, _ => false
  end.
Definition num_lt (x y : num) : res bool :=
  match x, y with
  | PNum a, PNum b => Ok (flt a b)
  | PQty a, PQty b => Ok (flt a b)
  | _, _ => Raise TypeError
  end.

(** Tuple comparison [(x, i) < (y, j)]: the first components decide unless equal. *)
Definition pair_lt (p q : num * nat) : res bool :=
  if num_eq (fst p) (fst q) then Ok (snd p <? snd q)%nat else num_lt (fst p) (fst q).
(** [(x, v) < (y, w)] where [v], [w] are distinct window objects, which have no
    order: TypeError when the first components are equal. *)
Definition pair_lt_vtw (p q : num * vtw) : res bool :=
  if num_eq (fst p) (fst q) then Raise TypeError else num_lt (fst p) (fst q).

(** celest/schedule/request_handler.py:133-139, the conflict degree of a request. *)
Definition request_conflict_degree (h : handler) (r : request) : res num :=
  if r_sched r then
    match r_vidx r with
    | None => Raise TypeError
    | Some k => v <- py_nth (r_vtws r) k ;; conflict_degree h v
    end
  else Ok (PNum (of_Z 0)).

(** celest/schedule/request_handler.py:130-147.  [sorted] raises as soon as it compares
    two incomparable elements; a comparison sort has to compare some number with some
    Quantity when both occur, whatever its strategy. *)
Definition sort_by_decreasing_conflict_degree (h : handler) : res handler :=
  degrees <- mapM (request_conflict_degree h) (reqs h) ;;
  sorted <- py_sortedM pair_lt (combine degrees (seq 0 (length degrees))) ;;
  l <- mapM (py_nth (reqs h)) (rev (map snd sorted)) ;;
  Ok (mkH l (h_n h) (h_nsched h)).

(** celest/schedule/request_handler.py:184-194.  A comparison sort has to compare
    every two elements that are neighbours in the result, so equal degrees always raise. *)
Definition set_vtws (l : list vtw) (r : request) : request :=
  mkReq (r_sched r) (r_vidx r) (r_start r) (r_sdur r) (r_loc r) (r_deadline r) (r_dur r)
    (r_prio r) (r_qual r) (r_look r) l.
Definition sort_vtws_of (h : handler) (i : nat) : res handler :=
  r <- py_nth (reqs h) i ;;
  degrees <- mapM (conflict_degree h) (r_vtws r) ;;
  sorted <- py_sortedM pair_lt_vtw (combine degrees (r_vtws r)) ;;
  Ok (mkH (upd (reqs h) i (set_vtws (map snd sorted))) (h_n h) (h_nsched h)).
Definition sort_vtws_by_increasing_conflict_degree (h : handler) : res handler :=
  for_each (seq 0 (h_n h)) (fun i h => sort_vtws_of h i) h.

(** celest/schedule/request_handler.py:196-201 *)
Definition sort_vtws_by_increasing_rise_time (h : handler) : handler :=
  mkH (map (fun r => set_vtws (py_sorted (fun v w => flt (v_rise v) (v_rise w)) (r_vtws r)) r)
           (reqs h))
      (h_n h) (h_nsched h).

(** ** Removal operators *)

(** [random.choice(l)]: the random source [c] picks any position. *)
Definition choice (c : nat) (l : list nat) : res nat :=
  match l with
  | [] => Raise IndexError
  | _ => py_nth l (c mod length l)
  end.
(** [l.remove(x)] *)
Fixpoint list_remove (x : nat) (l : list nat) : list nat :=
  match l with
  | [] => []
  | y :: r => if (x =? y)%nat then r else y :: list_remove x r
  end.

(** celest/schedule/removal_operators.py:25-30.  Every pass removes an index, so
    [S (length unchecked)] passes are enough: the next one fails in [choice]. *)
Fixpoint random_removal_loop (fuel : nat) (rnd : nat -> nat) (h : handler)
  (unchecked : list nat) (n : Z) : res handler :=
  if (n >? 0)%Z then
    match fuel with
    | O => Raise IndexError
    | S f =>
        i <- choice (rnd f) unchecked ;;
        b <- is_request_scheduled h i ;;
        if b : bool then
          h' <- unschedule_request h i ;;
          random_removal_loop f rnd h' (list_remove i unchecked) (n - 1)
        else random_removal_loop f rnd h (list_remove i unchecked) n
    end
  else Ok h.

(** celest/schedule/removal_operators.py:6-32 *)
Definition random_removal (rnd : nat -> nat) (h : handler) (n : Z) : res handler :=
  if (n >=? h_nsched h)%Z then unschedule_all h
  else
    let unchecked := seq 0 (h_len h - 1) in
    random_removal_loop (S (length unchecked)) rnd h unchecked n.

(** celest/schedule/removal_operators.py:58-63.  [is_request_scheduled] raises
    IndexError past the end, so [fuel] = number of requests + 1 is enough. *)
Fixpoint remove_loop (fuel : nat) (h : handler) (i : nat) (n : Z) : res handler :=
  if (n >? 0)%Z then
    match fuel with
    | O => Raise IndexError
    | S f =>
        b <- is_request_scheduled h i ;;
        if b : bool then
          h' <- unschedule_request h i ;; remove_loop f h' (S i) (n - 1)
        else remove_loop f h (S i) n
    end
  else Ok h.

(** celest/schedule/removal_operators.py:53-65 *)
Definition remove_first_n_scheduled (h : handler) (n : Z) : res handler :=
  if (n >=? h_nsched h)%Z then unschedule_all h
  else remove_loop (S (length (reqs h))) h 0 n.

(** celest/schedule/removal_operators.py:35-50 *)
Definition priority_removal (h : handler) (n : Z) : res handler :=
  remove_first_n_scheduled (sort_by_decreasing_priority h) n.
(** celest/schedule/removal_operators.py:68-90 *)
Definition opportunity_removal (h : handler) (n : Z) : res handler :=
  remove_first_n_scheduled (sort_by_decreasing_opportunity h) n.
(** celest/schedule/removal_operators.py:93-115 *)
Definition conflict_removal (h : handler) (n : Z) : res handler :=
  h' <- sort_by_decreasing_conflict_degree h ;; remove_first_n_scheduled h' n.

(** celest/schedule/removal_operators.py:118-123; [rnd] is the random source. *)
Definition removal_functions : list ((nat -> nat) -> handler -> Z -> res handler) :=
  [random_removal; fun _ => priority_removal; fun _ => opportunity_removal;
   fun _ => conflict_removal].

(** ** Insertion operators *)

(** [np.where(l == x)[0][0]] from position [i]. *)
Fixpoint first_index (x : float) (l : list float) (i : nat) : res nat :=
  match l with
  | [] => Raise IndexError
  | y :: r => if feq y x then Ok i else first_index x r (S i)
  end.

(** celest/schedule/insertion_operators.py:114-121; [right - left] halves, so
    [right - left] passes are enough. *)
Fixpoint bisect_angle (fuel : nat) (off : list float) (left right : nat) (lval : float) : res nat :=
  match fuel with
  | O => Ok left
  | S f =>
      if (left + 1 <? right)%nat then
        let mid := ((left + right) / 2)%nat in
        m <- py_nth off mid ;;
        if flt (of_Z 0) (fmul lval m) then bisect_angle f off mid right m
        else bisect_angle f off left mid lval
      else Ok left
  end.

(** celest/schedule/insertion_operators.py:74-123; a float has no [.to] (line 103). *)
Definition look_angle_time (pitch : list float) (u : unit_name) (desired : look) (times : list float)
  (start end_ : float) : res (option float) :=
  match desired with
  | NoLook => Raise AttributeError
  | LookFloat _ => Raise AttributeError
  | LookQty d w =>
      pitch <- mapM (fun p => fconvert p u Udeg) pitch ;;
      d <- fconvert d w Udeg ;;
      let off := map (fun p => fsub p d) pitch in
      l <- first_index start times 0 ;;
      r <- first_index end_ times 0 ;;
      lv <- py_nth off l ;;
      rv <- py_nth off r ;;
      if flt (of_Z 0) (fmul lv rv) then Ok None
      else i <- bisect_angle (r - l) off l r lv ;; t <- py_nth times i ;; Ok (Some t)
  end.

(** celest/schedule/insertion_operators.py:126-127 *)
Definition is_window_within_vtw_bounds (start dur_days : float) (v : vtw) : bool :=
  fwithin start dur_days (v_rise v) (v_set v).
(** celest/schedule/insertion_operators.py:130-131 *)
Definition does_window_meet_deadline (start dur_days deadline : float) : bool :=
  fdeadline start dur_days deadline.

(** celest/schedule/insertion_operators.py:138-161 *)
Definition image_quality (v : vtw) (start : float) : res Z := fquality (v_rise v) (v_set v) start.
(** celest/schedule/insertion_operators.py:134-135 *)
Definition is_image_quality_met (v : vtw) (start : float) (quality : Z) : res bool :=
  q <- image_quality v start ;; Ok (quality <=? q)%Z.

(** Seconds to days (celest/schedule/insertion_operators.py:43, 170-173): what [duration.to(u.dy)]
    returns (Fls_Proofs.in_days_convert). *)
Definition in_days (seconds : float) : float := fmul seconds (fdiv (unit_scale Us) (unit_scale Udy)).

(** celest/schedule/insertion_operators.py:164-183 *)
Fixpoint conflict_loop (l : list request) (start dur_days : float) : res bool :=
  match l with
  | [] => Ok false
  | r :: rest =>
      if r_sched r then
        match r_start r, r_sdur r with
        | Some s, Some d =>
            let e := fadd s (in_days d) in
            if fle start s && flt s (fadd start dur_days) then Ok true
            else if flt start e && fle e (fadd start dur_days) then Ok true
            else if fle s start && fle (fadd start dur_days) e then Ok true
            else conflict_loop rest start dur_days
        | _, _ => Raise AttributeError
        end
      else conflict_loop rest start dur_days
  end.
Definition does_conflict_exist (h : handler) (start dur_days : float) : res bool :=
  l <- h_items h ;; conflict_loop l start dur_days.

(** celest/schedule/insertion_operators.py:47-67: the start time for request [r] in
    window [v] if all the checks pass. *)
Definition try_window (h : handler) (r : request) (v : vtw) : res (option float) :=
  let d := in_days (r_dur r) in
  o <- match r_look r with
       | NoLook => Ok (Some (fstart (v_rise v) (v_set v) d))
       | lk => look_angle_time (a_pitch (v_att v)) (a_unit (v_att v)) lk (a_time (v_att v)) (v_rise v) (v_set v)
       end ;;
  match o with
  | None => Ok None
  | Some start =>
      if negb (is_window_within_vtw_bounds start d v) then Ok None
      else if negb (does_window_meet_deadline start d (r_deadline r)) then Ok None
      else
        q <- is_image_quality_met v start (r_qual r) ;;
        if negb q then Ok None
        else c <- does_conflict_exist h start d ;;
             Ok (if c : bool then None else Some start)
  end.

(** celest/schedule/insertion_operators.py:45-71: first window that passes. *)
Fixpoint find_slot (h : handler) (r : request) (k : nat) (l : list vtw) : res (option (nat * float)) :=
  match l with
  | [] => Ok None
  | v :: rest =>
      o <- try_window h r v ;;
      match o with
      | Some start => Ok (Some (k, start))
      | None => find_slot h r (S k) rest
      end
  end.

(** celest/schedule/insertion_operators.py:28-71; [if not number_to_insert] only stops
    at zero. *)
Fixpoint insert_loop (is : list nat) (h : handler) (n : Z) : res handler :=
  match is with
  | [] => Ok h
  | i :: rest =>
      if (n =? 0)%Z then Ok h
      else
        r <- py_nth (reqs h) i ;;
        if r_sched r then insert_loop rest h n
        else
          o <- find_slot h r 0 (r_vtws r) ;;
          match o with
          | None => insert_loop rest h n
          | Some (k, start) =>
              h' <- schedule_request h i k start (r_dur r) ;;
              insert_loop rest h' (n - 1)
          end
  end.
Definition insert_first_n (h : handler) (n : Z) : res handler :=
  insert_loop (seq 0 (h_n h)) h n.

(** celest/schedule/insertion_operators.py:10-25 *)
Definition greedy_insertion (h : handler) (n : Z) : res handler :=
  insert_first_n (sort_by_decreasing_priority h) n.
(** celest/schedule/insertion_operators.py:186-208 *)
Definition minimum_opportunity_insertion (h : handler) (n : Z) : res handler :=
  insert_first_n (sort_by_increasing_opportunity h) n.
(** celest/schedule/insertion_operators.py:211-231 *)
Definition minimum_conflict_insertion (h : handler) (n : Z) : res handler :=
  h' <- sort_vtws_by_increasing_conflict_degree h ;; insert_first_n h' n.

(** celest/schedule/insertion_operators.py:234-238 *)
Definition insertion_functions : list ((nat -> nat) -> handler -> Z -> res handler) :=
  [fun _ => greedy_insertion; fun _ => minimum_opportunity_insertion;
   fun _ => minimum_conflict_insertion].

(** ** Scheduling utilities *)

(** celest/schedule/scheduling_utils.py:7-25 *)
Definition initialize_solution (h : handler) : res handler :=
  let h := sort_vtws_by_increasing_rise_time (sort_by_decreasing_priority h) in
  insert_first_n h (Z.of_nat (h_n h)).

(** celest/schedule/scheduling_utils.py:28-48 *)
Definition is_complete (h : handler) : res bool :=
  l <- h_items h ;; Ok (forallb r_sched l).

(** celest/schedule/scheduling_utils.py:51-72 *)
Definition cost (h : handler) : res Z :=
  l <- h_items h ;;
  Ok (fold_left (fun c r => if r_sched r then (c - r_prio r)%Z else c) l 0%Z).
