(** Model of celest/schedule/alns.py and of Scheduler.generate on binary64 floating-point
    numbers.  Alns_Model.v and Gen_Model.v are the same code on exact rationals.

    Simplifications:
    - costs are integers, which is what scheduling_utils.cost returns;
    - [math.exp] and the random module are parameters: a function on floats that may raise,
      and one record of draws per iteration;
    - [sum] and [itertools.accumulate] add from left to right (before Python 3.12, which
      compensates rounding errors in [sum]);
    - solutions are immutable values, so [copy.deepcopy] is the identity;
    - the search also returns a ghost log of its rounds, which the code does not keep. *)
From Coq Require Import List ZArith Bool Arith.
From Flocq Require Import IEEE754.Binary.
From Verif Require Import Py Fl_Model Fls_Model.
Import ListNotations.
Open Scope list_scope.

(** [float(z)], which arithmetic between integers and floats applies to the integer *)
Definition to_float (z : Z) : res float :=
  if is_finite 53 1024 (of_Z z) then Ok (of_Z z) else Raise OverflowError.
(** [x / y] of Python floats *)
Definition py_div (x y : float) : res float :=
  if feq y (of_Z 0) then Raise ZeroDivisionError else Ok (fdiv x y).

(** celest/schedule/alns.py:9-13 *)
Definition best_score : Z := 3.
Definition better_score : Z := 2.
Definition accept_score : Z := 1.
Definition reject_score : Z := 0.
Definition sum_score : Z := 6.

(** [sum(l)]; the integer 0 it starts with and integer weights are exact as floats. *)
Definition fsum (l : list float) : float := fold_left fadd l (of_Z 0).

(** celest/schedule/alns.py:166-180 *)
Definition get_probabilities (weights : list float) : res (list float) :=
  mapM (fun w => py_div w (fsum weights)) weights.

(** [itertools.accumulate] *)
Fixpoint accumulate_from (acc : float) (l : list float) : list float :=
  match l with [] => [] | x :: r => fadd acc x :: accumulate_from (fadd acc x) r end.
Definition accumulate (l : list float) : list float :=
  match l with [] => [] | x :: r => x :: accumulate_from x r end.
(** [bisect.bisect_right(a, x, lo, hi)]; [hi - lo] at least halves, so [fuel] >= hi - lo
    is enough. *)
Fixpoint bisect_right (fuel : nat) (a : list float) (x : float) (lo hi : nat) : nat :=
  match fuel with
  | O => lo
  | S f =>
      if (lo <? hi)%nat then
        let mid := ((lo + hi) / 2)%nat in
        if flt x (nth mid a (of_Z 0)) then bisect_right f a x lo mid
        else bisect_right f a x (S mid) hi
      else lo
  end.
(** [random.choices(range(n), weights)[0]] as CPython implements it, for the draw [u] in
    [0, 1): the total weight must be positive and finite, the index is found by bisection in
    the cumulative weights with [hi = n - 1].  [weights] has as many entries as there are
    operators (alns.py:116-117). *)
Definition random_choice (weights : list float) (u : float) : res nat :=
  let cum := accumulate weights in
  match cum with
  | [] => Raise IndexError
  | _ =>
      let total := last cum (of_Z 0) in
      if fle total (of_Z 0) then Raise ValueError
      else if negb (is_finite 53 1024 total) then Raise ValueError
      else Ok (bisect_right (length cum) cum (fmul u total) 0 (length cum - 1))
  end.

(** celest/schedule/alns.py:153-164, 182-193 *)
Definition get_index (weights : list float) (u : float) : res nat :=
  p <- get_probabilities weights ;; random_choice p u.

(** celest/schedule/alns.py:256-296: the weight of the operator used. *)
Definition new_weight (l : float) (score : Z) (w : float) : float :=
  fadd (fmul (fsub (of_Z 1) l) w) (fdiv (fmul l (of_Z score)) (of_Z sum_score)).
Definition update_weights (l : float) (score : Z) (index : nat) (weights : list float) : list float :=
  upd weights index (new_weight l score).

(** [math.log(0.5)] *)
Definition log_half : float := fneg (literal 6931471805599453 10000000000000000).
(** celest/schedule/alns.py:114 *)
Definition first_temperature (cost : Z) : res float :=
  c <- to_float cost ;; py_div (fmul (literal 5 100) c) log_half.

Section Search.
  Context {Sol : Type}.

  (** The functions the user of the class supplies (alns.py:38-87), and [math.exp]. *)
  Definition operator := (nat -> nat) -> Sol -> Z -> res Sol.
  Record problem := mkProblem {
    p_cost : Sol -> res Z;
    p_complete : Sol -> res bool;
    p_destroy : list operator;
    p_repair : list operator;
    p_exp : float -> res float }.

  (** The random draws of one iteration. *)
  Record draws := mkDraws {
    d_destroy : float; d_repair : float; d_accept : float; d_rnd1 : nat -> nat; d_rnd2 : nat -> nat }.

  (** celest/schedule/alns.py:252-253 *)
  Definition exponent (T : float) (cc ct : Z) : res float :=
    x <- to_float (100 * (ct - cc)) ;;
    c <- to_float cc ;;
    py_div x (fmul T c).
  (** celest/schedule/alns.py:225-254 *)
  Definition accept (pb : problem) (u : float) (tmp cur : Sol) (T : float) : res bool :=
    cc <- p_cost pb cur ;;
    ct <- p_cost pb tmp ;;
    if (ct <? cc)%Z then Ok true
    else x <- exponent T cc ct ;;
         q <- p_exp pb x ;;
         Ok (negb (flt q u)).

  (** Ghost log of a round. *)
  Record entry := mkEntry {
    e_destroy : nat; e_repair : nat;       (* operators used *)
    e_dweights : list float; e_rweights : list float;  (* weights before the round *)
    e_destroyed : Sol;                     (* after the destroy operator *)
    e_candidate : Sol;                     (* after the repair operator *)
    e_accepted : bool; e_score : Z; e_temperature : float; e_current : Sol; e_best : Sol }.

  (** State of the loop. *)
  Record state := mkState {
    s_cur : Sol; s_best : Sol; s_T : float; s_dw : list float; s_rw : list float }.

  (** celest/schedule/alns.py:124-149: one round; the boolean says that it returned at
      line 144. *)
  Definition round (pb : problem) (p l : float) (n_remove n_add : Z) (d : draws) (s : state)
    : res (state * entry * bool) :=
    i <- get_index (s_dw s) (d_destroy d) ;;
    j <- get_index (s_rw s) (d_repair d) ;;
    fd <- py_nth (p_destroy pb) i ;;
    t1 <- fd (d_rnd1 d) (s_cur s) n_remove ;;
    fr <- py_nth (p_repair pb) j ;;
    tmp <- fr (d_rnd2 d) t1 n_add ;;
    a <- accept pb (d_accept d) tmp (s_cur s) (s_T s) ;;
    let cur := if a then tmp else s_cur s in
    score1 <- (if a : bool then
                 c1 <- p_cost pb tmp ;; c2 <- p_cost pb cur ;;
                 Ok (if (c2 <? c1)%Z then better_score else accept_score)
               else Ok reject_score) ;;
    ct <- p_cost pb tmp ;;
    cb <- p_cost pb (s_best s) ;;
    let best := if (ct <? cb)%Z then tmp else s_best s in
    let score := if (ct <? cb)%Z then best_score else score1 in
    done <- p_complete pb best ;;
    let e := mkEntry i j (s_dw s) (s_rw s) t1 tmp a score (s_T s) (s_cur s) best in
    if done : bool then Ok (mkState cur best (s_T s) (s_dw s) (s_rw s), e, true)
    else Ok (mkState cur best (fmul p (s_T s)) (update_weights l score i (s_dw s))
               (update_weights l score j (s_rw s)), e, false).

  (** celest/schedule/alns.py:122-151: the loop, with [k] iterations left; [ds] gives the
      draws of the iterations to come. *)
  Fixpoint rounds (pb : problem) (p l : float) (n_remove n_add : Z) (k : nat) (ds : nat -> draws)
    (s : state) : res (Sol * list entry) :=
    match k with
    | O => Ok (s_best s, [])
    | S k' =>
        o <- round pb p l n_remove n_add (ds 0%nat) s ;;
        match o with
        | (s', e, true) => Ok (s_best s', [e])
        | (s', e, false) =>
            r <- rounds pb p l n_remove n_add k' (fun m => ds (S m)) s' ;;
            Ok (fst r, e :: snd r)
        end
    end.

  (** celest/schedule/alns.py:89-151 *)
  Definition solve (pb : problem) (initial : Sol) (max_iter : Z) (p l : float)
    (n_remove n_add : Z) (ds : nat -> draws) : res (Sol * list entry) :=
    c <- p_cost pb initial ;;
    T <- first_temperature c ;;
    b <- p_complete pb initial ;;
    if b : bool then Ok (initial, [])
    else rounds pb p l n_remove n_add (Z.to_nat max_iter) ds
           (mkState initial initial T (map (fun _ => of_Z 1) (p_destroy pb))
                    (map (fun _ => of_Z 1) (p_repair pb))).
End Search.
Arguments problem Sol : clear implicits.
Arguments operator Sol : clear implicits.
Arguments entry Sol : clear implicits.
Arguments state Sol : clear implicits.

(** ** celest/schedule/scheduler.py *)

(** celest/encounter/window_handling.py:67-125; the attitude has no samples (Gen_Model). *)
Record observation := mkObs { o_start : float; o_dur : float; o_loc : nat }.

(** celest/schedule/scheduler.py:152-155 *)
Definition schedule_problem (exp : float -> res float) : problem handler :=
  mkProblem cost is_complete removal_functions insertion_functions exp.

(** celest/schedule/scheduler.py:174-196, for one scheduled request.  A scheduled request
    without an index would raise TypeError (list index). *)
Definition emit_one (r : request) : res observation :=
  match r_vidx r, r_start r, r_sdur r with
  | Some k, Some s, Some d => _ <- py_nth (r_vtws r) k ;; Ok (mkObs s d (r_loc r))
  | _, _, _ => Raise TypeError
  end.
(** celest/schedule/scheduler.py:170-198 *)
Definition emit (h : handler) : res (list observation) :=
  l <- h_items h ;; mapM emit_one (filter r_sched l).

(** [math.ceil(n / 4)]; the quotient is exact for fewer than [2 ^ 53] requests. *)
Definition quarter (n : nat) : Z := (Z.of_nat n + 3) / 4.

(** celest/schedule/scheduler.py:146-166: the request handler afterwards (initialised in
    place), the best solution and the ghost log of the search. *)
Definition search (exp : float -> res float) (h : handler) (max_iter : Z)
  (annealing react : float) (ds : nat -> draws) : res (handler * handler * list (entry handler)) :=
  if (h_n h =? 0)%nat then Raise PyException
  else
    h1 <- initialize_solution h ;;
    r <- solve (schedule_problem exp) h1 max_iter annealing react
           (quarter (h_n h1)) (Z.of_nat (h_n h1)) ds ;;
    Ok (h1, fst r, snd r).

(** celest/schedule/scheduler.py:120-168: the handler afterwards and the returned
    windows. *)
Definition generate (exp : float -> res float) (h : handler) (max_iter : Z)
  (annealing react : float) (ds : nat -> draws) : res (handler * list observation) :=
  s <- search exp h max_iter annealing react ds ;;
  ws <- emit (snd (fst s)) ;;
  Ok (fst (fst s), ws).
