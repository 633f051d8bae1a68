(** Model of celest/schedule/alns.py.

    Simplifications:
    - floats are exact rationals; [math.log(0.5)] is the decimal -0.6931471805599453;
    - solutions are immutable values, so [copy.deepcopy] is the identity and an operator
      that mutates its argument returns the new value;
    - the random module is a parameter: one record of draws per iteration;
    - [random.random() > math.exp(x)] is decided by a parameter ([exceeds]), which the
      properties about acceptance instantiate with the real exponential;
    - the search also returns a ghost log of its rounds, which the code does not keep. *)
From Coq Require Import List ZArith QArith Bool Arith.
From Verif Require Import Py.
Import ListNotations.
Open Scope Q_scope.
Open Scope list_scope.

(** celest/schedule/alns.py:9-13 *)
Definition best_score : Q := 3.
Definition better_score : Q := 2.
Definition accept_score : Q := 1.
Definition reject_score : Q := 0.
Definition sum_score : Q := 6.

(** [sum(l)] *)
Fixpoint qsum (l : list Q) : Q := match l with [] => 0 | x :: r => x + qsum r end.

(** celest/schedule/alns.py:166-180; dividing by a zero sum raises. *)
Definition get_probabilities (weights : list Q) : res (list Q) :=
  mapM (fun w => if Qeqb (qsum weights) 0 then Raise ZeroDivisionError
                 else Ok (w / qsum weights)) weights.

(** [itertools.accumulate] *)
Fixpoint accumulate (acc : Q) (l : list Q) : list Q :=
  match l with [] => [] | x :: r => (acc + x) :: accumulate (acc + x) r end.
(** [bisect.bisect_right(a, x, lo, hi)]; [hi - lo] at least halves, so [fuel] >= hi - lo
    is enough. *)
Fixpoint bisect_right (fuel : nat) (a : list Q) (x : Q) (lo hi : nat) : nat :=
  match fuel with
  | O => lo
  | S f =>
      if (lo <? hi)%nat then
        let mid := ((lo + hi) / 2)%nat in
        if Qltb x (nth mid a 0) then bisect_right f a x lo mid
        else bisect_right f a x (S mid) hi
      else lo
  end.
(** [random.choices(range(n), weights)[0]] as CPython implements it, for the draw [u] in
    [0, 1): the total weight must be positive, the index is found by bisection in the
    cumulative weights with [hi = n - 1].  [weights] has as many entries as there are
    operators (alns.py:116-117). *)
Definition random_choice (weights : list Q) (u : Q) : res nat :=
  let cum := accumulate 0 weights in
  match cum with
  | [] => Raise IndexError
  | _ =>
      let total := last cum 0 in
      if Qleb total 0 then Raise ValueError
      else Ok (bisect_right (length cum) cum (u * total) 0 (length cum - 1))
  end.

(** celest/schedule/alns.py:153-164, 182-193 *)
Definition get_index (weights : list Q) (u : Q) : res nat :=
  p <- get_probabilities weights ;; random_choice p u.

(** celest/schedule/alns.py:256-296: the weight of the operator used. *)
Definition update_weights (l score : Q) (index : nat) (weights : list Q) : list Q :=
  upd weights index (fun w => (1 - l) * w + l * score / sum_score).

(** [math.log(0.5)] *)
Definition log_half : Q := - (6931471805599453 # 10000000000000000).
(** Above this [math.exp] raises OverflowError. *)
Definition exp_limit : Q := 709782712893384 # 1000000000000.

Section Alns.
  Context {Sol : Type}.

  (** The functions the user of the class supplies (alns.py:38-87).  An operator gets a
      random source, a solution and a number. *)
  Definition operator := (nat -> nat) -> Sol -> Z -> res Sol.
  Record problem := mkProblem {
    p_cost : Sol -> res Q;
    p_complete : Sol -> res bool;
    p_destroy : list operator;
    p_repair : list operator;
    (** [exceeds u x]: the draw [u] is above [math.exp(x)]. *)
    p_exceeds : Q -> Q -> bool }.

  (** The random draws of one iteration. *)
  Record draws := mkDraws {
    d_destroy : Q; d_repair : Q; d_accept : Q; d_rnd1 : nat -> nat; d_rnd2 : nat -> nat }.

  (** celest/schedule/alns.py:225-254 *)
  Definition accept (pb : problem) (u : Q) (tmp cur : Sol) (T : Q) : res bool :=
    cc <- p_cost pb cur ;;
    ct <- p_cost pb tmp ;;
    if Qltb ct cc then Ok true
    else if Qeqb (T * cc) 0 then Raise ZeroDivisionError
    else let x := 100 * (ct - cc) / (T * cc) in
         if Qltb exp_limit x then Raise OverflowError
         else Ok (negb (p_exceeds pb u x)).

  (** Ghost log of a round. *)
  Record entry := mkEntry {
    e_destroy : nat; e_repair : nat;       (* operators used *)
    e_dweights : list Q; e_rweights : list Q;  (* weights before the round *)
    e_destroyed : Sol;                     (* after the destroy operator *)
    e_candidate : Sol;                     (* after the repair operator *)
    e_accepted : bool; e_score : Q; e_temperature : Q; e_current : Sol; e_best : Sol }.

  (** State of the loop. *)
  Record state := mkState {
    s_cur : Sol; s_best : Sol; s_T : Q; s_dw : list Q; s_rw : list Q }.

  (** celest/schedule/alns.py:124-149: one round; the boolean says that it returned at
      line 144. *)
  Definition round (pb : problem) (p l : Q) (n_remove n_add : Z) (d : draws) (s : state)
    : res (state * entry * bool) :=
    i <- get_index (s_dw s) (d_destroy d) ;;
    j <- get_index (s_rw s) (d_repair d) ;;
    fd <- py_nth (p_destroy pb) i ;;
    t1 <- fd (d_rnd1 d) (s_cur s) n_remove ;;
    fr <- py_nth (p_repair pb) j ;;
    tmp <- fr (d_rnd2 d) t1 n_add ;;
    a <- accept pb (d_accept d) tmp (s_cur s) (s_T s) ;;
    let cur := if a then tmp else s_cur s in
    score1 <- (if a : bool then
                 c1 <- p_cost pb tmp ;; c2 <- p_cost pb cur ;;
                 Ok (if Qltb c2 c1 then better_score else accept_score)
               else Ok reject_score) ;;
    ct <- p_cost pb tmp ;;
    cb <- p_cost pb (s_best s) ;;
    let best := if Qltb ct cb then tmp else s_best s in
    let score := if Qltb ct cb then best_score else score1 in
    done <- p_complete pb best ;;
    let e := mkEntry i j (s_dw s) (s_rw s) t1 tmp a score (s_T s) (s_cur s) best in
    if done : bool then Ok (mkState cur best (s_T s) (s_dw s) (s_rw s), e, true)
    else Ok (mkState cur best (p * s_T s) (update_weights l score i (s_dw s))
               (update_weights l score j (s_rw s)), e, false).

  (** celest/schedule/alns.py:122-151: the loop, with [k] iterations left; [ds] gives the
      draws of the iterations to come. *)
  Fixpoint rounds (pb : problem) (p l : Q) (n_remove n_add : Z) (k : nat) (ds : nat -> draws)
    (s : state) : res (Sol * list entry) :=
    match k with
    | O => Ok (s_best s, [])
    | S k' =>
        o <- round pb p l n_remove n_add (ds 0%nat) s ;;
        match o with
        | (s', e, true) => Ok (s_best s', [e])
        | (s', e, false) =>
            r <- rounds pb p l n_remove n_add k' (fun m => ds (S m)) s' ;;
            Ok (fst r, e :: snd r)
        end
    end.

  (** celest/schedule/alns.py:89-151 *)
  Definition solve (pb : problem) (initial : Sol) (max_iter : Z) (p l : Q)
    (n_remove n_add : Z) (ds : nat -> draws) : res (Sol * list entry) :=
    c <- p_cost pb initial ;;
    let T := (5 # 100) * c / log_half in
    b <- p_complete pb initial ;;
    if b : bool then Ok (initial, [])
    else rounds pb p l n_remove n_add (Z.to_nat max_iter) ds
           (mkState initial initial T (map (fun _ => 1) (p_destroy pb))
                    (map (fun _ => 1) (p_repair pb))).
End Alns.
Arguments problem Sol : clear implicits.
Arguments operator Sol : clear implicits.
Arguments entry Sol : clear implicits.
Arguments state Sol : clear implicits.
