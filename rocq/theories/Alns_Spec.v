(** Specification vocabulary for the adaptive search. *)
From Coq Require Import List ZArith QArith Bool Arith Reals Qreals.
From Verif Require Import Py Alns_Model.
Import ListNotations.
Open Scope nat_scope.
Open Scope list_scope.

(** [b] is the first of the cheapest elements of [l]. *)
Definition earliest_best {Sol} (cost : Sol -> res Q) (l : list Sol) (b : Sol) : Prop :=
  exists l1 l2 c, l = l1 ++ b :: l2 /\ cost b = Ok c /\
    (forall x, In x l1 -> exists c', cost x = Ok c' /\ (c < c')%Q) /\
    (forall x, In x l2 -> exists c', cost x = Ok c' /\ (c <= c')%Q).

Definition candidates {Sol} (log : list (entry Sol)) : list Sol := map e_candidate log.

(** Draws of the random module are in [0, 1). *)
Definition unit_draw (u : Q) : Prop := (0 <= u < 1)%Q.

(** Operator [i] owns the [i]-th of the consecutive intervals of [0, 1) whose lengths are
    the probabilities. *)
Definition owns (probabilities : list Q) (i : nat) (u : Q) : Prop :=
  (qsum (firstn i probabilities) <= u < qsum (firstn (S i) probabilities))%Q.

(** The current solution after some rounds: the last accepted candidate, or the initial
    one. *)
Definition current_after {Sol} (initial : Sol) (log : list (entry Sol)) : Sol :=
  last (map e_candidate (filter e_accepted log)) initial.

(** How often operator [i] is used and with what score: weight after the rounds, starting
    from 1. *)
Fixpoint weight_after {Sol} (which : entry Sol -> nat) (l : Q) (i : nat) (log : list (entry Sol)) (w : Q) : Q :=
  match log with
  | [] => w
  | e :: r => weight_after which l i r
                (if which e =? i then ((1 - l) * w + l * e_score e / 6)%Q else w)
  end.

(** [random.random() > math.exp(x)] decided with the real exponential. *)
Definition exceeds_exp (u x : Q) : bool :=
  if Rlt_dec (exp (Q2R x)) (Q2R u) then true else false.
