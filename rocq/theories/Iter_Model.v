(** Loops over a collection inside a loop over the same collection: WindowCollection
    (celest/encounter/window_handling.py) and RequestHandler
    (celest/schedule/request_handler.py) are their own iterators, so that the loops share one
    index.

    Simplifications: a loop body is what it does to that index; it does not change the
    collection. *)
From Coq Require Import List ZArith QArith Bool Arith.
From Verif Require Import Py Sched_Model Vtw_Model.
Import ListNotations.
Open Scope list_scope.

(** [for w in c: body], celest/encounter/window_handling.py:165-174.  [__iter__] does nothing.  [None]: not
    over after [calls] calls of [__next__]; otherwise what the loop variable took. *)
Fixpoint window_loop (calls : nat) (body : object -> collection -> option collection) (c : collection)
  : option (list object * collection) :=
  match calls with
  | O => None
  | S n =>
      match w_next c with
      | (None, c') => Some ([], c')
      | (Some w, c') =>
          match body w c' with
          | None => None
          | Some c'' => match window_loop n body c'' with None => None | Some (l, d) => Some (w :: l, d) end
          end
      end
  end.
(** The same, stopped from outside after [calls] calls: what the loop variable took so far. *)
Fixpoint window_prefix (calls : nat) (body : object -> collection -> option collection) (c : collection) : list object :=
  match calls with
  | O => []
  | S n =>
      match w_next c with
      | (None, _) => []
      | (Some w, c') => w :: match body w c' with None => [] | Some c'' => window_prefix n body c'' end
      end
  end.
Definition leave_alone (w : object) (c : collection) : option collection := Some c.
(** a body with a loop over the same collection *)
Definition inner_window_loop (calls : nat) (w : object) (c : collection) : option collection :=
  option_map snd (window_loop calls leave_alone c).

(** [for request in handler: body], celest/schedule/request_handler.py:42-51; [__iter__] sets the index. *)
Fixpoint request_steps (calls : nat) (h : handler) (body : request -> nat -> option (res nat)) (i : nat)
  : option (res (list request * nat)) :=
  match calls with
  | O => None
  | S n =>
      match h_next h i with
      | Raise e => Some (Raise e)
      | Ok (None, j) => Some (Ok ([], j))
      | Ok (Some r, j) =>
          match body r j with
          | None => None
          | Some (Raise e) => Some (Raise e)
          | Some (Ok j') =>
              match request_steps n h body j' with
              | Some (Ok (l, k)) => Some (Ok (r :: l, k))
              | o => o
              end
          end
      end
  end.
Definition request_loop (calls : nat) (h : handler) (body : request -> nat -> option (res nat)) : option (res (list request * nat)) :=
  request_steps calls h body 0.
Definition inner_request_loop (calls : nat) (h : handler) (r : request) (i : nat) : option (res nat) :=
  match request_loop calls h (fun _ j => Some (Ok j)) with
  | None => None
  | Some o => Some (rmap snd o)
  end.
