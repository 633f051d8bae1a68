(** Specification vocabulary for visible time windows. *)
From Coq Require Import List ZArith QArith Bool Arith.
From Verif Require Import Py Sched_Model Vtw_Model.
Import ListNotations.
Open Scope nat_scope.
Open Scope list_scope.

(** The lighting condition at a sample. *)
Definition lit (light : lighting) (s : sample) : Prop :=
  match light with
  | Night => (s_sun s < 0)%Q
  | Anytime => True
  | Daytime => (0 < s_sun s)%Q
  | OtherLight => False
  end.
(** Sample number [i] qualifies. *)
Definition qualifies (l : list sample) (threshold : Q) (light : lighting) (i : nat) : Prop :=
  exists s, nth_error l i = Some s /\ (threshold < s_elev s)%Q /\ lit light s.

(** [a..b] is a maximal run of numbers satisfying [P]. *)
Definition maximal_run (P : nat -> Prop) (a b : nat) : Prop :=
  a <= b /\ (forall i, a <= i <= b -> P i) /\ ~ P (S b) /\ (forall c, a = S c -> ~ P c).

(** The time of sample [i]. *)
Definition at_time (l : list sample) (i : nat) (t : Q) : Prop :=
  exists s, nth_error l i = Some s /\ s_time s = t.

(** Sample times strictly increase. *)
Definition times_increase (l : list sample) : Prop :=
  forall i j s s', i < j -> nth_error l i = Some s -> nth_error l j = Some s' -> (s_time s < s_time s')%Q.

(** Runs listed in order, none missing. *)
Definition all_runs (P : nat -> Prop) (runs : list (nat * nat)) : Prop :=
  (forall a b, In (a, b) runs <-> maximal_run P a b) /\
  forall i j a b a' b', i < j -> nth_error runs i = Some (a, b) -> nth_error runs j = Some (a', b') -> S b < a'.

(** ** Window collections *)

(** The windows that should be kept from a sequence of added objects: those of the kind of
    the first real window. *)
Definition is_window (w : object) : bool := match w with Junk => false | _ => true end.
Definition kept (ws : list object) : list object :=
  match find is_window ws with
  | None => []
  | Some f => filter (same_kind f) ws
  end.
(** Calling add_window for each object, ignoring the calls that raise. *)
Fixpoint add_all (ws : list object) (c : collection) : collection :=
  match ws with
  | [] => c
  | w :: r => add_all r (match add_window c w with Ok c' => c' | Raise _ => c end)
  end.

(** A user's history: additions (failing ones ignored), loops that run to the end, loops
    left in the body after [k] complete passes. *)
Inductive use := Add (w : object) | FullLoop | BrokenLoop (k : nat).
Definition enough (c : collection) : nat := S (length (w_data c)).
Definition full_loop (c : collection) : list object * collection := for_windows (enough c) (enough c) c.
Definition do_use (u : use) (c : collection) : collection :=
  match u with
  | Add w => match add_window c w with Ok c' => c' | Raise _ => c end
  | FullLoop => snd (full_loop c)
  | BrokenLoop k => snd (for_windows (enough c) k c)
  end.
Definition do_uses (us : list use) : collection := fold_left (fun c u => do_use u c) us new_collection.
