(** Specification vocabulary for generated schedules. *)
From Coq Require Import List ZArith QArith.
From Verif Require Import Py Sched_Model Sched_Spec Gen_Model.
Import ListNotations.
Open Scope Q_scope.
Open Scope list_scope.

(** The observation [w] serves request [r]. *)
Definition serves (r : request) (w : observation) : Prop :=
  o_dur w = r_dur r /\ o_loc w = r_loc r /\ exists v, In v (r_vtws r) /\ allowed r v (o_start w).

(** Two observations overlap in time. *)
Definition observations_overlap (w w' : observation) : Prop :=
  intervals_meet (o_start w) (days (o_dur w)) (o_start w') (days (o_dur w')).

(** Total priority of a list of requests. *)
Definition worth (l : list request) : Z := sum_Z (map r_prio l).
