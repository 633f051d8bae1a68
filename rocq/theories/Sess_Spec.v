(** Words for sessions with a scheduler. *)
From Coq Require Import List ZArith QArith Bool.
From Verif Require Import Py Sched_Model Sched_Spec Vtw_Model Vtw_Spec Gen_Model Gen_Spec Sess_Model.
Import ListNotations.
Open Scope Q_scope.
Open Scope list_scope.

(** The answers to the calls of a session with a new scheduler. *)
Definition answers (satellite : sky) (threshold : Q) (cs : list call) : list answer :=
  snd (session cs (mkScheduler satellite threshold empty_handler)).
(** The requests that were accepted. *)
Definition accepted_asks (cs : list call) (al : list answer) : list ask :=
  flat_map (fun p => match p with (CAdd a, Accepted) => [a] | _ => [] end) (combine cs al).

(** The observation [w] is what [a] asked for: same place and duration, over before the
    deadline, inside a time window in which the satellite is visible there, of the quality
    asked for. *)
Definition fulfils (satellite : sky) (threshold : Q) (a : ask) (w : observation) : Prop :=
  o_loc w = k_loc a /\ o_dur w = k_dur a /\ o_start w + days (k_dur a) < k_deadline a /\
  exists vtws v q,
    generate_vtws (sky_velocity satellite) (sky_samples satellite (k_loc a)) (sky_attitude satellite (k_loc a)) threshold (k_light a) = Ok vtws /\
    In v vtws /\ v_rise v < o_start w /\ o_start w + days (k_dur a) < v_set v /\
    image_quality v (o_start w) = Ok q /\ (k_qual a <= q)%Z.

(** During [w] the place asked for sees the satellite, in the light asked for, at every
    sample. *)
Definition seen_throughout (satellite : sky) (threshold : Q) (a : ask) (w : observation) : Prop :=
  o_loc w = k_loc a /\
  forall s, In s (sky_samples satellite (k_loc a)) -> o_start w <= s_time s <= o_start w + days (o_dur w) ->
    threshold < s_elev s /\ lit (k_light a) s.

(** The request [r] in the handler is the one made by [a]. *)
Definition recorded (a : ask) (r : request) : Prop :=
  r_loc r = k_loc a /\ r_deadline r = k_deadline a /\ r_dur r = k_dur a /\ r_prio r = k_prio a /\ r_qual r = k_qual a /\ r_look r = k_look a.
