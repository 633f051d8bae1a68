(** Words for sessions in floating point. *)
From Coq Require Import List Reals ZArith.
From Verif Require Import Py Fl_Model Fl_Spec Rot_Model Rot_Spec Geo_Model Vtw_Model Flg_Model Flg_Spec Flw_Model Flw_Spec Fls_Model Fls_Spec Fla_Model Fla_Spec Fle_Model.
Import ListNotations.
Open Scope R_scope.
Open Scope list_scope.

(** The samples: ordinary Julian dates, one after the other, over at most 65536 days, one for each
    position; the Sun and the attitudes are numbers. *)
Definition sound_sky (s : fsky) : Prop :=
  length (fs_julian s) = length (fs_points s) /\
  (forall t, In t (fs_julian s) -> ordinary_date t) /\
  (forall i j t t', (i < j)%nat -> nth_error (fs_julian s) i = Some t -> nth_error (fs_julian s) j = Some t' ->
     value t < value t' <= value t + 65536) /\
  (forall loc, Forall finite (fs_sun s loc)) /\
  (forall loc t, In t (a_time (fs_attitude s loc)) -> ordinary_date t).
(** An ask for a place on Earth, that the satellite keeps 100 km away from, with an ordinary
    deadline and duration. *)
Definition sound_ask (s : fsky) (a : fask) : Prop :=
  on_earth (fs_place s (fk_loc a)) /\ all_far (fs_place s (fk_loc a)) (fs_unit s) (fs_points s) /\
  julian_date (fk_deadline a) /\ some_seconds (fk_dur a).
Definition sound_call (s : fsky) (c : fcall) : Prop := match c with FAdd a => sound_ask s a | _ => True end.

(** The asks accepted in the first calls of a session. *)
Definition accepted (cs : list fcall) (al : list fanswer) : list fask :=
  flat_map (fun p => match p with (FAdd a, FAccepted) => [a] | _ => [] end) (combine cs al).

(** At the [i]-th sample the exact elevation of the satellite above the place asked for is more
    than the threshold, up to 4e-6 degrees, and the Sun is where it should be. *)
Definition visible_at (s : fsky) (threshold : float) (a : fask) (i : nat) : Prop :=
  sun_right (fs_sun s (fk_loc a)) (fk_light a) i /\
  exists e, elevation_is (fs_place s (fk_loc a)) (fs_unit s) (fs_points s) i e /\ value threshold - 4 / 1000000 < e.
(** The observation [w] is what [a] asked for: same place and duration, over before the deadline,
    and visible at every sample from its start up to the first one after its end. *)
Definition observed (s : fsky) (threshold : float) (a : fask) (w : observation) : Prop :=
  o_loc w = fk_loc a /\ o_dur w = fk_dur a /\
  value (o_start w) + real_days (fk_dur a) < value (fk_deadline a) /\
  (exists i t, nth_error (fs_julian s) i = Some t /\ value (o_start w) + real_days (fk_dur a) < value t /\ visible_at s threshold a i) /\
  (forall i t, nth_error (fs_julian s) i = Some t -> value (o_start w) <= value t ->
     (forall j t', (j < i)%nat -> nth_error (fs_julian s) j = Some t' -> value t' < value (o_start w) + real_days (fk_dur a)) ->
     visible_at s threshold a i).
