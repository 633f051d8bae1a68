(** Theorems on the windows with attitudes, in floating point: C187. *)
From Coq Require Import List ZArith Reals Bool Lra Lia.
From Flocq Require Import Core.Core IEEE754.BinarySingleNaN IEEE754.Binary IEEE754.Bits.
From Verif Require Import Py PyLemmas Num Fl_Model Fl_Spec Flc_Spec Flg_Model Flg_Spec Rot_Model Rot_Spec Geo_Model Geo_Spec Lvlh_Model Lvlh_Spec Lvlh_Proofs Lvlh_Props2 Flr_Model Flr_Spec Flr_Best Flk_Model Flk_Spec Flv_Model Flv_Spec Flv_Props Vtw_Model Vtw_Spec Flw_Model Flw_Spec Flg_Props Fvw_Model.
Import ListNotations.
Open Scope R_scope.
Open Scope list_scope.

(** The satellite can be turned to the location: it is far enough from it, the location is not near the
    horizontal plane of the satellite, and the satellite does not fly straight up or down.  [k] says how straight. *)
Definition can_point (l : flocation) (k : R) (unit : unit_name) (factor : option float) (position velocity : fvec) : Prop :=
  finite_vec position /\ finite_vec velocity /\
  let r := exact_km unit position in let w := vector velocity in
  5000 <= norm r <= 100000 /\ / 2 ^ 30 <= norm w <= 2 ^ 30 /\ norm r * norm w <= k * norm (product r w) /\
  let to_target := sub (itrs_of (exact_location l)) r in
  let target := on_axes r w (unit_of to_target) in
  / 100 <= vz target /\ k <= norm to_target * vz target.
(** The angles turn the direction to the centre of the Earth to the direction to the location, and agree with
    the exact attitude, both up to a small error. *)
Definition points_at (l : flocation) (k : R) (jd : float) (unit : unit_name) (factor : option float) (position velocity : fvec) (angles : float * float * float) : Prop :=
  let r := exact_km unit position in let w := vector velocity in
  let to_target := sub (itrs_of (exact_location l)) r in
  let target := on_axes r w (unit_of to_target) in
  let e := / 10 ^ 4 * (k / (norm to_target * vz target)) in
  let '(roll, pitch, yaw) := angles in
  finite roll /\ finite pitch /\ finite yaw /\
  (exists a exact_roll exact_pitch exact_yaw,
     satellite_attitude (Satellite (one_row jd position (size unit)) (Some (one_row jd velocity (times_factor factor)))) (exact_location l) = Ok a /\
     t_roll a = [Fin exact_roll] /\ t_pitch a = [Fin exact_pitch] /\ t_yaw a = [Fin exact_yaw] /\
     Rabs (value roll - exact_roll) <= e /\ Rabs (value pitch - exact_pitch) <= e /\ Rabs (value yaw - exact_yaw) <= e) /\
  norm (sub (mat_vec (euler_213 (value roll) (value pitch) (value yaw)) nadir) target) <= 3 * e.

(** ** C187: every window carries the attitudes at all times, and these point at the location; otherwise the
    windows are those of [fgenerate_windows] (C135), and so are the exceptions. *)
Theorem C187_windows_with_attitudes :
  forall (A : arrays) (B : more) (arcsin : float -> float) (M : maths), accurate_arrays A -> accurate_more B -> accurate_arcsin arcsin -> accurate M ->
  forall l unit factor k julian points velocities sun threshold light,
    on_earth l -> measures unit = Lengths -> fair factor -> 1 <= k <= 1000 ->
    length points = length julian -> length velocities = length julian -> Forall dated julian ->
    (forall i p v, nth_error points i = Some p -> nth_error velocities i = Some v -> can_point l k unit factor p v) ->
    exists attitude, length attitude = length julian /\
      (forall i jd p v angles, nth_error julian i = Some jd -> nth_error points i = Some p -> nth_error velocities i = Some v -> nth_error attitude i = Some angles ->
         points_at l k jd unit factor p v angles) /\
      fgenerate_vtws A B arcsin M l unit factor julian points (Some velocities) sun threshold light =
        match fgenerate_windows M l unit julian points sun threshold light with
        | Ok windows => Ok (map (fun w => FVtw (fst w) (snd w) julian attitude) windows)
        | Raise e => Raise e
        end.
Proof.
  intros A B arcsin M GA GB GS GM l unit factor k julian points velocities sun th light O U Hf Hk LP LV DT H.
  assert (X : exists attitude, fattitudes A B arcsin M l unit factor julian points velocities = Ok attitude /\ length attitude = length julian /\
    forall i jd p v angles, nth_error julian i = Some jd -> nth_error points i = Some p -> nth_error velocities i = Some v -> nth_error attitude i = Some angles -> points_at l k jd unit factor p v angles).
  { unfold fattitudes. clear sun th light. revert points velocities LP LV H. induction DT as [|jd julian D DT IH]; intros [|p points] [|v velocities] LP LV H; try discriminate.
    - exists []. split; [reflexivity|]. split; [reflexivity|]. intros [|i] ? ? ? ? E; discriminate.
    - injection LP as LP. injection LV as LV. destruct (IH points velocities LP LV ltac:(intros i q w; exact (H (S i) q w))) as (att & E & LA & K).
      destruct (H 0%nat p v eq_refl eq_refl) as (Fp & Fv & H1 & H2 & H3 & H4 & H5).
      destruct (C154_float_attitude A B arcsin M GA GB GS GM l jd unit p factor v k O D U Fp Fv Hf H1 H2 Hk H3 H4 H5) as (roll & pitch & yaw & E0 & Q).
      exists ((roll, pitch, yaw) :: att). cbn [combine mapM fst snd]. rewrite E0. cbn [bind]. rewrite E. cbn [bind]. split; [reflexivity|]. split; [cbn [length]; now rewrite LA|].
      intros [|i] jd' p' v' ang; cbn [nth_error]; [|apply K]. intros E1 E2 E3 E4. injection E1 as <-. injection E2 as <-. injection E3 as <-. injection E4 as <-. exact Q. }
  destruct X as (att & E & LA & K). exists att. split; auto. split; auto. unfold fgenerate_vtws, fgenerate_windows. destruct (_ || _); [reflexivity|].
  destruct (mapM (felevation M l unit) points) as [es|x]; [|reflexivity]. cbn [bind]. destruct (flighting_indices sun light) as [li|x]; [|reflexivity]. cbn [bind]. rewrite E. cbn [bind].
  generalize (np_split 0 (intersect1d (np_where 0 (map (flt th) es)) li) (map S (np_where 0 (map (fun d => negb (d =? 1)%Z) (np_diff (intersect1d (np_where 0 (map (flt th) es)) li)))))).
  intros idx. induction idx as [|a idx IH]; [reflexivity|]. cbn [mapM]. destruct (fwindow_of julian a) as [w|x]; [|reflexivity]. cbn [bind]. rewrite IH. destruct (mapM (fwindow_of julian) idx) as [ws|x]; reflexivity.
Qed.
(** With C135: the windows are the runs of the samples above the threshold, up to 4e-6 degrees, while the Sun is
    where it should be, and each carries the attitudes. *)
Theorem C135_windows_with_attitudes_partial :
  forall (A : arrays) (B : more) (arcsin : float -> float) (M : maths), accurate_arrays A -> accurate_more B -> accurate_arcsin arcsin -> accurate M ->
  forall l unit factor k julian points velocities sun threshold light d,
    on_earth l -> measures unit = Lengths -> fair factor -> 1 <= k <= 1000 ->
    length points = length julian -> length velocities = length julian -> Forall dated julian ->
    (forall i p v, nth_error points i = Some p -> nth_error velocities i = Some v -> can_point l k unit factor p v) ->
    all_far l unit points -> Forall finite sun -> light <> OtherLight -> finite threshold -> 0 <= value threshold <= 90 ->
    exists (counted : nat -> Prop) attitude,
      (forall i, counted i -> sun_right sun light i /\ exists e, elevation_is l unit points i e /\ value threshold - 4 / 1000000 < e) /\
      (forall i e, elevation_is l unit points i e -> value threshold + 4 / 1000000 < e < 90 - 4 / 1000000 -> sun_right sun light i -> counted i) /\
      length attitude = length julian /\
      (forall i jd p v angles, nth_error julian i = Some jd -> nth_error points i = Some p -> nth_error velocities i = Some v -> nth_error attitude i = Some angles ->
         points_at l k jd unit factor p v angles) /\
      ((exists i, counted i) -> exists runs, all_runs counted runs /\
         fgenerate_vtws A B arcsin M l unit factor julian points (Some velocities) sun threshold light =
         Ok (map (fun r => FVtw (nth (if fst r =? 0 then length julian - 1 else fst r - 1)%nat julian d) (nth (snd r) julian d) julian attitude) runs)) /\
      ((forall i, ~ counted i) -> fgenerate_vtws A B arcsin M l unit factor julian points (Some velocities) sun threshold light = Raise IndexError).
Proof.
  intros A B arcsin M GA GB GS GM l unit factor k julian points velocities sun th light d O U Hf Hk LP LV DT H F Fs NL T Th.
  destruct (C187_windows_with_attitudes A B arcsin M GA GB GS GM l unit factor k julian points velocities sun th light O U Hf Hk LP LV DT H) as (att & LA & K & E).
  destruct (C135_windows_partial M l unit julian points sun th light d GM O F (eq_sym LP) Fs NL T Th) as (counted & C1 & C2 & C3 & C4).
  exists counted, att. split; auto. split; auto. split; auto. split; auto. rewrite E. split.
  - intros X. destruct (C3 X) as (runs & R & Ew). exists runs. split; auto. rewrite Ew, map_map. reflexivity.
  - intros X. now rewrite (C4 X).
Qed.
(** Without velocities there are no windows, whatever the other arguments. *)
Theorem C187_no_velocity :
  forall A B arcsin M l unit factor julian points sun threshold light,
    fgenerate_vtws A B arcsin M l unit factor julian points None sun threshold light = Raise PyWarning.
Proof. reflexivity. Qed.
(** The satellite of C154, at two times. *)
Example C187_case : let julian := [literal 4918001 2; literal 4918003 2] in let points := [a_place; a_place] in let velocities := [a_speed; a_speed] in
  Forall dated julian /\ fair (Some (of_Z 1000)) /\ on_earth origin /\ all_far origin Ukm points /\
  forall i p v, nth_error points i = Some p -> nth_error velocities i = Some v -> can_point origin 2 Ukm (Some (of_Z 1000)) p v.
Proof.
  destruct C154_case as (_ & _ & _ & _ & O & _ & _ & Fp & Fv & Hf & H1 & H2 & H3 & H4 & H5 & _). cbv zeta.
  split; [constructor; [apply Flc_Props.dated_literal; lia|constructor; [apply Flc_Props.dated_literal; lia|constructor]]|]. split; [exact Hf|]. split; [exact O|]. split.
  { intros p I. assert (p = a_place) as -> by (cbn in I; intuition congruence). destruct Fp as (F1 & F2 & F3). split; [repeat (split; [auto; reflexivity|]); split; [lra|]; lra|].
    destruct place_speed as (_ & V1 & _). rewrite Flg_Cases.km_exact, V1. destruct (Fl_Proofs.of_Z_ok 0 ltac:(lia)) as (_ & V0).
    assert (EQ : exact_location origin = equator_point) by (unfold exact_location, origin, equator_point; cbn [fl_latitude fl_longitude fl_height fl_angle fl_length size]; rewrite V0; reflexivity).
    rewrite EQ, equator_itrs. apply (norm_between _ 100 1000); unfold dot, from_to; cbn [vx vy vz]; lra. }
  intros i p v Ep Ev. apply nth_error_In in Ep. apply nth_error_In in Ev. assert (p = a_place) as -> by (cbn in Ep; intuition congruence). assert (v = a_speed) as -> by (cbn in Ev; intuition congruence).
  repeat (split; [assumption|]). assumption.
Qed.
Print Assumptions C187_windows_with_attitudes.
Print Assumptions C135_windows_with_attitudes_partial.
Print Assumptions C187_no_velocity.
Print Assumptions C187_case.
