(** The clocks in floating point against the published formulas: C180 and C181. *)
From Coq Require Import List ZArith Reals Lra Lia Psatz.
From Flocq Require Import Core.Core IEEE754.BinarySingleNaN IEEE754.Binary IEEE754.Bits.
From Verif Require Import Py Fl_Model Fl_Spec Fl_Proofs Flg_Model Flg_Spec Time_Model Time_Spec Time_Proofs Time_Props Flg_Proofs Flg_Num Flg_Best
  Flc_Spec Flc_Props Flr_Model Flr_Spec Flr_Best Flk_Model Flk_Spec Flk_Proofs Flk_Props Ast_Spec Ast_Props.
Open Scope R_scope.

(** Meeus (12.4): the mean sidereal time at Greenwich, in degrees, from the Julian date. *)
Definition meeus_sidereal (jd : R) : R :=
  280.46061837 + 360.98564736629 * (jd - 2451545) + 0.000387933 * T_of jd ^ 2 - T_of jd ^ 3 / 38710000.
(** Meeus, chapter 22: the true obliquity, in degrees. *)
Definition meeus_true_obliquity (T : R) : R := laskar_obliquity (T / 100) + dms 0 0 (meeus_nutation_obliquity T).
(** Meeus, chapter 12: the equation of the equinoxes, in hours. *)
Definition meeus_equinoxes (T : R) : R := meeus_nutation_longitude T * cos (in_radians (meeus_true_obliquity T)) / 15 / 3600.

(** ** C180: what is computed is the published value *)
Theorem C180_float_published :
  forall (A : arrays) (B : more), accurate_arrays A -> accurate_more B ->
  forall jd, dated jd -> let T := T_of (value jd) in Rabs T <= 1 ->
    let near d x r := finite x /\ Rabs (value x - r) <= d in
    near (5 / 10 ^ 6) (fst (fnutation_components A jd)) (meeus_nutation_longitude T) /\
    near (3 / 10 ^ 6) (snd (fnutation_components A jd)) (meeus_nutation_obliquity T) /\
    near (5 / 10 ^ 14) (fmean_obliquity A jd) (laskar_obliquity (T / 100)) /\
    near (1 / 10 ^ 9) (fapparent_obliquity A jd) (meeus_true_obliquity T) /\
    near (21 / 10 ^ 6) (fequation_of_time A B jd) (meeus_equation_of_time T) /\
    (forall alpha, angle_of_point alpha (meeus_equator_x T) (meeus_equator_y T) ->
       turned (in_radians 0.0021) (2 * PI) alpha (fsun_right_ascension A B jd)).
Proof.
  intros A B G H jd D T HT near. destruct (C150_float_quantities_close A B G H jd D) as ((F1 & E1) & (F2 & E2) & (F3 & E3) & (F4 & E4) & _ & (F6 & E6) & (F7 & R7 & K7)).
  destruct (C166_nutation (value jd) HT) as (N1 & N2). fold T in N1, N2. destruct (C165_mean_obliquity (value jd)) as (O1 & _). fold T in O1. destruct (C165_apparent_obliquity (value jd)) as (O2 & _).
  pose proof (C168_equation_of_time (value jd) HT) as N6. fold T in N6. unfold near.
  split; [split; [exact F1|apply Rabs_le_inv in E1, N1; apply Rabs_le; lra]|]. split; [split; [exact F2|apply Rabs_le_inv in E2, N2; apply Rabs_le; lra]|].
  split; [split; [exact F3|rewrite O1 in E3; lra]|]. split.
  { split; [exact F4|]. rewrite O2, O1 in E4. unfold meeus_true_obliquity, dms in *. apply Rabs_le_inv in E4, N2. apply Rabs_le. lra. }
  split; [split; [exact F6|apply Rabs_le_inv in E6, N6; apply Rabs_le; lra]|].
  intros alpha An. split; [exact F7|]. split; [exact R7|]. destruct (C167_sun_right_ascension (value jd) alpha HT An) as (_ & k & K). destruct K7 as (j & J). exists (j + k)%Z. rewrite plus_IZR.
  unfold in_radians in *. pose proof PI_near as P. apply Rabs_le_inv in J, K. apply Rabs_le. lra.
Qed.
(** The true solar time is that of the published equation of time within 0.0001 hours (0.3 seconds). *)
Theorem C180_float_true_solar_time :
  forall (A : arrays) (B : more), accurate_arrays A -> accurate_more B ->
  forall jd l, dated jd -> finite l -> -360 <= value l <= 360 -> let T := T_of (value jd) in Rabs T <= 1 ->
    let hours := meeus_equation_of_time T * (12 / PI) in
    turned (8 / 10 ^ 5) 24 (universal_hours (value jd) + value l / 15 + hours) (ftrue_solar_time A B jd l) /\
    turned (8 / 10 ^ 5) 24 (universal_hours (value jd) - 12 + value l / 15 + hours) (ftrue_hour_angle A B jd l).
Proof.
  intros A B G H jd l D F Bl T HT hours. destruct (C151_float_true_times A B G H jd l D F Bl) as ((F1 & R1 & K1) & (F2 & R2 & K2)).
  pose proof (C168_equation_of_time (value jd) HT) as N. fold T in N. pose proof PI_near as P.
  assert (M : Rabs (rad_to_deg (equation_of_time (value jd)) / 15 - hours) <= 79 / 10 ^ 6).
  { assert (Q : Rabs (equation_of_time (value jd)) <= 10).
    { pose proof (C81_equation_of_time_bounded (value jd) (Rabs_le_inv _ _ HT)) as U. unfold rad_to_deg, deg_per_rad in U. apply Rabs_le. lra. }
    unfold hours, rad_to_deg, deg_per_rad. set (x := equation_of_time _) in *. set (y := meeus_equation_of_time T) in *. clearbody x y.
    assert (I : Rabs (12 / PI - 3.819718634205488) <= 1 / 10 ^ 14).
    { apply Rabs_le. assert (PP : 0 < PI) by lra. split; apply Rmult_le_reg_r with PI; auto; unfold Rdiv; rewrite ?Rmult_minus_distr_r, ?Rmult_assoc, ?Rinv_l by lra; lra. }
    set (q := 12 / PI) in *. clearbody q.
    replace (x * (57.29577951308232 / 1) / 15 - y * q) with ((x - y) * 3.819718634205488 + (x - y) * (q - 3.819718634205488) - x * (q - 3.819718634205488)) by lra.
    set (d := q - 3.819718634205488) in *. clearbody d. apply Rabs_le_inv in N, Q, I. apply Rabs_le. nra. }
  split; (split; [assumption|split; [assumption|]]).
  - eapply apart_weaken; [apply (apart_move _ _ (79 / 10 ^ 6) _ _ _ K1); replace (universal_hours (value jd) + value l / 15 + rad_to_deg (equation_of_time (value jd)) / 15 - (universal_hours (value jd) + value l / 15 + hours)) with (rad_to_deg (equation_of_time (value jd)) / 15 - hours) by ring; exact M|lra].
  - eapply apart_weaken; [apply (apart_move _ _ (79 / 10 ^ 6) _ _ _ K2); replace (universal_hours (value jd) - 12 + value l / 15 + rad_to_deg (equation_of_time (value jd)) / 15 - (universal_hours (value jd) - 12 + value l / 15 + hours)) with (rad_to_deg (equation_of_time (value jd)) / 15 - hours) by ring; exact M|lra].
Qed.

(** ** C181: sidereal time at Greenwich *)
(** Within 0.15 seconds of the published formula, and never within 0.14 seconds. *)
Theorem C181_float_greenwich_partial :
  forall (A : arrays) (B : more), accurate_arrays A -> accurate_more B ->
  forall jd, dated jd -> let T := T_of (value jd) in let mean := meeus_sidereal (value jd) / 15 in
    turned (42 / 10 ^ 6) 24 mean (fgmst A jd) /\
    (Rabs T <= 1 -> apart_at_most 24 (42 / 10 ^ 6) (value (fgast A jd)) (mean + meeus_equinoxes T)).
Proof.
  intros A B G H jd D T mean. destruct (of_Z_ok 0 ltac:(lia)) as (F0 & V0).
  destruct (C152_float_sidereal_times A B G H jd (of_Z 0) D F0 ltac:(rewrite V0; lra)) as ((F1 & R1 & K1) & (F2 & _ & K2) & _). fold T in K1, K2.
  unfold mean, meeus_sidereal. fold T. set (d := value jd - 2451545) in *. split.
  - split; [exact F1|]. split; [exact R1|]. eapply apart_weaken; [apply (apart_move _ _ (413 / 10 ^ 7) _ _ _ K1)|lra]. apply Rabs_le. lra.
  - intros HT. pose proof (C169_equinoxes_partial (value jd) HT) as E. cbv zeta in E. fold T in E. fold (meeus_true_obliquity T) in E. eapply apart_weaken; [apply (apart_move _ _ (413 / 10 ^ 7 + 1 / 10 ^ 10) _ _ _ K2)|lra].
    unfold meeus_equinoxes, arcsec_to_deg. set (n := meeus_nutation_longitude T * _) in *. set (q := equation_of_equinoxes (value jd)) in *. clearbody n q. apply Rabs_le_inv in E. apply Rabs_le. lra.
Qed.
Theorem C181_float_greenwich_refuted :
  forall (A : arrays) (B : more), accurate_arrays A -> accurate_more B ->
  forall jd, dated jd -> ~ apart_at_most 24 (41 / 10 ^ 6) (value (fgmst A jd)) (meeus_sidereal (value jd) / 15).
Proof.
  intros A B G H jd D (k & K). destruct (of_Z_ok 0 ltac:(lia)) as (F0 & V0).
  destruct (C152_float_sidereal_times A B G H jd (of_Z 0) D F0 ltac:(rewrite V0; lra)) as ((_ & _ & j & J) & _).
  unfold meeus_sidereal in K. set (T := T_of (value jd)) in *. set (d := value jd - 2451545) in *. set (x := value (fgmst A jd)) in *. clearbody T d x. apply Rabs_le_inv in J, K.
  assert (Q : IZR k * 24 - IZR j * 24 = 24 * IZR (k - j)) by (rewrite minus_IZR; ring).
  destruct (Z.eq_dec (k - j) 0) as [Z|Z]; [rewrite Z in Q; lra|].
  assert (1 <= IZR (k - j) \/ IZR (k - j) <= -1) as [W|W]; [|lra|lra]. destruct (Z_lt_le_dec 0 (k - j)); [left; apply (IZR_le 1); lia|right; apply (IZR_le _ (-1)); lia].
Qed.

(** Noon of 1 January 2020. *)
Example C180_case : accurate_arrays best_arrays /\ accurate_more best_more /\ dated (of_Z 2458850) /\ Rabs (T_of (value (of_Z 2458850))) <= 1 /\
  exists alpha, angle_of_point alpha (meeus_equator_x (T_of (value (of_Z 2458850)))) (meeus_equator_y (T_of (value (of_Z 2458850)))).
Proof.
  split; [exact best_arrays_accurate|]. split; [exact best_more_accurate|]. destruct (of_Z_ok 2458850 ltac:(lia)) as (F & V). rewrite V.
  split; [split; [exact F|rewrite V; lra]|]. destruct C165_case as (C1 & C2 & C3). split; [exact C1|]. rewrite C2. eexists. exact C3.
Qed.

Print Assumptions C180_float_published.
Print Assumptions C180_float_true_solar_time.
Print Assumptions C181_float_greenwich_partial.
Print Assumptions C181_float_greenwich_refuted.
