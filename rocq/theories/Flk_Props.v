(** Theorems on the clocks in floating point: C149-C152. *)
From Coq Require Import List ZArith QArith Qreals Reals Lra Lia Psatz Bool.
From Flocq Require Import Core.Core IEEE754.BinarySingleNaN IEEE754.Binary IEEE754.Bits.
From Verif Require Import Py Fl_Model Fl_Spec Fl_Proofs Flg_Model Flg_Spec Time_Model Time_Spec Time_Proofs Flg_Proofs Flg_Num Flg_Proofs2 Flg_Proofs3 Flg_Best
  Flc_Model Flc_Spec Flc_Proofs Flc_Proofs2 Flc_Proofs3 Flc_Proofs4 Flc_Proofs5 Flg_Proofs5 Flc_Props Flr_Model Flr_Spec Flx_Expr Flr_Best Flk_Model Flk_Spec Flk_Proofs Flk_Proofs2 Flk_Proofs3 Flk_Proofs4 Flk_Proofs5 Flk_Proofs6.
Open Scope R_scope.
#[local] Strategy 1000 [fmul fadd fsub fdiv fneg literal of_Z fpymod].

(** ** C149: the five angles of nutation *)
Theorem C149_float_nutation_angles :
  forall (A : arrays), accurate_arrays A ->
  forall jd, dated jd -> let T := T_of (value jd) in
    match fnutation_angles A jd with
    | (d, m, n, f, o) =>
        turned (27 / 10 ^ 9) 360 (297.85036 + 445267.111480 * T - 0.0019142 * T ^ 2 + T ^ 3 / 189474) d /\
        turned (2 / 10 ^ 9) 360 (357.52772 + 35999.050340 * T - 0.0001603 * T ^ 2 - T ^ 3 / 300000) m /\
        turned (27 / 10 ^ 9) 360 (134.96298 + 477198.867398 * T + 0.0086972 * T ^ 2 + T ^ 3 / 56250) n /\
        turned (27 / 10 ^ 9) 360 (93.27191 + 483202.017538 * T - 0.0036825 * T ^ 2 + T ^ 3 / 327270) f /\
        turned (1 / 10 ^ 9) 360 (125.04452 - 1934.136261 * T + 0.0020708 * T ^ 2 + T ^ 3 / 450000) o
    end.
Proof. intros A G jd D T. exact (nutation_angles_ok A G jd D). Qed.

(** ** C150: nutation, obliquity, the two equations and the right ascension of the sun *)
Theorem C150_float_quantities_close :
  forall (A : arrays) (B : more), accurate_arrays A -> accurate_more B ->
  forall jd, dated jd ->
    let near d x r := finite x /\ Rabs (value x - r) <= d in
    near (7 / 10 ^ 10) (fst (fnutation_components A jd)) (fst (nutation_components (value jd))) /\
    near (4 / 10 ^ 10) (snd (fnutation_components A jd)) (snd (nutation_components (value jd))) /\
    near (4 / 10 ^ 14) (fmean_obliquity A jd) (mean_obliquity (value jd)) /\
    near (2 / 10 ^ 13) (fapparent_obliquity A jd) (apparent_obliquity (value jd)) /\
    near (5 / 10 ^ 11) (fequation_of_equinoxes A jd) (equation_of_equinoxes (value jd)) /\
    near (5 / 10 ^ 11) (fequation_of_time A B jd) (equation_of_time (value jd)) /\
    turned (3 / 10 ^ 10) (2 * PI) (sun_right_ascension (value jd)) (fsun_right_ascension A B jd).
Proof.
  intros A B G H jd D near. pose proof uu_value as U.
  assert (N : forall x r e b d, appr x r (Q2R e) b -> Q2R e * uu <= d -> near d x r).
  { intros x r e b d (F & E & _) Hd. split; [exact F|lra]. }
  destruct (parts_ok A G jd D) as (P1 & P2 & P3 & _). destruct (obliquity_ok A G jd D) as (P4 & _ & _ & P5 & _). destruct (eot_ok A G B H jd D) as (P6 & _).
  split; [apply (N _ _ _ _ _ P1); rewrite Q2R_int, U; lra|]. split; [apply (N _ _ _ _ _ P2); rewrite Q2R_int, U; lra|]. split; [apply (N _ _ _ _ _ P3); rewrite Q2R_int, U; lra|].
  split; [apply (N _ _ _ _ _ P4); rewrite Q2R_int, U; lra|]. split; [apply (N _ _ _ _ _ P5); rewrite Q2R_int, U; lra|]. split; [apply (N _ _ _ _ _ P6); rewrite Q2R_int, U; lra|].
  destruct (ascension_ok A G B H jd D) as (F & R & K). split; [exact F|]. split; [exact R|]. rewrite sun_angle_mod. apply apart_to_Rmod. eapply apart_weaken; [exact K|lra].
Qed.

(** ** C151: true solar time and true hour angle, a microsecond ([2e-10] hours are 0.7) *)
Theorem C151_float_true_times :
  forall (A : arrays) (B : more), accurate_arrays A -> accurate_more B ->
  forall jd l, dated jd -> finite l -> -360 <= value l <= 360 ->
    turned (2 / 10 ^ 10) 24 (universal_hours (value jd) + value l / 15 + rad_to_deg (equation_of_time (value jd)) / 15) (ftrue_solar_time A B jd l) /\
    turned (21 / 10 ^ 11) 24 (universal_hours (value jd) - 12 + value l / 15 + rad_to_deg (equation_of_time (value jd)) / 15) (ftrue_hour_angle A B jd l).
Proof.
  intros A B G H jd l D F Bl. pose proof (tst_ok A G B H jd l D (conj F Bl)) as T1. pose proof (tha_ok A G B H jd l D (conj F Bl)) as T2. unfold universal_hours.
  set (e := rad_to_deg _) in *. clearbody e. split.
  - replace (24 * (value jd + 1 / 2) + value l / 15 + e / 15) with (24 * (value jd + / 2) + (value l + e) / 15) by lra. exact T1.
  - replace (24 * (value jd + 1 / 2) - 12 + value l / 15 + e / 15) with (24 * value jd + (value l + e) / 15) by lra. exact T2.
Qed.
(** Fifteen degrees further east it is an hour later. *)
Lemma apart_shift m d d' a b r s c : apart_at_most m d a r -> apart_at_most m d' b s -> s = r + c -> apart_at_most m (d + d') b (a + c).
Proof.
  intros (j & J) (k & K) ->. exists (k - j)%Z. rewrite minus_IZR. apply Rabs_le_inv in J, K. apply Rabs_le. lra.
Qed.
Theorem C151_float_time_zones :
  forall (A : arrays) (B : more), accurate_arrays A -> accurate_more B ->
  forall jd l l', dated jd -> finite l -> finite l' -> -360 <= value l -> value l' = value l + 15 -> value l' <= 360 ->
    apart_at_most 24 (4 / 10 ^ 10) (value (ftrue_solar_time A B jd l')) (value (ftrue_solar_time A B jd l) + 1) /\
    apart_at_most 24 (24 / 10 ^ 10) (value (flmst A B jd l')) (value (flmst A B jd l) + 1).
Proof.
  intros A B G H jd l l' D F F' B1 E B2.
  assert (L1 : longitude l) by (split; [exact F|lra]). assert (L2 : longitude l') by (split; [exact F'|lra]).
  destruct (tst_ok A G B H jd l D L1) as (_ & _ & T1). destruct (tst_ok A G B H jd l' D L2) as (_ & _ & T2).
  destruct (lmst_ok A G B H jd l D L1) as (_ & _ & T3). destruct (lmst_ok A G B H jd l' D L2) as (_ & _ & T4).
  split.
  - eapply apart_weaken; [apply (apart_shift _ _ _ _ _ _ _ 1 T1 T2)|]; rewrite ?E; lra.
  - eapply apart_weaken; [apply (apart_shift _ _ _ _ _ _ _ 1 T3 T4)|]; rewrite ?E; lra.
Qed.

(** ** C152: sidereal times *)
Theorem C152_float_sidereal_times :
  forall (A : arrays) (B : more), accurate_arrays A -> accurate_more B ->
  forall jd l, dated jd -> finite l -> -360 <= value l <= 360 ->
    let T := T_of (value jd) in
    let greenwich := (280.46 + 360.98564736629 * (value jd - 2451545) + 0.000387933 * T ^ 2 - T ^ 3 / 38710000) / 15 in
    let equinoxes := arcsec_to_deg (equation_of_equinoxes (value jd)) in
    let local := universal_hours (value jd) - 12 + value l / 15 + rad_to_hourangle (sun_right_ascension (value jd)) in
    turned (6 / 10 ^ 8) 24 greenwich (fgmst A jd) /\
    (finite (fgast A jd) /\ -0.0011 <= value (fgast A jd) <= 24.0011 /\ apart_at_most 24 (61 / 10 ^ 9) (value (fgast A jd)) (greenwich + equinoxes)) /\
    turned (118 / 10 ^ 11) 24 local (flmst A B jd l) /\
    turned (119 / 10 ^ 11) 24 (local + equinoxes) (flast A B jd l).
Proof.
  intros A B G H jd l D F Bl T greenwich equinoxes local.
  split; [exact (gmst_ok A G jd D)|]. split.
  { destruct (gast_ok A G jd D) as (F1 & R1 & A1). split; [exact F1|]. split; [lra|exact A1]. }
  pose proof (lmst_ok A G B H jd l D (conj F Bl)) as T1. pose proof (last_ok A G B H jd l D (conj F Bl)) as T2.
  unfold local, equinoxes, universal_hours. set (h := rad_to_hourangle _) in *. set (q := arcsec_to_deg _) in *. clearbody h q. split.
  - replace (24 * (value jd + 1 / 2) - 12 + value l / 15 + h) with (24 * value jd + value l / 15 + h) by lra. exact T1.
  - replace (24 * (value jd + 1 / 2) - 12 + value l / 15 + h + q) with (24 * value jd + h + q + value l / 15) by lra. exact T2.
Qed.

(** ** Cases: a numpy that rounds correctly *)
Definition best_more : more := More (fun x => to_float (tan (value x))) (fun y x => to_float (atan2 (value y) (value x))).
Lemma tan_1 x : Rabs x <= 1 -> Rabs (tan x) <= 2.
Proof.
  intros X. apply Rabs_le_inv in X. assert (C : 1 / 2 <= cos x).
  { pose proof PI_near. rewrite <- cos_PI3. destruct (Rle_dec 0 x); [apply cos_decr_1; lra|]. rewrite <- (cos_neg x). apply cos_decr_1; lra. }
  unfold tan, Rdiv. rewrite Rabs_mult. assert (S : Rabs (sin x) <= 1) by apply Rabs_le, SIN_bound.
  assert (I : Rabs (/ cos x) <= 2). { rewrite Rabs_pos_eq by (apply Rlt_le, Rinv_0_lt_compat; lra). replace 2 with (/ (1 / 2)) by field. apply Rinv_le_contravar; lra. }
  replace 2 with (1 * 2) by ring. apply Rmult_le_compat; auto using Rabs_pos.
Qed.
Lemma atan2_pi y x : Rabs (atan2 y x) <= PI.
Proof.
  pose proof PI_near. apply Rabs_le. unfold atan2. pose proof (atan_bound (y / x)) as Bd. destruct (Rlt_dec 0 x); [lra|]. destruct (Rlt_dec x 0).
  - destruct (Rlt_dec y 0) as [Y|Y].
    + assert (0 <= atan (y / x)); [|lra]. rewrite <- atan_0. assert (P : 0 < y / x). { replace (y / x) with (- y * / - x) by (field; lra). apply Rmult_lt_0_compat; [lra|apply Rinv_0_lt_compat; lra]. } left. now apply atan_increasing.
    + assert (P : y / x <= 0). { assert (0 <= y * / - x) by (apply Rmult_le_pos; [lra|apply Rlt_le, Rinv_0_lt_compat; lra]). replace (y / x) with (- (y * / - x)) by (field; lra). lra. }
      assert (atan (y / x) <= 0); [|lra]. rewrite <- atan_0. destruct (Req_dec (y / x) 0) as [-> |]; [lra|]. left. apply atan_increasing. lra.
  - destruct (Rlt_dec 0 y); [lra|]. destruct (Rlt_dec y 0); lra.
Qed.
Lemma best_more_accurate : accurate_more best_more.
Proof.
  pose proof uu_value as U. split; cbn [n_tan n_arctan2 best_more].
  - intros x F X. pose proof (tan_1 _ X) as T. destruct (to_float_ok (tan (value x))) as (F1 & V). { apply small_abs. lra. }
    split; [exact F1|]. rewrite V. eapply Rle_trans; [apply (rnd_abs_err _ 2 T); lra|]. rewrite U. lra.
  - intros y x Fy Fx _. pose proof (atan2_pi (value y) (value x)) as T. pose proof PI_near as Pn. destruct (to_float_ok (atan2 (value y) (value x))) as (F1 & V). { apply small_abs. lra. }
    assert (T4 : Rabs (atan2 (value y) (value x)) <= 4) by lra. pose proof (rnd_abs_err _ 4 T4 ltac:(lra)) as E. change (nearest ?a) with (rnd a) in V. rewrite <- V in E. rewrite U in E.
    split; [exact F1|]. apply Rabs_le_inv in T, E. split; [apply Rabs_le; lra|]. exists 0%Z. apply Rabs_le. lra.
Qed.
Example C149_case : accurate_arrays best_arrays /\ accurate_more best_more /\ dated (literal 4918001 2) /\
  finite (of_Z (-79)) /\ finite (of_Z (-64)) /\ value (of_Z (-64)) = value (of_Z (-79)) + 15 /\ -360 <= value (of_Z (-79)).
Proof.
  split; [exact best_arrays_accurate|]. split; [exact best_more_accurate|]. split; [apply dated_literal; lia|].
  destruct (of_Z_ok (-79) ltac:(lia)) as (F1 & V1). destruct (of_Z_ok (-64) ltac:(lia)) as (F2 & V2). rewrite V1, V2. split; [exact F1|]. split; [exact F2|]. lra.
Qed.

Print Assumptions C149_float_nutation_angles.
Print Assumptions C150_float_quantities_close.
Print Assumptions C151_float_true_times.
Print Assumptions C151_float_time_zones.
Print Assumptions C152_float_sidereal_times.
