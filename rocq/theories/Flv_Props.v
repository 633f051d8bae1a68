(** Theorems on the LVLH frame and on attitudes in floating point: C153, C154. *)
From Coq Require Import List ZArith Reals Lra Lia Psatz.
From Flocq Require Import Core.Core IEEE754.BinarySingleNaN IEEE754.Binary IEEE754.Bits.
From Verif Require Import Py Num Fl_Model Fl_Spec Fl_Proofs Flg_Model Flg_Spec Rot_Model Rot_Spec Rot_Proofs Geo_Model Geo_Spec Lvlh_Model Lvlh_Spec Lvlh_Proofs Lvlh_Props2 Flg_Proofs Flg_Num Flg_Proofs2 Flg_Proofs3 Flg_Proofs7 Flg_Best Flg_Cases
  Flc_Model Flc_Spec Flc_Props Flk_Proofs5 Flr_Model Flr_Spec Flr_Proofs Flr_Best Time_Model Flk_Model Flk_Spec Flk_Props Flv_Model Flv_Spec Flv_Proofs Flv_Proofs2 Flv_Proofs3 Flv_Proofs4 Flv_Proofs5 Flv_Proofs6.
Import ListNotations.
Open Scope R_scope.
#[local] Strategy 1000 [fmul fadd fsub fdiv fneg of_Z].

(** ** C153: the LVLH frame *)
Theorem C153_float_lvlh :
  forall (A : arrays), accurate_arrays A ->
  forall position velocity k, ordinary position -> ordinary velocity -> 1 <= k <= 2000 ->
    let r := vector position in let w := vector velocity in
    norm r * norm w <= k * norm (product r w) ->
    exists m position' velocity', rotation m /\
      mat_vec m r = V 0 0 (- norm r) /\ vy (mat_vec m w) = 0 /\ 0 < vx (mat_vec m w) /\
      fgcrs_to_lvlh A position velocity = (position', velocity') /\ finite_vec position' /\ finite_vec velocity' /\
      norm (sub (vector position') (mat_vec m r)) <= 25 / 10 ^ 15 * k * norm r /\
      norm (sub (vector velocity') (mat_vec m w)) <= 25 / 10 ^ 15 * k * norm w.
Proof.
  intros A G p v k Op Ov K r w H. destruct (rows_ok p v k Op Ov K H) as (_ & _ & Z). pose proof (rows_step A G p v k Op Ov K H) as MV. fold r w in MV, Z.
  exists (M (forward r w) (right r w) (down r)), (fmat_vec A (flvlh_rows p v) p), (fmat_vec A (flvlh_rows p v) v). split; [now apply frame|].
  rewrite !on_axes_mat, on_axes_down, on_axes_velocity by auto. cbn [vx vy vz]. split; [reflexivity|]. split; [reflexivity|].
  pose proof (Geo_Dir.norm_pos _ Z) as NZ. pose proof (Geo_Dir.norm_pos _ (product_nz _ _ Z)) as NR. split; [now apply Rdiv_lt_0_compat|]. split; [reflexivity|].
  assert (B : forall x, ordinary x -> finite_vec (fmat_vec A (flvlh_rows p v) x) /\ norm (sub (vector (fmat_vec A (flvlh_rows p v) x)) (on_axes r w (vector x))) <= 25 / 10 ^ 15 * k * norm (vector x)).
  { intros x Ox. destruct (ordinary_bpow x Ox) as (_ & N1 & N2). destruct (MV x (proj1 Ox)) as (F & E). { rewrite pow_bpow. apply Rle_trans with (1 := N2). apply bpow_le. lia. }
    split; [exact F|]. eapply Rle_trans; [exact E|]. assert (T : bpow radix2 (-100) <= norm (vector x)) by (apply Rle_trans with (2 := N1); apply bpow_le; lia). apply tt_uu in T. pose proof tt_pos.
    pose proof uu_num as U. assert (U0 : 0 <= norm (vector x)) by apply Flg_Proofs.norm_pos. pose proof uu_pos. assert (X : uu * norm (vector x) <= / 9007199254740992 * norm (vector x)) by (apply Rmult_le_compat_r; lra).
    assert (0 <= uu * norm (vector x)) by (apply Rmult_le_pos; lra). assert (k * (uu * norm (vector x)) <= k * (/ 9007199254740992 * norm (vector x))) by (apply Rmult_le_compat_l; lra).
    assert (k * norm (vector x) >= norm (vector x)) by nra. lra. }
  destruct (B p Op) as (F1 & E1). destruct (B v Ov) as (F2 & E2). fold r in E1. fold w in E2. rewrite on_axes_down in E1 by auto. rewrite on_axes_velocity in E2 by auto. auto.
Qed.

(** ** C154: attitudes *)
Lemma bpow_30 x : / 2 ^ 30 <= x <= 2 ^ 30 -> bpow radix2 (-30) <= x <= bpow radix2 30.
Proof. change (bpow radix2 (-30)) with (bpow radix2 (- Z.of_nat 30)). change (bpow radix2 30) with (bpow radix2 (Z.of_nat 30)). now rewrite bpow_opp, <- !pow_bpow. Qed.
Lemma times_factor_pos factor : fair factor -> 0 < times_factor factor.
Proof. destruct factor as [c|]; cbn [fair times_factor]; [|lra]. intros (_ & H & _). assert (0 < / 2 ^ 10) by (apply Rinv_0_lt_compat, pow_lt; lra). lra. Qed.
Theorem C154_float_attitude :
  forall (A : arrays) (B : more) (arcsin : float -> float) (M : maths), accurate_arrays A -> accurate_more B -> accurate_arcsin arcsin -> accurate M ->
  forall location jd unit position factor velocity k,
    on_earth location -> dated jd -> measures unit = Lengths -> finite_vec position -> finite_vec velocity -> fair factor ->
    let r := exact_km unit position in let w := vector velocity in
    5000 <= norm r <= 100000 -> / 2 ^ 30 <= norm w <= 2 ^ 30 ->
    1 <= k <= 1000 -> norm r * norm w <= k * norm (product r w) ->
    let to_target := sub (itrs_of (exact_location location)) r in
    let target := on_axes r w (unit_of to_target) in
    / 100 <= vz target -> k <= norm to_target * vz target ->
    let e := / 10 ^ 4 * (k / (norm to_target * vz target)) in
    exists roll pitch yaw, fattitude A B arcsin M location jd unit position factor velocity = Ok (roll, pitch, yaw) /\
      finite roll /\ finite pitch /\ finite yaw /\
      (exists a exact_roll exact_pitch exact_yaw,
         satellite_attitude (Satellite (one_row jd position (size unit)) (Some (one_row jd velocity (times_factor factor)))) (exact_location location) = Ok a /\
         t_roll a = [Fin exact_roll] /\ t_pitch a = [Fin exact_pitch] /\ t_yaw a = [Fin exact_yaw] /\
         Rabs (value roll - exact_roll) <= e /\ Rabs (value pitch - exact_pitch) <= e /\ Rabs (value yaw - exact_yaw) <= e) /\
      norm (sub (mat_vec (euler_213 (value roll) (value pitch) (value yaw)) nadir) target) <= 3 * e.
Proof.
  intros A B arcsin M GA GB GS GM l jd unit p factor v k O D U Fp Fv Hf r w Hr Hw Hk Hs tt' target Hc Hd e.
  pose proof (exact_km_times unit p) as KM. fold r in KM. set (q := size unit / 1000) in *. assert (Q : 0 < q) by (unfold q; pose proof (size_bounds unit); lra).
  assert (NR : norm r = q * norm (vector p)) by (rewrite KM, norm_times, Rabs_pos_eq; lra).
  assert (PR : norm (product r w) = q * norm (product (vector p) (vector v))).
  { rewrite KM. replace (product (times q (vector p)) w) with (times q (product (vector p) (vector v))) by (unfold product, times, w; cbn [vx vy vz]; f_equal; ring). rewrite norm_times, Rabs_pos_eq; lra. }
  assert (Hs' : norm (vector p) * norm (vector v) <= k * norm (product (vector p) (vector v))).
  { apply Rmult_le_reg_l with q; auto. rewrite NR, PR in Hs. unfold w in Hs. lra. }
  assert (PZ : product r w <> zero). { intros Z. rewrite Z in Hs. assert (norm zero = 0) as Z0 by (unfold norm, dot, zero; cbn [vx vy vz]; replace (0 * 0 + 0 * 0 + 0 * 0) with 0 by ring; apply sqrt_0). rewrite Z0 in Hs.
    pose proof (bpow_30 _ Hw) as (W & _). pose proof (bpow_gt_0 radix2 (-30)). nra. }
  assert (HR' : 5000 <= norm (times (size unit / 1000) (vector p)) <= 100000) by (fold q; rewrite <- KM; exact Hr).
  destruct (lvlh_points A GA M GM l jd unit p factor v k O D U Fp Fv HR' (bpow_30 _ Hw) Hf Hk Hs') as (lp & gl & E & Fl & Fg & El & Eg).
  fold q in El, Eg. rewrite <- KM in El, Eg. fold w in Eg. set (X := on_axes r w (itrs_of (exact_location l))) in *.
  assert (EX : sub X (V 0 0 (- norm r)) = on_axes r w tt') by (unfold X, tt'; rewrite on_axes_sub, on_axes_down by auto; reflexivity).
  assert (UX : unit_of (sub X (V 0 0 (- norm r))) = target) by (rewrite EX; now apply unit_on_axes).
  assert (DX : norm (sub X (V 0 0 (- norm r))) = norm tt') by (rewrite EX; now apply on_axes_norm).
  assert (NX : norm X <= 13000) by (unfold X; rewrite on_axes_norm by auto; apply ground_norm; auto).
  assert (ANG := angles_close B GB arcsin GS lp gl X (norm r) k Fl Fg Hr Hk El Eg NX). rewrite UX, DX in ANG. destruct (ANG Hc Hd) as (roll & pitch & yaw & EA & (F1 & E1) & (F2 & E2) & (F3 & E3)). fold e in E1, E2, E3. clear ANG.
  exists roll, pitch, yaw. split; [now rewrite E, EA|]. do 3 (split; [assumption|]).
  assert (TN : tt' <> zero). { intros Z. rewrite Z in Hd. assert (norm zero = 0) as Z0 by (unfold norm, dot, zero; cbn [vx vy vz]; replace (0 * 0 + 0 * 0 + 0 * 0) with 0 by ring; apply sqrt_0). rewrite Z0 in Hd. lra. }
  assert (TU : dot target target = 1) by (rewrite <- UX; apply unit_dot; rewrite EX; now apply on_axes_nz).
  destruct (euler_columns target TU ltac:(lra)) as (EC & _). split.
  - set (P := one_row jd p (size unit)). set (W := one_row jd v (times_factor factor)). assert (SP : of_size 1 P) by repeat split. assert (SW : of_size 1 W) by repeat split.
    assert (K1 : 0 < p_unit P) by (cbn [P one_row p_unit]; pose proof (size_bounds unit); lra). assert (K2 : 0 < p_unit W) by (cbn [W one_row p_unit]; now apply times_factor_pos).
    assert (RR : kilometres P 0 = r). { rewrite KM. unfold kilometres, P, one_row, point, times, q. cbn [p_unit p_x p_y p_z nth vx vy vz]. f_equal; field. }
    assert (WW : point W 0 = w) by reflexivity.
    assert (HP : product (kilometres P 0) (point W 0) <> zero) by (rewrite RR, WW; exact PZ).
    destruct (rows_real P W (exact_location l) K1 K2 0 HP) as (R1 & R2). rewrite RR in R1, R2. rewrite WW in R2.
    rewrite (attitude_ok 1 P W (exact_location l) SP SW eq_refl). eexists. exists (g_roll target), (g_pitch target), (g_yaw target). split; [reflexivity|].
    assert (NR0 : 0 < norm r) by lra.
    assert (AN : attitude_angles (a_position P W 0) (a_ground P W (exact_location l) 0) = (Fin (g_roll target), Fin (g_pitch target), Fin (g_yaw target))).
    { rewrite R1, R2. fold X. rewrite angles_real; [now rewrite UX|exact NR0|rewrite EX; now apply on_axes_nz|rewrite UX; lra]. }
    cbn [t_roll t_pitch t_yaw]. unfold Lvlh_Props.upto. cbn [seq map]. rewrite AN. cbn [fst snd]. auto 10.
  - pose proof (euler_near _ _ _ _ _ _ nadir e E1 E2 E3) as EN. rewrite EC, norm_nadir in EN. lra.
Qed.

(** ** Cases *)
Definition best_arcsin (x : float) : float := to_float (asin (value x)).
Lemma best_arcsin_accurate : accurate_arcsin best_arcsin.
Proof.
  intros x F H. pose proof (asin_bound (value x)) as AB. pose proof PI_bounds as P. assert (A2 : Rabs (asin (value x)) <= 2) by (apply Rabs_le; lra).
  destruct (to_float_ok (asin (value x))) as (F1 & V1); [apply small_abs; lra|]. split; [exact F1|]. change (nearest ?a) with (rnd a) in V1. unfold best_arcsin. rewrite V1.
  eapply Rle_trans; [apply (Flc_Proofs5.rnd_abs_err _ 2 A2); lra|]. pose proof uu_num. lra.
Qed.
Definition a_place : fvec := FV (of_Z 7000) (of_Z 0) (of_Z 500).
Definition a_speed : fvec := FV (of_Z 0) (of_Z 7) (of_Z 0).
Lemma place_speed : finite_vec a_place /\ vector a_place = V 7000 0 500 /\ finite_vec a_speed /\ vector a_speed = V 0 7 0.
Proof.
  destruct (of_Z_ok 7000 ltac:(lia)) as (F1 & V1). destruct (of_Z_ok 0 ltac:(lia)) as (F2 & V2). destruct (of_Z_ok 500 ltac:(lia)) as (F3 & V3). destruct (of_Z_ok 7 ltac:(lia)) as (F4 & V4).
  unfold a_place, a_speed, vector. cbn [fx fy fz]. rewrite V1, V2, V3, V4. repeat split; assumption.
Qed.
Lemma norm_between v a b : 0 <= a -> 0 <= b -> a * a <= dot v v <= b * b -> a <= norm v <= b.
Proof.
  intros A B (H1 & H2). unfold norm. split; [rewrite <- (sqrt_square a A)|rewrite <- (sqrt_square b B)]; now apply sqrt_le_1_alt.
Qed.
Lemma place_sizes : 7000 <= norm (V 7000 0 500) <= 7100 /\ 6 <= norm (V 0 7 0) <= 8 /\ norm (V 7000 0 500) * norm (V 0 7 0) <= 2 * norm (product (V 7000 0 500) (V 0 7 0)).
Proof.
  assert (A : 7000 <= norm (V 7000 0 500) <= 7100) by (apply norm_between; unfold dot; cbn [vx vy vz]; lra). assert (B : 6 <= norm (V 0 7 0) <= 8) by (apply norm_between; unfold dot; cbn [vx vy vz]; lra).
  assert (C : 49000 <= norm (product (V 7000 0 500) (V 0 7 0)) <= 50000) by (apply norm_between; unfold dot, product; cbn [vx vy vz]; lra).
  split; auto. split; auto. assert (norm (V 7000 0 500) * norm (V 0 7 0) <= 7100 * 8) by (apply Rmult_le_compat; lra). lra.
Qed.
Lemma two_pow n x : 8000 <= 2 ^ n -> 1 <= x <= 8000 -> / 2 ^ n <= x <= 2 ^ n.
Proof. intros N X. split; [|lra]. apply Rle_trans with (/ 8000); [apply Rinv_le_contravar; lra|lra]. Qed.
Lemma big n : (13 <= n)%nat -> 8000 <= 2 ^ n.
Proof. intros N. apply Rle_trans with (2 ^ 13); [lra|]. now apply two_le. Qed.
Example C153_case : accurate_arrays best_arrays /\ ordinary a_place /\ ordinary a_speed /\
  norm (vector a_place) * norm (vector a_speed) <= 2 * norm (product (vector a_place) (vector a_speed)).
Proof.
  split; [exact best_arrays_accurate|]. destruct place_speed as (F1 & V1 & F2 & V2). destruct place_sizes as (A & B & C). unfold ordinary. rewrite V1, V2.
  split; [split; [exact F1|apply two_pow; [apply big; lia|lra]]|]. split; [split; [exact F2|apply two_pow; [apply big; lia|lra]]|exact C].
Qed.
(** A satellite 800 km from a place on the equator, flying east, and speeds in kilometres per second. *)
Definition origin : flocation := FLocation (of_Z 0) (of_Z 0) (of_Z 0) Udeg Ukm.
Example C154_case :
  accurate_arrays best_arrays /\ accurate_more best_more /\ accurate_arcsin best_arcsin /\ accurate best /\
  on_earth origin /\ dated (literal 4918001 2) /\ measures Ukm = Lengths /\ finite_vec a_place /\ finite_vec a_speed /\ fair (Some (of_Z 1000)) /\
  let r := exact_km Ukm a_place in let w := vector a_speed in
  5000 <= norm r <= 100000 /\ / 2 ^ 30 <= norm w <= 2 ^ 30 /\ norm r * norm w <= 2 * norm (product r w) /\
  let to_target := sub (itrs_of (exact_location origin)) r in let target := on_axes r w (unit_of to_target) in
  / 100 <= vz target /\ 2 <= norm to_target * vz target /\ / 10 ^ 4 * (2 / (norm to_target * vz target)) <= / 10 ^ 6.
Proof.
  split; [exact best_arrays_accurate|]. split; [exact best_more_accurate|]. split; [exact best_arcsin_accurate|]. split; [exact (rounded_accurate _ best_rounded)|].
  destruct (of_Z_ok 0 ltac:(lia)) as (F0 & V0). split.
  { unfold on_earth, origin. cbn [fl_latitude fl_longitude fl_height fl_angle fl_length measures size].
    split; [apply Flg_Cases.moderate_Z; lia|]. split; [apply Flg_Cases.moderate_Z; lia|]. split; [apply Flg_Cases.moderate_Z; lia|]. split; [reflexivity|]. split; [reflexivity|].
    rewrite V0. repeat apply conj; apply Rabs_le; lra. }
  split; [apply dated_literal; lia|]. split; [reflexivity|]. destruct place_speed as (F1 & V1 & F2 & V2). destruct place_sizes as (A & B & C). split; [exact F1|]. split; [exact F2|].
  destruct (of_Z_ok 1000 ltac:(lia)) as (F3 & V3). split. { cbn [fair]. split; [exact F3|]. rewrite V3. lra. }
  cbv zeta. rewrite Flg_Cases.km_exact, V1, V2. split; [lra|]. split; [apply two_pow; [apply big; lia|lra]|]. split; [exact C|].
  assert (EQ : exact_location origin = equator_point). { unfold exact_location, origin, equator_point. cbn [fl_latitude fl_longitude fl_height fl_angle fl_length size]. rewrite V0. reflexivity. }
  rewrite EQ, equator_itrs. set (r := V 7000 0 500) in *. set (w := V 0 7 0) in *. set (d := sub (V 6378.137 0 0) r).
  assert (ND : 700 <= norm d <= 800) by (apply norm_between; unfold dot, d, r, sub; cbn [vx vy vz]; lra).
  assert (ZT : vz (on_axes r w (unit_of d)) = 4603041 * / (norm r * norm d)).
  { assert (DR : dot r d = - 4603041) by (unfold dot, d, r, sub; cbn [vx vy vz]; lra). clearbody r d. transitivity (- dot r d * / (norm r * norm d)); [|rewrite DR; field; split; lra].
    unfold on_axes, down, unit_of. cbn [vz]. set (a := norm r) in *. set (b := norm d) in *. clearbody a b. unfold dot, opposite, times. cbn [vx vy vz]. field. split; lra. }
  rewrite ZT. assert (PR : 7000 * 700 <= norm r * norm d <= 7100 * 800) by (split; apply Rmult_le_compat; lra).
  assert (H2 : norm d * (4603041 * / (norm r * norm d)) = 4603041 / norm r) by (field; lra). rewrite H2.
  assert (L : / 7100 <= / norm r) by (apply Rinv_le_contravar; lra). assert (LI : / (7100 * 800) <= / (norm r * norm d)) by (apply Rinv_le_contravar; lra).
  split; [lra|]. unfold Rdiv at 1. split; [lra|]. replace (2 / (4603041 / norm r)) with (2 * norm r / 4603041) by (field; lra). lra.
Qed.

Print Assumptions C153_float_lvlh.
Print Assumptions C154_float_attitude.
