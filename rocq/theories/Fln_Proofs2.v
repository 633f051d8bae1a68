(** The accuracy of latitudes and longitudes. *)
From Coq Require Import List ZArith Reals Lra Lia Psatz.
From Flocq Require Import Core.Core IEEE754.BinarySingleNaN IEEE754.Binary IEEE754.Bits.
From Verif Require Import Py Num Fl_Model Fl_Spec Fl_Proofs Flg_Model Flg_Spec Rot_Model Rot_Spec Geo_Model Geo_Spec Lvlh_Spec Lvlh_Proofs Flg_Proofs Flg_Proofs2 Flg_Proofs3 Geo_Alt Geo_Alt2
  Flr_Model Flr_Spec Flv_Model Fly_Model Fly_Spec Fly_Proofs Fly_Proofs2 Fly_Proofs3 Fly_Proofs4 Fly_Proofs5 Fln_Model Fln_Spec.
Import ListNotations.
Open Scope R_scope.
#[local] Strategy 1000 [fmul fadd fsub fdiv fneg of_Z].

(** A quotient whose numerator may be zero *)
Lemma quotient_near Z P z p : near_coord Z z -> rc (20 * uu) P p -> 1 <= p <= 1000000 -> Rabs (z / p) <= 1000000 ->
  finite (fdiv Z P) /\ Rabs (value (fdiv Z P) - z / p) <= 28 * uu * Rabs (z / p) + 3 * ee.
Proof.
  intros (FZ & EZ) RP HP HQ. pose proof uu16 as U. pose proof ee_tiny as EL. pose proof (rc_value _ _ _ RP ltac:(lra)) as VP. destruct RP as (FP & EP). rewrite (Rabs_pos_eq p) in EP by lra.
  set (q := z / p) in *. assert (ZQ : z = q * p) by (unfold q; field; lra). assert (PV : 99999 / 100000 * p <= value P) by (assert (p * (1 - 20 * uu) >= p * (99999 / 100000)) by (apply Rmult_ge_compat_l; lra); lra).
  set (P' := value P) in *. set (Z' := value Z) in *. pose proof (Rabs_pos q) as Q0.
  assert (D : Rabs (Z' / P' - q) <= 262 / 10 * uu * Rabs q + 101 / 100 * ee).
  { replace (Z' / P' - q) with (((Z' - z) - q * (P' - p)) * / P') by (rewrite ZQ; field; lra). rewrite Rabs_mult, Rabs_inv, (Rabs_pos_eq P') by lra.
    apply Rmult_le_reg_r with P'; [lra|]. rewrite Rmult_assoc, Rinv_l, Rmult_1_r by lra.
    assert (N : Rabs (Z' - z - q * (P' - p)) <= 261 / 10 * (uu * Rabs q * p) + ee).
    { unfold Rminus at 1. eapply Rle_trans; [apply Rabs_triang|]. rewrite Rabs_Ropp, Rabs_mult. rewrite ZQ, Rabs_mult, (Rabs_pos_eq p) in EZ by lra. rewrite ZQ. assert (Rabs q * Rabs (P' - p) <= Rabs q * (20 * uu * p)) by (apply Rmult_le_compat_l; auto). lra. }
    assert (UQ : 0 <= uu * Rabs q) by (apply Rmult_le_pos; lra). assert (0 <= uu * Rabs q * p) by (apply Rmult_le_pos; lra).
    assert (uu * Rabs q * (99999 / 100000 * p) <= uu * Rabs q * P') by (apply Rmult_le_compat_l; lra). assert (ee * (99999 / 100000) <= ee * P') by (apply Rmult_le_compat_l; lra). lra. }
  assert (UQ : 0 <= uu * Rabs q <= 1 / 1000000 * Rabs q) by (split; [apply Rmult_le_pos|apply Rmult_le_compat_r]; lra).
  pose proof (err_abs _ _ _ D) as AD. destruct (fdiv_ok Z P FZ ltac:(fold P'; lra)) as (F & V). { fold Z' P'. pose proof pow_1000. lra. }
  split; auto. rewrite V. fold Z' P'. pose proof (rnd_mul_err (Z' / P')) as R. eapply Rle_trans; [apply (err_trans _ _ _ _ _ R D)|].
  assert (ee * uu <= ee * (1 / 1000)) by (apply Rmult_le_compat_l; lra).
  assert (uu * Rabs (Z' / P') <= uu * (1001 / 1000 * Rabs q + 101 / 100 * ee)) by (apply Rmult_le_compat_l; lra). lra.
Qed.
Lemma latitude_ok J v s : accurate_geodesy J -> tracked v s ->
  finite (fwgs84_latitude J s) /\ Rabs (value (fwgs84_latitude J s) - atan (vz v / axis_distance v)) <= 38 * uu.
Proof.
  intros HJ (HF & HR & HZ & NX & NY & NZ). pose proof uu16 as U. pose proof ee_tiny as EL. pose proof (p_range _ _ HF HR HZ) as PR.
  destruct s as [X Y Z]. cbn [fx fy fz] in *. destruct (point_rc _ _ _ _ _ _ NX NY NZ HF HR HZ) as (RP & _). fold (axis_distance v) in RP. set (p := axis_distance v) in *.
  assert (Q : Rabs (vz v / p) <= 1000). { unfold Rdiv. rewrite Rabs_mult, Rabs_inv, (Rabs_pos_eq p) by lra. apply Rmult_le_reg_r with p; [lra|]. rewrite Rmult_assoc, Rinv_l by lra. lra. }
  destruct (quotient_near _ _ _ _ NZ RP ltac:(lra) ltac:(lra)) as (F & E). unfold fwgs84_latitude. cbn [fz].
  destruct (arctan_good J HJ _ F) as (FA & EA). split; auto. rewrite pow50 in EA.
  pose proof (atan_close _ _ _ _ E ltac:(lra) ltac:(lra)) as C. assert (K : 28 * uu * cos (atan (vz v / p)) <= 28 * uu * 1) by (apply Rmult_le_compat_l; [lra|apply COS_bound]).
  eapply Rle_trans; [apply (err_trans _ _ _ _ _ EA C)|]. lra.
Qed.

(** Directions that are close have longitudes that are close. *)
Lemma longitude_close x y x' y' th e : at_longitude th (V x' y' 0) -> 0 < sqrt (x ^ 2 + y ^ 2) -> 0 <= e <= 1 / 1000000 ->
  Rabs ((x' - x) * y - (y' - y) * x) <= e * sqrt (x ^ 2 + y ^ 2) ^ 2 -> Rabs (x' - x) <= 1 / 1000000 * sqrt (x ^ 2 + y ^ 2) -> Rabs (y' - y) <= 1 / 1000000 * sqrt (x ^ 2 + y ^ 2) ->
  exists angle, at_longitude angle (V x y 0) /\ Rabs (angle - th) <= 1003 / 1000 * e.
Proof.
  unfold at_longitude. cbn [vx vy]. intros (TX & TY) R0 He HS HX HY. set (r := sqrt (x ^ 2 + y ^ 2)) in *. set (r' := sqrt (x' ^ 2 + y' ^ 2)) in *.
  assert (RR : r * r = x * x + y * y). { unfold r. rewrite sqrt_sqrt; [ring|]. pose proof (pow2_ge_0 x). pose proof (pow2_ge_0 y). lra. }
  assert (RR' : r' * r' = x' * x' + y' * y'). { unfold r'. rewrite sqrt_sqrt; [ring|]. pose proof (pow2_ge_0 x'). pose proof (pow2_ge_0 y'). lra. }
  assert (R0' : 0 <= r') by apply sqrt_pos. clearbody r'. 
  assert (AX : Rabs x <= r). { rewrite <- (Rabs_pos_eq r) by lra. apply Rsqr_le_abs_0. unfold Rsqr. nra. } assert (AY : Rabs y <= r). { rewrite <- (Rabs_pos_eq r) by lra. apply Rsqr_le_abs_0. unfold Rsqr. nra. } clearbody r.
  set (dx := x' - x) in *. set (dy := y' - y) in *. assert (EX : x' = x + dx) by (unfold dx; ring). assert (EY : y' = y + dy) by (unfold dy; ring). clearbody dx dy.
  assert (DN : Rabs (x * dx + y * dy) <= 2 / 1000000 * (r * r)).
  { eapply Rle_trans; [apply Rabs_triang|]. rewrite !Rabs_mult. assert (Rabs x * Rabs dx <= r * (1 / 1000000 * r)) by (apply Rmult_le_compat; auto using Rabs_pos). assert (Rabs y * Rabs dy <= r * (1 / 1000000 * r)) by (apply Rmult_le_compat; auto using Rabs_pos). lra. }
  apply Rabs_le_inv in DN. assert (r2 : 0 < r * r) by nra.
  assert (RL : 99999 / 100000 * r <= r'). { apply Rsqr_incr_0_var; [|exact R0']. unfold Rsqr. rewrite RR', EX, EY. replace ((x + dx) * (x + dx) + (y + dy) * (y + dy)) with (r * r + 2 * (x * dx + y * dy) + (dx * dx + dy * dy)) by (rewrite RR; ring). pose proof (Rle_0_sqr dx). pose proof (Rle_0_sqr dy). unfold Rsqr in *. lra. }
  set (c := (x * x' + y * y') / (r * r')). set (s := (x' * y - y' * x) / (r * r')). assert (RP : 0 < r * r') by nra.
  assert (CS : c * c + s * s = 1). { unfold c, s. replace ((x * x' + y * y') / (r * r') * ((x * x' + y * y') / (r * r')) + (x' * y - y' * x) / (r * r') * ((x' * y - y' * x) / (r * r'))) with ((x * x + y * y) * (x' * x' + y' * y') / (r * r * (r' * r'))) by (field; split; nra). rewrite <- RR, <- RR'. field. split; nra. }
  assert (C0 : 0 < c). { unfold c. apply Rdiv_lt_0_compat; auto. rewrite EX, EY. replace (x * (x + dx) + y * (y + dy)) with (r * r + (x * dx + y * dy)) by (rewrite RR; ring). lra. }
  assert (S1 : Rabs s <= 1001 / 1000 * e).
  { unfold s, Rdiv. rewrite Rabs_mult, Rabs_inv, (Rabs_pos_eq (r * r')) by lra. apply Rmult_le_reg_r with (r * r'); auto. rewrite Rmult_assoc, Rinv_l, Rmult_1_r by lra. rewrite EX, EY. replace ((x + dx) * y - (y + dy) * x) with (dx * y - dy * x) by ring.
    replace (r ^ 2) with (r * r) in HS by ring. assert (r * (99999 / 100000 * r) <= r * r') by (apply Rmult_le_compat_l; lra). assert (e * (r * (99999 / 100000 * r)) <= e * (r * r')) by (apply Rmult_le_compat_l; lra). assert (0 <= e * (r * r)) by (apply Rmult_le_pos; lra). lra. }
  pose proof (Rabs_le_inv _ _ S1) as S2. set (d := asin s). assert (SD : sin d = s) by (apply sin_asin; lra). pose proof (asin_bound s) as AB. fold d in AB.
  assert (CD : cos d = c). { assert (0 <= cos d) by (apply cos_ge_0; lra). pose proof (sin2_cos2 d) as T. unfold Rsqr in T. rewrite SD in T. nra. }
  exists (th + d). assert (R'0 : 0 < r') by nra. split.
  - rewrite cos_plus, sin_plus, CD, SD. assert (CT : cos th = x' / r') by (rewrite TX; field; lra). assert (ST : sin th = y' / r') by (rewrite TY at 1; field; lra). rewrite CT, ST. unfold c, s. split.
    + replace (r * (x' / r' * ((x * x' + y * y') / (r * r')) - y' / r' * ((x' * y - y' * x) / (r * r')))) with (x * (x' * x' + y' * y') / (r' * r')) by (field; lra). rewrite <- RR'. field. lra.
    + replace (r * (y' / r' * ((x * x' + y * y') / (r * r')) + x' / r' * ((x' * y - y' * x) / (r * r')))) with (y * (x' * x' + y' * y') / (r' * r')) by (field; lra). rewrite <- RR'. field. lra.
  - replace (th + d - th) with d by ring. assert (G : Rabs d <= 1001 / 1000 * (1001 / 1000 * e)).
    { replace (1001 / 1000) with 1.001 at 1 by lra. apply small_angle; [split; [apply Rabs_pos|apply Rabs_le; lra]|lra|]. destruct (Rle_dec 0 d) as [D|D].
      - rewrite (Rabs_pos_eq d) by auto. rewrite SD. lra.
      - rewrite (Rabs_left d) by lra. rewrite sin_neg, SD. lra. }
    lra.
Qed.
Lemma longitude_ok f v s : accurate_arctan2 f -> tracked v s ->
  finite (fwgs84_longitude f s) /\ Rabs (value (fwgs84_longitude f s)) <= PI + 8 * uu /\ exists angle, at_longitude angle v /\ Rabs (value (fwgs84_longitude f s) - angle) <= 15 * uu.
Proof.
  intros Hf (HF & HR & HZ & (FX & EX) & (FY & EY) & NZ). pose proof uu16 as U. pose proof ee_tiny as EL. pose proof (p_range _ _ HF HR HZ) as PR. unfold fwgs84_longitude.
  set (p := axis_distance v) in *. set (X := value (fx s)) in *. set (Y := value (fy s)) in *.
  assert (PP : p * p = vx v * vx v + vy v * vy v). { unfold p, axis_distance. rewrite sqrt_sqrt; [ring|]. pose proof (pow2_ge_0 (vx v)). pose proof (pow2_ge_0 (vy v)). lra. }
  set (x := vx v) in *. set (y := vy v) in *.
  assert (AX : Rabs x <= p). { rewrite <- (Rabs_pos_eq p) by lra. apply Rsqr_le_abs_0. unfold Rsqr. nra. } assert (AY : Rabs y <= p). { rewrite <- (Rabs_pos_eq p) by lra. apply Rsqr_le_abs_0. unfold Rsqr. nra. }
  pose proof (Rabs_pos x) as X0. pose proof (Rabs_pos y) as Y0.
  assert (DX : Rabs (X - x) <= 1 / 1000000 * p) by (assert (61 / 10 * uu * Rabs x <= 1 / 2000000 * p) by (apply Rmult_le_compat; lra); lra). assert (DY : Rabs (Y - y) <= 1 / 1000000 * p) by (assert (61 / 10 * uu * Rabs y <= 1 / 2000000 * p) by (apply Rmult_le_compat; lra); lra).
  assert (SUM : p <= Rabs x + Rabs y). { apply Rsqr_incr_0_var; [|lra]. unfold Rsqr. rewrite PP. rewrite <- (Rabs_pos_eq (x * x)), <- (Rabs_pos_eq (y * y)), !Rabs_mult by nra. nra. }
  assert (B1 : / 2 ^ 100 <= 1). { rewrite <- Rinv_1. apply Rinv_le_contravar; [lra|]. apply pow_R1_Rle. lra. } assert (B2 : 1000000 <= 2 ^ 100). { apply Rle_trans with (2 ^ 20); [lra|]. apply Rle_pow; [lra|lia]. }
  destruct (Hf (fy s) (fx s) FY FX) as (F & th & T1 & T2 & T3). { fold X Y. rewrite Rabs_minus_sym in DX, DY. pose proof (err_abs _ _ _ DX). pose proof (err_abs _ _ _ DY). rewrite Rabs_minus_sym in DX, DY. pose proof (err_abs _ _ _ DX). pose proof (err_abs _ _ _ DY). lra. }
  fold X Y in T3. rewrite pow50 in T2. split; auto. split; [pose proof (err_abs _ _ _ T2) as E; assert (Rabs th <= PI) by (apply Rabs_le; lra); lra|].
  destruct (longitude_close x y X Y th (62 / 10 * uu) T3) as (angle & A1 & A2).
  - unfold p, axis_distance in PR. unfold x, y. lra.
  - lra.
  - fold (axis_distance v) p. change (sqrt (x ^ 2 + y ^ 2)) with p. replace (p ^ 2) with (p * p) by ring. unfold Rminus at 1. eapply Rle_trans; [apply Rabs_triang|]. rewrite Rabs_Ropp, !Rabs_mult.
    assert (Rabs (X - x) * Rabs y <= (61 / 10 * uu * Rabs x + ee) * Rabs y) by (apply Rmult_le_compat_r; auto). assert (Rabs (Y - y) * Rabs x <= (61 / 10 * uu * Rabs y + ee) * Rabs x) by (apply Rmult_le_compat_r; auto).
    assert (XY : 2 * (Rabs x * Rabs y) <= p * p). { rewrite PP. rewrite <- (Rabs_pos_eq (x * x)), <- (Rabs_pos_eq (y * y)), !Rabs_mult by nra. pose proof (Rle_0_sqr (Rabs x - Rabs y)) as Q. unfold Rsqr in Q. lra. }
    assert (uu * (2 * (Rabs x * Rabs y)) <= uu * (p * p)) by (apply Rmult_le_compat_l; lra). assert (ee * Rabs x <= ee * p) by (apply Rmult_le_compat_l; lra). assert (ee * Rabs y <= ee * p) by (apply Rmult_le_compat_l; lra).
    assert (ee * p <= uu / 1000000000000000 * (p * p)) by (apply Rmult_le_compat; nra). assert (0 <= uu * (p * p)) by (apply Rmult_le_pos; nra). lra.
  - exact DX.
  - exact DY.
  - exists angle. split; [exact A1|]. rewrite Rabs_minus_sym in A2. eapply Rle_trans; [apply (err_trans _ _ _ _ _ T2 A2)|]. lra.
Qed.
