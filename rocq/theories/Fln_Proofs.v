(** The accuracy of the conversion from WGS84 to ITRS. *)
From Coq Require Import ZArith Reals Lra Lia Psatz.
From Flocq Require Import Core.Core IEEE754.BinarySingleNaN IEEE754.Binary IEEE754.Bits.
From Verif Require Import Py Fl_Model Fl_Spec Fl_Proofs Flg_Model Flg_Spec Rot_Model Rot_Spec Time_Model Geo_Model Flg_Proofs Flg_Num Flg_Proofs2 Flg_Proofs3 Flg_Proofs5 Flg_Proofs6
  Flr_Model Flr_Spec Flv_Model Fly_Model Fly_Spec Fln_Model Fln_Spec.
Open Scope R_scope.
#[local] Strategy 1000 [fmul fadd fsub fdiv fneg of_Z].

(** As [appr_mul] and [appr_add], for large first factors *)
Lemma appr_mul_big x y a b ea eb A : appr x a ea A -> appr y b eb 1 ->
  0 <= ea <= 100000000 -> 0 <= eb <= 1000 -> 1 <= A <= 200000 ->
  appr (fmul x y) (a * b) (A * eb + ea + A + 2) A.
Proof.
  intros (Fx & Ex & Ax) (Fy & Ey & By) HA HB HC. pose proof uu_pos as U. pose proof uu14 as U'.
  assert (D : Rabs (value x * value y - a * b) <= (A * eb + ea + 1 / 100) * uu).
  { replace (value x * value y - a * b) with (a * (value y - b) + (value x - a) * b + (value x - a) * (value y - b)) by ring.
    eapply Rle_trans; [apply Rabs_triang|]. eapply Rle_trans; [apply Rplus_le_compat_r, Rabs_triang|]. rewrite !Rabs_mult.
    assert (P1 : Rabs a * Rabs (value y - b) <= A * (eb * uu)) by (apply Rmult_le_compat; try apply Rabs_pos; auto).
    assert (P2 : Rabs (value x - a) * Rabs b <= ea * uu * 1) by (apply Rmult_le_compat; try apply Rabs_pos; auto).
    assert (P3 : Rabs (value x - a) * Rabs (value y - b) <= ea * uu * (eb * uu)) by (apply Rmult_le_compat; try apply Rabs_pos; auto).
    assert (P4 : ea * uu * (eb * uu) <= 1 / 100 * uu).
    { replace (ea * uu * (eb * uu)) with (ea * eb * uu * uu) by ring. apply Rmult_le_compat_r; [lra|].
      assert (ea * eb <= 100000000 * 1000) by (apply Rmult_le_compat; lra). assert (0 <= ea * eb) by nra. assert (ea * eb * uu <= 100000000 * 1000 * uu) by nra. lra. }
    lra. }
  set (e := A * eb + ea + 1 / 100) in *. assert (E0 : 0 <= e <= 100000000000).
  { unfold e. assert (0 <= A * eb <= 200000 * 1000) by (split; [nra|apply Rmult_le_compat; lra]). lra. }
  assert (AB : Rabs (a * b) <= A). { rewrite Rabs_mult, <- (Rmult_1_r A). apply Rmult_le_compat; auto using Rabs_pos. }
  assert (eu : e * uu <= / 1000) by nra.
  pose proof (err_abs _ _ _ D) as W.
  destruct (fmul_ok x y Fx Fy) as (F & V). { eapply Rle_trans with 1000000000000000000; [lra|apply pow_1000]. }
  split; auto. split; auto. rewrite V. pose proof (rnd_mul_err (value x * value y)) as R. pose proof ee1 as Q.
  eapply Rle_trans; [apply (err_trans _ _ _ _ _ R D)|].
  assert (uu * Rabs (value x * value y) <= uu * (A + / 1000)) by (apply Rmult_le_compat_l; lra).
  replace (A * eb + ea) with (e - 1 / 100) by (unfold e; ring). lra.
Qed.
Lemma appr_add_big x y a b ea eb A B : appr x a ea A -> appr y b eb B ->
  0 <= ea <= 100000000 -> 0 <= eb <= 100000000 -> 0 <= A <= 200000 -> 0 <= B <= 200000 ->
  appr (fadd x y) (a + b) (ea + eb + A + B + 1) (A + B).
Proof.
  intros (Fx & Ex & Ax) (Fy & Ey & By) HA HB HC HD. pose proof uu_pos as U. pose proof uu14 as U'.
  pose proof (err_plus _ _ _ _ _ _ Ex Ey) as D. pose proof (Rabs_triang a b) as T. pose proof (err_abs _ _ _ D) as W.
  assert (eu : ea * uu + eb * uu <= / 1000) by nra.
  destruct (fadd_ok x y Fx Fy) as (F & V). { apply small_abs. lra. }
  split; auto. split; [|lra]. rewrite V. pose proof (rnd_add_err _ _ (value_fmt x) (value_fmt y)) as R.
  eapply Rle_trans; [apply (err_trans _ _ _ _ _ R D)|].
  assert (uu * Rabs (value x + value y) <= uu * (A + B + / 1000)) by (apply Rmult_le_compat_l; lra). lra.
Qed.
Lemma npcos L x r e b : accurate_arrays L -> appr x r e b -> b <= 4 -> 0 <= e <= 100 -> appr (a_cos L x) (cos r) (e + 4) 1.
Proof.
  intros A (F & E & B) Hb He. pose proof uu_pos. pose proof uu14. destruct (np_cos_good L A x F) as (Fc & Ec). { eapply Rle_trans; [apply (err_abs _ _ _ E)|]. nra. }
  split; auto. split; [|apply Rabs_le, COS_bound]. replace (/ 2 ^ 51) with (4 * uu) in Ec by (rewrite uu_value; lra).
  pose proof (cos_lip (value x) r) as LL. pose proof (Rle_trans _ _ _ LL E) as L2. eapply Rle_trans; [apply (err_trans _ _ _ _ _ Ec L2)|]. lra.
Qed.
Lemma npsin L x r e b : accurate_arrays L -> appr x r e b -> b <= 4 -> 0 <= e <= 100 -> appr (a_sin L x) (sin r) (e + 4) 1.
Proof.
  intros A (F & E & B) Hb He. pose proof uu_pos. pose proof uu14. destruct (np_sin_good L A x F) as (Fc & Ec). { eapply Rle_trans; [apply (err_abs _ _ _ E)|]. nra. }
  split; auto. split; [|apply Rabs_le, SIN_bound]. replace (/ 2 ^ 51) with (4 * uu) in Ec by (rewrite uu_value; lra).
  pose proof (sin_lip (value x) r) as LL. pose proof (Rle_trans _ _ _ LL E) as L2. eapply Rle_trans; [apply (err_trans _ _ _ _ _ Ec L2)|]. lra.
Qed.
Lemma g_ecc2 J : accurate_geodesy J -> appr (g_square J feccentricity) (eccentricity ^ 2) 6 (9 / 1000).
Proof.
  intros HJ. destruct appr_ecc as (F & E & B). pose proof uu_pos as U. pose proof uu14 as U'. apply Rabs_le_inv in E. assert (EV : eccentricity = 0.08181919084296284) by reflexivity.
  set (v := value feccentricity) in *. assert (VB : 0.08 <= v <= 0.0819) by lra.
  assert (P1 : / 2 ^ 100 <= 0.08). { assert (H100 : 16 <= 2 ^ 100) by (replace 16 with (2 ^ 4) by ring; apply Rle_pow; [lra|lia]). apply Rle_trans with (/ 16); [apply Rinv_le_contravar; lra|lra]. }
  assert (P2 : 1 <= 2 ^ 100) by (apply pow_R1_Rle; lra).
  destruct (Fly_Spec.square_good J HJ feccentricity F) as (F2 & E2). { fold v. rewrite Rabs_pos_eq; lra. } fold v in E2.
  replace (/ 2 ^ 51) with (4 * uu) in E2 by (rewrite uu_value; lra). split; auto. split; [|rewrite ecc_sq; apply Rabs_le; lra].
  assert (V2 : v ^ 2 <= 0.0068) by nra. assert (D : Rabs (v ^ 2 - eccentricity ^ 2) <= 0.18 * uu).
  { replace (v ^ 2 - eccentricity ^ 2) with ((v - eccentricity) * (v + eccentricity)) by ring. rewrite Rabs_mult, (Rabs_pos_eq (v + eccentricity)) by lra. rewrite (Rmult_comm 0.18). apply Rmult_le_compat; [apply Rabs_pos|lra|apply Rabs_le; lra|lra]. }
  eapply Rle_trans; [apply (err_trans _ _ _ _ _ E2 D)|]. assert (4 * uu * v ^ 2 <= 4 * uu * 0.0068) by (apply Rmult_le_compat_l; lra). lra.
Qed.
Lemma n_ok L J x r : accurate_arrays L -> accurate_geodesy J -> appr x r 12 2 ->
  appr (fwgs84_n L J x) (radius_of_curvature_in_prime_vertical r) 66000 6401.
Proof.
  intros A HJ X. unfold fwgs84_n, radius_of_curvature_in_prime_vertical, fsquare.
  pose proof (npsin L x r _ _ A X ltac:(lra) ltac:(lra)) as S. pose proof (appr_mul _ _ _ _ _ _ _ _ S S ltac:(lra) ltac:(lra) ltac:(lra) ltac:(lra)) as S2.
  replace (sin r * sin r) with (sin r ^ 2) in S2 by ring.
  pose proof (appr_mul _ _ _ _ _ _ _ _ (g_ecc2 J HJ) S2 ltac:(lra) ltac:(lra) ltac:(lra) ltac:(lra)) as P.
  assert (I1 : Rabs (1 - eccentricity ^ 2 * sin r ^ 2) <= IZR (Z.abs 1)) by (pose proof (inner_range r); apply Rabs_le; cbn; lra).
  pose proof (appr_sub _ _ _ _ _ _ _ _ (appr_Z 1 ltac:(lia)) P ltac:(lra) ltac:(lra) ltac:(cbn; lra) ltac:(lra) I1) as D.
  pose proof (appr_le _ _ _ _ 11 1 D ltac:(cbn; lra) ltac:(cbn; lra)) as D'. clear D.
  pose proof (appr_sqrt _ _ _ D' (proj1 (inner_range r)) ltac:(lra)) as Q.
  pose proof (appr_le _ _ _ _ 8 1 Q ltac:(lra) ltac:(lra)) as Q'. clear Q.
  pose proof (curvature_range r) as C. unfold radius_of_curvature_in_prime_vertical in C.
  assert (SR : 99 / 100 <= sqrt (1 - eccentricity ^ 2 * sin r ^ 2)).
  { pose proof (inner_range r). rewrite <- (sqrt_square (99 / 100)) by lra. apply sqrt_le_1_alt. lra. }
  pose proof (appr_div _ _ _ _ _ _ 6401 (appr_le _ _ _ _ 6379 6401 appr_axis ltac:(lra) ltac:(lra)) Q' SR ltac:(unfold major_axis; lra) ltac:(lra) ltac:(lra) ltac:(lra) ltac:(lra)) as Z.
  apply (appr_le _ _ _ _ _ _ Z); lra.
Qed.
Lemma conv_km x a : moderate x -> kind_of a = Length ->
  exists y, fconvert x a Ukm = Ok y /\ appr y (to_km (size a) (value x)) (7 * Rabs (to_km (size a) (value x))) (Rabs (to_km (size a) (value x))).
Proof.
  intros M K. destruct (convert_ok x a Ukm K M) as (y & E & F & O). exists y. split; auto. change (size Ukm) with 1000 in O. apply appr_off; auto; lra.
Qed.
Lemma wgs84_ok L J lat lon h ang len : accurate_arrays L -> accurate_geodesy J -> around_earth lat lon h ang len ->
  let v := wgs84_point (to_rad (size ang) (value lat)) (to_rad (size ang) (value lon)) (to_km (size len) (value h)) in
  let w := 6401 + Rabs (to_km (size len) (value h)) in
  exists p, fwgs84_to_itrs L J lat lon h ang len = Ok p /\ appr (fx p) (vx v) (59 * w) w /\ appr (fy p) (vy v) (59 * w) w /\ appr (fz p) (vz v) (40 * w) w.
Proof.
  intros A HJ (M1 & M2 & M3 & K1 & K2 & B1 & B2 & B3). apply measures_angle in K1. apply measures_length in K2.
  destruct (conv_rad _ _ 90 M1 K1 B1 ltac:(lra)) as (la & C1 & A1). destruct (conv_rad _ _ 180 M2 K1 B2 ltac:(lra)) as (lo & C2 & A2).
  destruct (conv_km _ _ M3 K2) as (hh & C3 & A3). intros v w. unfold fwgs84_to_itrs. rewrite C1, C2, C3. cbn [bind].
  assert (HB : Rabs (to_km (size len) (value h)) <= 100000). { unfold to_km. replace (value h * (size len / 1000)) with (value h * size len * / 1000) by field. rewrite Rabs_mult, (Rabs_pos_eq (/ 1000)) by lra. lra. }
  eexists. split; [reflexivity|]. unfold fwgs84_point. cbn [fx fy fz]. unfold v, wgs84_point. cbn [vx vy vz].
  pose proof (appr_le _ _ _ _ 12 2 A1 ltac:(lra) ltac:(lra)) as T1; clear A1; rename T1 into A1. pose proof (appr_le _ _ _ _ 23 4 A2 ltac:(lra) ltac:(lra)) as T2; clear A2; rename T2 into A2.
  set (tl := to_rad (size ang) (value lat)) in *. set (to := to_rad (size ang) (value lon)) in *. set (th := to_km (size len) (value h)) in *.
  change (major_axis / sqrt (1 - eccentricity ^ 2 * sin tl ^ 2)) with (radius_of_curvature_in_prime_vertical tl).
  clear v. clearbody tl to th. pose proof (Rabs_pos th) as H0. set (H := Rabs th) in *. clearbody H.
  pose proof (n_ok L J _ _ A HJ A1) as N. pose proof (npcos L _ _ _ _ A A1 ltac:(lra) ltac:(lra)) as CL. pose proof (npsin L _ _ _ _ A A1 ltac:(lra) ltac:(lra)) as SL.
  pose proof (npcos L _ _ _ _ A A2 ltac:(lra) ltac:(lra)) as CO. pose proof (npsin L _ _ _ _ A A2 ltac:(lra) ltac:(lra)) as SO.
  pose proof (appr_add_big _ _ _ _ _ _ _ _ N A3 ltac:(lra) ltac:(lra) ltac:(lra) ltac:(lra)) as S.
  pose proof (appr_le _ _ _ _ (12 * w) w S ltac:(unfold w; lra) ltac:(unfold w; lra)) as T3; clear S; rename T3 into S.
  assert (W : 6401 <= w <= 106401) by (unfold w; lra).
  pose proof (appr_mul_big _ _ _ _ _ _ _ S CL ltac:(lra) ltac:(lra) ltac:(lra)) as P.
  pose proof (appr_le _ _ _ _ (30 * w) w P ltac:(lra) ltac:(lra)) as T4; clear P; rename T4 into P.
  split; [|split].
  - pose proof (appr_mul_big _ _ _ _ _ _ _ P CO ltac:(lra) ltac:(lra) ltac:(lra)) as X. apply (appr_le _ _ _ _ _ _ X); lra.
  - pose proof (appr_mul_big _ _ _ _ _ _ _ P SO ltac:(lra) ltac:(lra) ltac:(lra)) as X. apply (appr_le _ _ _ _ _ _ X); lra.
  - assert (I1 : Rabs (1 - eccentricity ^ 2) <= IZR (Z.abs 1)) by (rewrite ecc_sq; apply Rabs_le; cbn; lra).
    pose proof (appr_sub _ _ _ _ _ _ _ _ (appr_Z 1 ltac:(lia)) (g_ecc2 J HJ) ltac:(lra) ltac:(lra) ltac:(cbn; lra) ltac:(lra) I1) as D.
    pose proof (appr_le _ _ _ _ 8 1 D ltac:(cbn; lra) ltac:(cbn; lra)) as T5; clear D; rename T5 into D.
    pose proof (appr_mul _ _ _ _ _ _ _ _ N D ltac:(lra) ltac:(lra) ltac:(lra) ltac:(lra)) as X.
    pose proof (appr_le _ _ _ _ 124000 6401 X ltac:(lra) ltac:(lra)) as T6; clear X; rename T6 into X.
    pose proof (appr_add_big _ _ _ _ _ _ _ _ X A3 ltac:(lra) ltac:(lra) ltac:(lra) ltac:(lra)) as Y.
    pose proof (appr_le _ _ _ _ (22 * w) w Y ltac:(unfold w; lra) ltac:(unfold w; lra)) as T7; clear Y; rename T7 into Y.
    pose proof (appr_mul_big _ _ _ _ _ _ _ Y SL ltac:(lra) ltac:(lra) ltac:(lra)) as Q. apply (appr_le _ _ _ _ _ _ Q); lra.
Qed.
