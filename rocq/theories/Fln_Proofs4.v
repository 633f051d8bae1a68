(** The exact WGS84 position is above its foot; sizes of angles; lists of positions. *)
From Coq Require Import List ZArith Reals Lra Lia Psatz.
From Flocq Require Import Core.Core IEEE754.BinarySingleNaN IEEE754.Binary IEEE754.Bits.
From Verif Require Import Py Num Fl_Model Fl_Spec Fl_Proofs Flg_Model Flg_Spec Rot_Model Rot_Spec Time_Proofs Geo_Model Geo_Spec Lvlh_Spec Lvlh_Proofs Flg_Proofs Flg_Num Flg_Proofs2 Flg_Proofs3 Flg_Proofs5 Geo_Alt Geo_Alt2 Geo_Dir Geo_Acc Geo_Props Geo_Props2 Geo_Props3 Geo_Props4 Geo_Props7
  Flr_Model Flr_Spec Flv_Model Fly_Model Fly_Spec Fly_Proofs Fly_Proofs2 Fly_Proofs3 Fly_Proofs4 Fly_Proofs5 Fln_Model Fln_Spec Fln_Proofs Fln_Proofs2.
Import ListNotations.
Open Scope R_scope.
#[local] Strategy 1000 [fmul fadd fsub fdiv fneg of_Z].

Definition rr2 : R := B ^ 2 / A ^ 2.
Lemma rr2_near : Rabs (1 - e2 - rr2) <= 1 / 1000000000000000.
Proof.
  assert (Q : rr2 * A ^ 2 = B ^ 2) by (unfold rr2; field; pose proof A_val; lra). set (q := rr2) in *. clearbody q. rewrite A_val, B_val in Q. rewrite ecc_val. apply Rabs_le. lra.
Qed.
Lemma foot_exact phi lam : exists foot, foot_at phi lam foot /\
  forall h, Rabs (vx (wgs84_point phi lam h) - vx (plus foot (times h (up phi lam)))) <= 1 / 10 ^ 11 /\
    Rabs (vy (wgs84_point phi lam h) - vy (plus foot (times h (up phi lam)))) <= 1 / 10 ^ 11 /\
    Rabs (vz (wgs84_point phi lam h) - vz (plus foot (times h (up phi lam)))) <= 1 / 10 ^ 11.
Proof.
  pose proof rr2_near as RN. apply Rabs_le_inv in RN. pose proof (Np_sq phi) as NS. pose proof (Np_bounds phi) as NB. pose proof (sc2 phi) as T. pose proof (sc2 lam) as T2. pose proof A_val as VA. pose proof B_val as VB. pose proof ecc2 as E2.
  assert (S1 : sin phi ^ 2 <= 1) by (pose proof (sin2_bound phi); lra). assert (S0 : 0 <= sin phi ^ 2) by apply pow2_ge_0.
  set (D' := 1 - (1 - rr2) * sin phi ^ 2). assert (DB : 0.99 <= D' <= 1) by (unfold D'; nra).
  set (M := A / sqrt D'). assert (QD : sqrt D' * sqrt D' = D') by (apply sqrt_sqrt; lra). assert (Q0 : 0 < sqrt D') by (apply sqrt_lt_R0; lra). assert (Q1 : sqrt D' <= 1) by (rewrite <- sqrt_1; apply sqrt_le_1_alt; lra).
  assert (MS : M * M * D' = A * A) by (transitivity (M * M * (sqrt D' * sqrt D')); [now rewrite QD|unfold M; field; lra]). assert (M0 : 6378 <= M). { unfold M. apply Rmult_le_reg_r with (sqrt D'); [lra|]. unfold Rdiv. rewrite Rmult_assoc, Rinv_l, Rmult_1_r by lra. rewrite VA. nra. }
  assert (M1 : M * M <= 41100000) by (rewrite VA in MS; nra). assert (M2 : M <= 6411) by nra.
  assert (RB : 9 / 10 <= rr2 <= 1) by lra. set (d := 1 - e2 - rr2) in *. assert (NM : Rabs (Np phi - M) <= 35 / 10000000000000).
  { assert (E : (Np phi - M) * ((Np phi + M) * (1 - e2 * sin phi ^ 2)) = M * M * (- d * sin phi ^ 2)). { transitivity (Np phi * Np phi * (1 - e2 * sin phi ^ 2) - M * M * (1 - e2 * sin phi ^ 2)); [ring|]. rewrite NS, <- MS. unfold D', d. ring. }
    set (w := (Np phi + M) * (1 - e2 * sin phi ^ 2)) in *. assert (W : 12000 <= w) by (unfold w; rewrite VA in NB; nra). clearbody w.
    assert (Y : Rabs (M * M * (- d * sin phi ^ 2)) <= 41100000 * (1 / 1000000000000000)). { rewrite Rabs_mult, (Rabs_pos_eq (M * M)), Rabs_mult, Rabs_Ropp, (Rabs_pos_eq (sin phi ^ 2)) by nra. assert (Rabs d <= 1 / 1000000000000000) by (apply Rabs_le; lra). apply Rmult_le_compat; [nra|apply Rmult_le_pos; auto using Rabs_pos|auto|]. pose proof (Rabs_pos d). nra. }
    rewrite <- E, Rabs_mult, (Rabs_pos_eq w) in Y by lra. pose proof (Rabs_pos (Np phi - M)). nra. }
  exists (V (M * cos phi * cos lam) (M * cos phi * sin lam) (M * rr2 * sin phi)). assert (R0 : rr2 * A ^ 2 = B ^ 2) by (unfold rr2; field; lra). split; [split|].
  - unfold on_ellipsoid. cbn [vx vy vz]. rewrite wa, wb. replace ((M * cos phi * cos lam) ^ 2 + (M * cos phi * sin lam) ^ 2) with (M * M * (cos phi * cos phi) * (sin lam * sin lam + cos lam * cos lam)) by ring. rewrite T2, Rmult_1_r.
    replace (cos phi * cos phi) with (1 - sin phi * sin phi) by lra. transitivity (M * M * D' / A ^ 2); [|rewrite MS; field; lra]. unfold D'. replace ((M * rr2 * sin phi) ^ 2 / B ^ 2) with (M * M * rr2 * sin phi ^ 2 * rr2 / B ^ 2) by (field; lra). rewrite <- R0. assert (rr2 <> 0) by lra. field. split; [|assumption]; rewrite VA; lra.
  - exists (M / A ^ 2). split; [apply Rdiv_lt_0_compat; [lra|rewrite VA; lra]|]. unfold gradient, times, up. cbn [vx vy vz]. rewrite wa, wb. assert (rr2 <> 0) by lra. f_equal; try (field; lra). rewrite <- R0. field. split; [rewrite VA; lra|assumption].
  - intros h. unfold wgs84_point. change (A / sqrt (1 - e2 * sin phi ^ 2)) with (Np phi). unfold plus, times, up. cbn [vx vy vz].
    assert (SC : Rabs (sin phi) <= 1 /\ Rabs (cos phi) <= 1 /\ Rabs (cos lam) <= 1 /\ Rabs (sin lam) <= 1) by (repeat split; apply Rabs_le; (apply SIN_bound || apply COS_bound)). destruct SC as (A1 & A2 & A3 & A4).
    assert (K : forall a b c e, Rabs a <= e -> Rabs b <= 1 -> Rabs c <= 1 -> Rabs (a * b * c) <= e). { intros a b c e Ha Hb Hc. rewrite !Rabs_mult. pose proof (Rabs_pos a). pose proof (Rabs_pos b). pose proof (Rabs_pos c). assert (Rabs a * Rabs b <= e * 1) by (apply Rmult_le_compat; lra). rewrite <- (Rmult_1_r e). apply Rmult_le_compat; try lra. apply Rmult_le_pos; lra. }
    split; [|split].
    + replace ((Np phi + h) * cos phi * cos lam - (M * cos phi * cos lam + h * (cos phi * cos lam))) with ((Np phi - M) * cos phi * cos lam) by ring. apply K; auto. lra.
    + replace ((Np phi + h) * cos phi * sin lam - (M * cos phi * sin lam + h * (cos phi * sin lam))) with ((Np phi - M) * cos phi * sin lam) by ring. apply K; auto. lra.
    + replace ((Np phi * (1 - e2) + h) * sin phi - (M * rr2 * sin phi + h * sin phi)) with ((Np phi * (1 - e2) - M * rr2) * sin phi * 1) by ring. apply K; auto; [|rewrite Rabs_R1; lra].
      replace (Np phi * (1 - e2) - M * rr2) with ((Np phi - M) * (1 - e2) + M * d) by (unfold d; ring). eapply Rle_trans; [apply Rabs_triang|]. rewrite !Rabs_mult, (Rabs_pos_eq (1 - e2)), (Rabs_pos_eq M) by lra. assert (Rabs d <= 1 / 1000000000000000) by (apply Rabs_le; lra).
      assert (M * Rabs d <= 6411 * (1 / 1000000000000000)) by (apply Rmult_le_compat; auto using Rabs_pos; lra). assert (Rabs (Np phi - M) * (1 - e2) <= 35 / 10000000000000 * 1) by (apply Rmult_le_compat; auto using Rabs_pos; lra). lra.
Qed.
Lemma lat_size s x : Rabs (x * s) <= 89.9 -> - (PI / 2) < to_rad s x < PI / 2 /\ 0.0017 <= cos (to_rad s x).
Proof.
  intros H. unfold to_rad. replace (x * (s / Time_Model.deg_per_rad)) with (x * s / Time_Model.deg_per_rad) by (unfold Rdiv; ring). apply Rabs_le_inv in H. unfold Time_Model.deg_per_rad. set (y := x * s / 57.29577951308232). assert (Y : -1.56906 <= y <= 1.56906) by (unfold y; lra). clearbody y.
  pose proof PI_near. split; [lra|]. assert (K : forall z, 0 <= z <= 1.56906 -> 0.0017 <= cos z).
  { intros z Hz. rewrite <- sin_shift. apply Rle_trans with (sin 0.00173); [pose proof (sin_lower 0.00173 ltac:(lra)); lra|]. apply sin_incr_1; lra. }
  destruct (Rle_dec 0 y); [apply K; lra|]. rewrite <- cos_neg. apply K. lra.
Qed.
(** The latitudes and longitudes of all the positions *)
Lemma points_tracked unit positions : measures unit = Lengths -> (forall i p, nth_error positions i = Some p -> finite_vec p /\ outside (place unit p) /\ clear_of_poles (place unit p)) ->
  exists points, Forall2 (fun p s => fkm unit p = Ok s) positions points /\ length points = length positions /\ forall i p, nth_error positions i = Some p -> exists s, nth_error points i = Some s /\ tracked (place unit p) s.
Proof.
  intros U. induction positions as [|p l IH]; intros H; [exists []; split; [constructor|split; [reflexivity|intros [|i] q E; discriminate]]|].
  destruct IH as (ss & T1 & T2 & T3); [intros i q E; exact (H (S i) q E)|]. destruct (H 0%nat p eq_refl) as (F & O & C). destruct (km_tracked unit p U F C (outside_far _ O)) as (s & E & T). exists (s :: ss).
  split; [constructor; auto|]. split; [cbn; now rewrite T2|]. intros [|i] q EQ; cbn [nth_error] in *; [injection EQ as <-; eauto|eauto].
Qed.
Lemma lat_lon J f unit positions points : accurate_geodesy J -> accurate_arctan2 f ->
  (forall i p, nth_error positions i = Some p -> exists s, nth_error points i = Some s /\ tracked (place unit p) s) -> length points = length positions ->
  forall i p lat lon, nth_error positions i = Some p -> nth_error (map (fwgs84_latitude J) points) i = Some lat -> nth_error (map (fwgs84_longitude f) points) i = Some lon ->
    finite lat /\ Rabs (value lat - atan (vz (place unit p) / axis_distance (place unit p))) <= 5 / 10 ^ 15 /\
    finite lon /\ Rabs (value lon) <= PI + 1 / 10 ^ 15 /\ exists angle, at_longitude angle (place unit p) /\ Rabs (value lon - angle) <= 2 / 10 ^ 15.
Proof.
  intros HJ Hf T LE i p lat lon E E1 E2. destruct (T i p E) as (s & ES & TS). rewrite nth_error_map, ES in E1, E2. cbn [option_map] in E1, E2. injection E1 as <-. injection E2 as <-. pose proof uu16 as U.
  destruct (latitude_ok J _ _ HJ TS) as (F1 & G1). destruct (longitude_ok f _ _ Hf TS) as (F2 & G2 & angle & G3 & G4). split; [exact F1|]. split; [lra|]. split; [exact F2|]. split; [lra|]. exists angle. split; [exact G3|lra].
Qed.
