(** Computed latitudes against geodetic latitudes: C189. *)
From Coq Require Import List ZArith Reals Lra Lia Psatz.
From Flocq Require Import Core.Core IEEE754.BinarySingleNaN IEEE754.Binary IEEE754.Bits.
From Verif Require Import Py Num Fl_Model Fl_Spec Fl_Proofs Flg_Model Flg_Spec Rot_Model Rot_Spec Geo_Model Geo_Spec Lvlh_Spec Lvlh_Proofs Flg_Proofs Geo_Alt Geo_Alt2 Geo_Acc Geo_Props Geo_Foot
  Flc_Model Flc_Spec Flr_Model Flr_Spec Flr_Best Flv_Model Fly_Model Fly_Spec Fly_Props Fln_Model Fln_Spec Fln_Props Flz_Model Flz_Spec Flz_Proofs Flz_Proofs2 Near_Spec Near_Props Near_Props2 Near_Props3 Near_Spec2 Near_Lat Flg_Proofs2.
Import ListNotations.
Open Scope R_scope.
#[local] Strategy 1000 [fmul fadd fsub fdiv fneg of_Z].

(** ** C189: the latitude is within 0.0034 radians (0.195 degrees) of the geodetic latitude *)
(** Every point on or outside the ellipsoid has a geodetic latitude, and only one. *)
Theorem C189_one_latitude :
  forall p, not_below p -> exists latitude, geodetic_latitude p latitude /\ forall other, geodetic_latitude p other -> other = latitude.
Proof. exact one_latitude. Qed.
(** Positions in the ITRS frame. *)
Theorem C189_geodetic_latitude :
  forall (L : arrays) (J : geodesy) arctan2, accurate_arrays L -> accurate_geodesy J -> accurate_arctan2 arctan2 ->
  forall unit positions, measures unit = Lengths -> positions <> [] -> (Z.of_nat (length positions) <= 2 ^ 40)%Z ->
    (forall i p, nth_error positions i = Some p -> finite_vec p /\ not_below (place unit p) /\ off_axis (place unit p) /\ clear_of_poles (place unit p)) ->
    forall result, fitrs_to_wgs84 L J arctan2 unit positions result ->
    forall i p latitude true_latitude, nth_error positions i = Some p -> nth_error (fw_latitude result) i = Some latitude -> geodetic_latitude (place unit p) true_latitude ->
      finite latitude /\ Rabs (value latitude - true_latitude) <= 0.0034001.
Proof.
  intros L J f HL HJ Hf unit positions U NE LE H result R i p la t E1 E2 G.
  destruct (C158_float_itrs_to_wgs84 L J f HL HJ Hf unit positions U NE LE) as (_ & AN).
  - intros j q I. destruct (H j q I) as (K1 & K2 & K3 & K4). split; [exact K1|]. split; [|exact K4]. destruct (foot_exists _ K2) as (ft & ht & A1 & A2). eapply above_outside; eauto.
  - destruct (AN result R) as (L1 & L2 & _ & _ & Q). assert (I : (i < length positions)%nat) by (apply nth_error_Some; congruence).
    destruct (nth_some _ _ _ L2 I) as (lo & E3). destruct (Q i p la lo E1 E2 E3) as (F & B & _). split; [exact F|].
    destruct (H i p E1) as (_ & _ & O & _). pose proof (latitudes_near _ _ O G) as N. apply Rlt_le in N. pose proof (Flg_Proofs2.err_trans _ _ _ _ _ B N). lra.
Qed.
(** Positions in the GCRS frame: [sat] is where the exact conversion to the ITRS frame puts the satellite. *)
Theorem C189_celestial_latitude :
  forall (L : arrays) (J : geodesy) arctan2, accurate_arrays L -> accurate_geodesy J -> accurate_arctan2 arctan2 ->
  forall unit julian points, length julian = length points -> points <> [] -> (Z.of_nat (length points) <= 2 ^ 40)%Z ->
    (forall i jd p, nth_error julian i = Some jd -> nth_error points i = Some p ->
       dated jd /\ within_km 6380 99999 unit p /\ forall sat, placed unit jd p sat -> away_from_poles sat) ->
    forall result, fitrs_to_wgs84 L J arctan2 unit (fitrs_positions L julian points) result ->
    forall i jd p sat latitude true_latitude, nth_error julian i = Some jd -> nth_error points i = Some p -> placed unit jd p sat ->
      nth_error (fw_latitude result) i = Some latitude -> geodetic_latitude sat true_latitude ->
      finite latitude /\ Rabs (value latitude - true_latitude) <= 0.0034001.
Proof.
  intros L J f HL HJ Hf unit julian points LN NE LE H result R i jd p sat la t E1 E2 P E3 G.
  destruct (C188_celestial_track L J f HL HJ Hf unit julian points LN NE LE H) as (_ & AN). destruct (AN result R) as (L1 & L2 & L3 & Q).
  assert (I : (i < length points)%nat) by (apply nth_error_Some; congruence). destruct (nth_some _ _ _ L2 I) as (lo & E4). destruct (nth_some _ _ _ L3 I) as (he & E5).
  destruct (Q i jd p sat la lo he E1 E2 P E3 E4 E5) as (F & B & _). split; [exact F|]. destruct (H i jd p E1 E2) as (D & W & C). specialize (C sat P).
  assert (O : off_axis sat).
  { destruct (placed_near L jd p unit sat 6380 99999 HL D W ltac:(lra) ltac:(lra) P) as (_ & N & _). destruct W as (_ & _ & _ & _ & W). rewrite <- N in W. unfold away_from_poles in C.
    destruct (Req_dec (vx sat) 0) as [X|X]; [|left; exact X]. destruct (Req_dec (vy sat) 0) as [Y|Y]; [|right; exact Y]. exfalso. rewrite X, Y in C. replace (0 ^ 2 + 0 ^ 2) with 0 in C by ring. rewrite sqrt_0 in C. pose proof (norm_split sat) as NS. unfold from_axis in NS. rewrite X, Y in NS. replace (0 ^ 2 + 0 ^ 2) with 0 in NS by ring. rewrite sqrt_0 in NS. lra. }
  pose proof (latitudes_near _ _ O G) as N. apply Rlt_le in N. pose proof (Flg_Proofs2.err_trans _ _ _ _ _ B N). lra.
Qed.
Lemma atan_gap : 0.0033 < atan 1 - atan 0.99331.
Proof.
  destruct (MVT_cor2 atan (fun x => / (1 + x ^ 2)) 0.99331 1 ltac:(lra)) as (c & E & C).
  - intros x _. apply derivable_pt_lim_atan.
  - rewrite E. assert (H : / 2 <= / (1 + c ^ 2)) by (apply Rinv_le_contravar; nra). lra.
Qed.
(** The geocentric and the geodetic latitude do differ by almost as much: a point of the ellipsoid at geodetic latitude 45 degrees. *)
Definition middle : vec := times (1 / sqrt (wgs84_a ^ 2 + wgs84_b ^ 2)) (V (wgs84_a ^ 2) 0 (wgs84_b ^ 2)).
Theorem C189_latitudes_differ :
  not_below middle /\ off_axis middle /\ geodetic_latitude middle (PI / 4) /\ atan (vz middle / sqrt (vx middle ^ 2 + vy middle ^ 2)) < PI / 4 - 0.0033.
Proof.
  set (q := sqrt (wgs84_a ^ 2 + wgs84_b ^ 2)). assert (Q : q * q = wgs84_a ^ 2 + wgs84_b ^ 2) by (apply sqrt_sqrt; unfold wgs84_a, wgs84_b; lra). assert (Q0 : 0 < q) by (apply sqrt_lt_R0; unfold wgs84_a, wgs84_b; lra).
  assert (AA : 0 < wgs84_a) by (unfold wgs84_a; lra). assert (BB : 0 < wgs84_b) by (unfold wgs84_b; lra).
  assert (ON : on_ellipsoid middle).
  { unfold on_ellipsoid, middle, times. cbn [vx vy vz]. fold q. transitivity ((wgs84_a ^ 2 + wgs84_b ^ 2) / (q * q)); [field; lra|rewrite Q; field; nra]. }
  split; [unfold not_below; unfold on_ellipsoid in ON; lra|].
  assert (X : vx middle = wgs84_a ^ 2 / q) by (unfold middle, times; cbn [vx vy vz]; fold q; field; lra). assert (Y : vy middle = 0) by (unfold middle, times; cbn [vx vy vz]; ring). assert (Z : vz middle = wgs84_b ^ 2 / q) by (unfold middle, times; cbn [vx vy vz]; fold q; field; lra).
  assert (X0 : 0 < vx middle) by (rewrite X; apply Rdiv_lt_0_compat; nra).
  split; [left; lra|]. pose proof PI_RGT_0 as P. assert (S2 : 0 < sqrt 2) by (apply sqrt_lt_R0; lra). split.
  - split; [lra|]. exists middle, 0, (sqrt 2 / q). split; [split; [exact ON|]|].
    + unfold plus, times, Rdiv. rewrite Rmult_0_l, !Rmult_0_l, !Rplus_0_r. destruct middle; reflexivity.
    + split; [lra|]. split; [apply Rdiv_lt_0_compat; lra|]. unfold gradient. cbn [vx vy vz]. rewrite X, Y, Z, cos_PI4, sin_PI4. split; [field; lra|].
      replace ((wgs84_a ^ 2 / q / wgs84_a ^ 2) ^ 2 + (0 / wgs84_a ^ 2) ^ 2) with (1 / q * (1 / q)) by (field; lra). rewrite sqrt_square by (apply Rlt_le, Rdiv_lt_0_compat; lra). field. lra.
  - rewrite Y. replace (vx middle ^ 2 + 0 ^ 2) with (vx middle * vx middle) by ring. rewrite sqrt_square by lra. rewrite X, Z. replace (wgs84_b ^ 2 / q / (wgs84_a ^ 2 / q)) with (wgs84_b ^ 2 / wgs84_a ^ 2) by (field; lra).
    assert (T : wgs84_b ^ 2 / wgs84_a ^ 2 <= 0.99331). { apply Rmult_le_reg_r with (wgs84_a ^ 2); [nra|]. unfold Rdiv. rewrite Rmult_assoc, Rinv_l by nra. unfold wgs84_a, wgs84_b. lra. }
    apply Rle_lt_trans with (atan 0.99331). { destruct T as [T|T]; [apply Rlt_le, atan_increasing; exact T|rewrite T; lra]. }
    rewrite <- atan_1. pose proof (atan_gap) as K. lra.
Qed.
(** Two satellites with geodetic latitudes, and one given in the GCRS frame. *)
Example C189_case : accurate_arrays best_arrays /\ accurate_geodesy best_geodesy /\ accurate_arctan2 best_arctan2 /\
  (forall i p, nth_error two_satellites i = Some p -> finite_vec p /\ not_below (place Um p) /\ off_axis (place Um p) /\ clear_of_poles (place Um p) /\ exists latitude, geodetic_latitude (place Um p) latitude) /\
  exists p, dated Flz_Props.a_date2 /\ within_km 6380 99999 Ukm p /\ (forall sat, placed Ukm Flz_Props.a_date2 p sat -> away_from_poles sat) /\
    exists sat latitude, placed Ukm Flz_Props.a_date2 p sat /\ geodetic_latitude sat latitude.
Proof.
  destruct C188_case as (A1 & A2 & A3 & p & D & W & C). split; [exact A1|]. split; [exact A2|]. split; [exact A3|]. split.
  - intros i q E. apply nth_error_In in E. destruct (C185_float_case q E) as (K1 & K2 & K3 & K4). split; [exact K1|]. split; [exact K2|]. split; [exact K3|]. split; [exact K4|]. destruct (one_latitude _ K2) as (la & G & _). eauto.
  - exists p. split; [exact D|]. split; [exact W|]. split; [exact C|]. destruct (placed_exists Ukm Flz_Props.a_date2 p) as (sat & P). destruct (celestial_ok best_arrays _ p Ukm sat A1 D W P (C sat P)) as (_ & _ & _ & _ & K & _). destruct (one_latitude _ K) as (la & G & _). eauto.
Qed.
Print Assumptions C189_one_latitude.
Print Assumptions C189_geodetic_latitude.
Print Assumptions C189_celestial_latitude.
Print Assumptions C189_latitudes_differ.
Print Assumptions C189_case.
