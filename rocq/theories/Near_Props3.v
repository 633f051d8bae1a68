(** Latitudes, longitudes and heights of satellites given in the GCRS frame, in floating point: C188. *)
From Coq Require Import List ZArith Reals Lra Lia Psatz.
From Flocq Require Import Core.Core IEEE754.BinarySingleNaN IEEE754.Binary IEEE754.Bits.
From Verif Require Import Py Num Fl_Model Fl_Spec Fl_Proofs Flg_Model Flg_Spec Rot_Model Rot_Spec Geo_Model Geo_Spec Lvlh_Spec Lvlh_Proofs Flg_Proofs Geo_Alt Geo_Alt2 Geo_Acc Geo_Props Geo_Foot
  Flc_Model Flc_Spec Flr_Model Flr_Spec Flr_Best Flv_Model Fly_Model Fly_Spec Fly_Props Fln_Model Fln_Spec Fln_Props Flz_Model Flz_Spec Flz_Proofs Flz_Proofs2 Near_Spec Near_Props Near_Props2 Near_Turn Flg_Proofs2.
Import ListNotations.
Open Scope R_scope.
#[local] Strategy 1000 [fmul fadd fsub fdiv fneg of_Z].

Definition latitude_of_point (v : vec) : R := atan (vz v / sqrt (vx v ^ 2 + vy v ^ 2)).
Lemma sub_squares u v : norm (sub u v) ^ 2 = (vx u - vx v) ^ 2 + (vy u - vy v) ^ 2 + (vz u - vz v) ^ 2.
Proof. unfold norm. replace (sqrt (dot (sub u v) (sub u v)) ^ 2) with (sqrt (dot (sub u v) (sub u v)) * sqrt (dot (sub u v) (sub u v))) by ring. rewrite sqrt_sqrt; [unfold dot, sub; cbn [vx vy vz]; ring|]. unfold dot. nra. Qed.
Lemma axis_square v : from_axis v ^ 2 = vx v ^ 2 + vy v ^ 2.
Proof. unfold from_axis. replace (sqrt (vx v ^ 2 + vy v ^ 2) ^ 2) with (sqrt (vx v ^ 2 + vy v ^ 2) * sqrt (vx v ^ 2 + vy v ^ 2)) by ring. apply sqrt_sqrt. pose proof (pow2_ge_0 (vx v)). pose proof (pow2_ge_0 (vy v)). lra. Qed.
Lemma norm_axis v : norm v = sqrt (from_axis v ^ 2 + vz v ^ 2).
Proof. unfold norm, dot. f_equal. rewrite axis_square. ring. Qed.
Lemma longitude_moves a q sat : 0 < from_axis q - norm (sub q sat) -> at_longitude a q ->
  exists b, at_longitude b sat /\ Rabs (a - b) <= norm (sub q sat) / (from_axis q - norm (sub q sat)).
Proof.
  intros H (E1 & E2). fold (from_axis q) in E1, E2. set (e := norm (sub q sat)) in *. assert (E0 : 0 <= e) by apply sqrt_pos.
  destruct (turn (from_axis q) a (vx sat) (vy sat) e ltac:(lra)) as (d & D & X & Y).
  { rewrite <- E1, <- E2. unfold e. rewrite sub_squares. pose proof (pow2_ge_0 (vz q - vz sat)). replace ((vx sat - vx q) ^ 2) with ((vx q - vx sat) ^ 2) by ring. replace ((vy sat - vy q) ^ 2) with ((vy q - vy sat) ^ 2) by ring. lra. }
  exists (a + d). split; [split; assumption|]. replace (a - (a + d)) with (- d) by ring. now rewrite Rabs_Ropp.
Qed.
Lemma latitude_moves q sat : 0 < from_axis q -> 0 < from_axis sat -> 0 < norm q - norm (sub q sat) -> norm (sub q sat) / (norm q - norm (sub q sat)) <= 1 ->
  Rabs (latitude_of_point q - latitude_of_point sat) <= norm (sub q sat) / (norm q - norm (sub q sat)).
Proof.
  intros Q0 S0 H ONE. set (e := norm (sub q sat)) in *. assert (E0 : 0 <= e) by apply sqrt_pos. unfold latitude_of_point. fold (from_axis q) (from_axis sat). set (a := atan (vz q / from_axis q)).
  assert (N0 : 0 < norm q) by lra.
  assert (SQ : sqrt (1 + (vz q / from_axis q)²) = norm q / from_axis q).
  { rewrite norm_axis. rewrite <- (sqrt_square (from_axis q)) at 3 by lra. rewrite <- sqrt_div_alt by nra. f_equal. unfold Rsqr. field. lra. }
  assert (C : norm q * cos a = from_axis q) by (unfold a; rewrite cos_atan, SQ; field; split; lra). assert (S : norm q * sin a = vz q) by (unfold a; rewrite sin_atan, SQ; field; split; lra).
  destruct (turn (norm q) a (from_axis sat) (vz sat) e ltac:(lra)) as (d & D & X & Y).
  { rewrite C, S. unfold e. rewrite sub_squares.
    assert (K : (from_axis sat - from_axis q) ^ 2 <= (vx q - vx sat) ^ 2 + (vy q - vy sat) ^ 2).
    { pose proof (axis_square q) as A1. pose proof (axis_square sat) as A2.
      assert (M : vx q * vx sat + vy q * vy sat <= from_axis q * from_axis sat).
      { apply Rle_trans with (Rabs (vx q * vx sat + vy q * vy sat)); [apply Rle_abs|]. apply square_le; [nra|]. rewrite Rpow_mult_distr, A1, A2. pose proof (pow2_ge_0 (vx q * vy sat - vy q * vx sat)) as Z. lra. }
      replace ((from_axis sat - from_axis q) ^ 2) with (from_axis sat ^ 2 + from_axis q ^ 2 - 2 * (from_axis q * from_axis sat)) by ring. rewrite A1, A2. lra. }
    replace ((vz sat - vz q) ^ 2) with ((vz q - vz sat) ^ 2) by ring. lra. }
  assert (B : - (PI / 2) < a < PI / 2) by (unfold a; pose proof (atan_bound (vz q / from_axis q)); lra). pose proof PI2_1 as P1. pose proof (Rle_abs d) as D1. pose proof (Rle_abs (- d)) as D2. rewrite Rabs_Ropp in D2.
  assert (EQ : atan (vz sat / from_axis sat) = a + d).
  { apply (atan_of (sqrt (from_axis sat ^ 2 + vz sat ^ 2))); auto; [apply sqrt_lt_R0; nra|lra]. }
  rewrite EQ. replace (a - (a + d)) with (- d) by ring. now rewrite Rabs_Ropp.
Qed.

(** ** C188: latitude, longitude and height of a satellite given in the GCRS frame *)
(** [sat] is where the exact conversion puts the satellite; the latitude is that of the direction from the centre of the Earth. *)
Theorem C188_celestial_track :
  forall (L : arrays) (J : geodesy) arctan2, accurate_arrays L -> accurate_geodesy J -> accurate_arctan2 arctan2 ->
  forall unit julian points, length julian = length points -> points <> [] -> (Z.of_nat (length points) <= 2 ^ 40)%Z ->
    (forall i jd p, nth_error julian i = Some jd -> nth_error points i = Some p ->
       dated jd /\ within_km 6380 99999 unit p /\ forall sat, placed unit jd p sat -> away_from_poles sat) ->
    (exists result, fitrs_to_wgs84 L J arctan2 unit (fitrs_positions L julian points) result) /\
    forall result, fitrs_to_wgs84 L J arctan2 unit (fitrs_positions L julian points) result ->
      length (fw_latitude result) = length points /\ length (fw_longitude result) = length points /\ length (fw_height result) = length points /\
      forall i jd p sat latitude longitude height, nth_error julian i = Some jd -> nth_error points i = Some p -> placed unit jd p sat ->
        nth_error (fw_latitude result) i = Some latitude -> nth_error (fw_longitude result) i = Some longitude -> nth_error (fw_height result) i = Some height ->
        finite latitude /\ Rabs (value latitude - atan (vz sat / sqrt (vx sat ^ 2 + vy sat ^ 2))) <= 7 / 10 ^ 9 /\
        finite longitude /\ (exists angle, at_longitude angle sat /\ Rabs (value longitude - angle) <= 7 / 10 ^ 9 * (norm sat / sqrt (vx sat ^ 2 + vy sat ^ 2))) /\
        finite height /\ (exists d, distance_to_ellipsoid sat d /\ Rabs (value height - d) < 10.711).
Proof.
  intros L J f HL HJ Hf unit julian points LN NE LE H.
  assert (LI : length (fitrs_positions L julian points) = length points) by (unfold fitrs_positions; rewrite map_length, combine_length; lia).
  assert (NT : forall i q, nth_error (fitrs_positions L julian points) i = Some q -> exists jd p, nth_error julian i = Some jd /\ nth_error points i = Some p /\ q = fgcrs_to_itrs L jd p).
  { clear. unfold fitrs_positions. revert points. induction julian as [|j l IH]; intros [|p points] [|i] q E; cbn [combine map nth_error] in E; try discriminate; [injection E as <-; exists j, p; auto|]. exact (IH points i q E). }
  assert (NT2 : forall i jd p, nth_error julian i = Some jd -> nth_error points i = Some p -> nth_error (fitrs_positions L julian points) i = Some (fgcrs_to_itrs L jd p)).
  { clear. unfold fitrs_positions. revert points. induction julian as [|j l IH]; intros [|p points] [|i] jd q E1 E2; cbn [combine map nth_error] in *; try discriminate; [injection E1 as <-; injection E2 as <-; reflexivity|]. exact (IH points i jd q E1 E2). }
  assert (U : measures unit = Lengths). { destruct points as [|p points]; [congruence|]. destruct julian as [|j julian]; [discriminate|]. destruct (H 0%nat j p eq_refl eq_refl) as (_ & (U & _) & _). exact U. }
  destruct (C158_float_itrs_to_wgs84 L J f HL HJ Hf unit (fitrs_positions L julian points) U) as (EX & AN).
  - intros E. rewrite E in LI. destruct points; [congruence|discriminate].
  - now rewrite LI.
  - intros i q I. destruct (NT i q I) as (jd & p & Ej & Ep & ->). destruct (H i jd p Ej Ep) as (D & W & C). destruct (placed_exists unit jd p) as (sat & P).
    destruct (celestial_ok L jd p unit sat HL D W P (C sat P)) as (K1 & K2 & K3 & K4 & _). split; [exact K1|]. split; [|exact K4]. destruct (foot_exists _ K2) as (ft & ht & A1 & A2). eapply above_outside; eauto.
  - split; [exact EX|]. intros result R. destruct (AN result R) as (L1 & L2 & L3 & (steps & ST) & Q). rewrite LI in L1, L2, L3. split; [exact L1|]. split; [exact L2|]. split; [exact L3|].
    intros i jd p sat la lo he Ej Ep P Ela Elo Ehe. destruct (H i jd p Ej Ep) as (D & W & C).
    destruct (Q i _ la lo (NT2 i jd p Ej Ep) Ela Elo) as (F1 & B1 & F2 & _ & a & A1 & A2).
    destruct (C186_celestial_altitude L J HL HJ unit julian points LN NE LE H) as (st & hs & S1 & _ & S2 & _ & S3). destruct (S2 _ _ ST) as (-> & EH). rewrite EH in Ehe.
    destruct (S3 i jd p sat he Ej Ep P Ehe) as (d & D1 & F3 & D2 & _).
    destruct (placed_near L jd p unit sat 6380 99999 HL D W ltac:(lra) ltac:(lra) P) as (_ & N & M). destruct W as (_ & _ & _ & _ & W). rewrite <- N in W. rewrite <- place_km in M. set (q := place unit (fgcrs_to_itrs L jd p)) in *.
    specialize (C sat P). unfold away_from_poles in C. fold (from_axis sat) in C |- *. pose proof (norm_split sat) as NS.
    pose proof (from_axis_moves q sat) as FA. pose proof (Flg_Proofs.norm_near q sat) as X. apply Flg_Proofs.Rabs_le_inv in X. set (e := norm (sub q sat)) in *. assert (E0 : 0 <= e) by apply sqrt_pos.
    assert (NP : norm sat <= 1000 * from_axis sat) by lra. assert (R0 : 6.38 <= from_axis sat) by lra.
    assert (E2 : e <= 601 / 10 ^ 8 * from_axis sat) by (apply Rle_trans with (1 := M); lra).
    assert (DV : forall x y z, 0 < y -> x <= z * y -> x / y <= z). { intros x y z Y K. apply Rmult_le_reg_r with y; [exact Y|]. unfold Rdiv. rewrite Rmult_assoc, Rinv_l by lra. lra. }
    split; [exact F1|]. split; [|split; [exact F2|split; [|split; [exact F3|exists d; split; assumption]]]].
    + assert (K : e / (norm q - e) <= 602 / 10 ^ 11) by (apply DV; lra).
      pose proof (latitude_moves q sat ltac:(lra) ltac:(lra) ltac:(fold e; lra) ltac:(fold e; lra)) as LM. fold e in LM. unfold latitude_of_point in LM. fold (from_axis q) (from_axis sat) in LM, B1.
      pose proof (Flg_Proofs2.err_trans _ _ _ _ _ B1 LM). lra.
    + destruct (longitude_moves a q sat ltac:(fold e; lra) A1) as (b & B & LM). fold e in LM. exists b. split; [exact B|].
      assert (NR : norm sat <= norm sat / from_axis sat * from_axis sat) by (apply Req_le; field; lra). assert (N1 : 1 <= norm sat / from_axis sat).
      { apply Rmult_le_reg_r with (from_axis sat); [lra|]. unfold Rdiv. rewrite Rmult_assoc, Rinv_l by lra. rewrite norm_axis. rewrite Rmult_1_l, Rmult_1_r. rewrite <- (sqrt_square (from_axis sat)) at 1 by lra. apply sqrt_le_1_alt. pose proof (pow2_ge_0 (vz sat)). lra. }
      set (k := norm sat / from_axis sat) in *. assert (K : e / (from_axis q - e) <= 602 / 10 ^ 11 * k).
      { apply DV; [lra|]. apply Rle_trans with (601 / 10 ^ 11 * (k * from_axis sat)); [apply Rle_trans with (1 := M); apply Rmult_le_compat_l; lra|]. assert (k * (601 * from_axis sat) <= k * (602 * (from_axis q - e))) by (apply Rmult_le_compat_l; lra). lra. }
      pose proof (Flg_Proofs2.err_trans _ _ _ _ _ A2 LM). lra.
Qed.
Example C188_case : accurate_arrays best_arrays /\ accurate_geodesy best_geodesy /\ accurate_arctan2 best_arctan2 /\ exists p, dated Flz_Props.a_date2 /\ within_km 6380 99999 Ukm p /\ forall sat, placed Ukm Flz_Props.a_date2 p sat -> away_from_poles sat.
Proof. destruct C186_case as (A1 & A2 & A3). split; [exact A1|]. split; [exact A2|]. split; [exact best_arctan2_accurate|exact A3]. Qed.
Print Assumptions C188_celestial_track.
Print Assumptions C188_case.
