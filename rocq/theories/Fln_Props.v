(** Theorems on the conversions between WGS84 and ITRS in floating point: C157 to C159. *)
From Coq Require Import List ZArith Reals Lra Lia Psatz.
From Flocq Require Import Core.Core IEEE754.BinarySingleNaN IEEE754.Binary IEEE754.Bits.
From Verif Require Import Py Num Fl_Model Fl_Spec Fl_Proofs Flg_Model Flg_Spec Rot_Model Rot_Spec Time_Proofs Geo_Model Geo_Spec Lvlh_Spec Lvlh_Proofs Flg_Proofs Flg_Num Flg_Proofs2 Flg_Proofs3 Flg_Proofs5 Flg_Proofs6 Flg_Best Flg_Cases Geo_Alt Geo_Alt2 Geo_Dir Geo_Acc Geo_Props Geo_Props2 Geo_Props3 Geo_Props4 Geo_Props7
  Flc_Model Flc_Spec Flr_Model Flr_Spec Flr_Best Flv_Model Fly_Model Fly_Spec Fly_Proofs Fly_Proofs2 Fly_Proofs3 Fly_Proofs4 Fly_Proofs5 Fly_Props Fln_Model Fln_Spec Fln_Proofs Fln_Proofs2 Fln_Proofs3 Fln_Proofs4.
Import ListNotations.
Open Scope R_scope.
#[local] Strategy 1000 [fmul fadd fsub fdiv fneg of_Z].

(** ** C157: from latitude, longitude and height to coordinates *)
Lemma radians_eq angle x : to_rad (size angle) (value x) = radians angle x. Proof. unfold to_rad, radians, Time_Model.deg_per_rad, Rdiv. ring. Qed.
Lemma km_eq length x : to_km (size length) (value x) = km length x. Proof. unfold to_km, km, Rdiv. ring. Qed.
Theorem C157_float_wgs84_to_itrs :
  forall (L : arrays) (J : geodesy), accurate_arrays L -> accurate_geodesy J ->
  forall latitude longitude height angle length, around_earth latitude longitude height angle length ->
    let lat := radians angle latitude in let lon := radians angle longitude in let h := km length height in
    exists p foot, fwgs84_to_itrs L J latitude longitude height angle length = Ok p /\ finite_vec p /\ foot_at lat lon foot /\
      let exact := plus foot (times h (up lat lon)) in let error := (6401 + Rabs h) / 10 ^ 14 + / 10 ^ 11 in
      Rabs (value (fx p) - vx exact) <= error /\ Rabs (value (fy p) - vy exact) <= error /\ Rabs (value (fz p) - vz exact) <= error.
Proof.
  intros L J HL HJ la lo he angle length AE lat lon h. destruct (wgs84_ok L J la lo he angle length HL HJ AE) as (p & E & (F1 & E1 & _) & (F2 & E2 & _) & (F3 & E3 & _)). rewrite !radians_eq, km_eq in E1, E2, E3. fold lat lon h in E1, E2, E3.
  destruct (foot_exact lat lon) as (foot & FA & H). destruct (H h) as (H1 & H2 & H3). exists p, foot. split; [exact E|]. split; [split; auto|]. split; [exact FA|]. intros exact error. fold exact in H1, H2, H3.
  pose proof uu16 as U. pose proof (Rabs_pos h) as HP. set (w := 6401 + Rabs h) in *. assert (W : 6401 <= w) by (unfold w; lra). clearbody w. assert (WU : w * uu <= w * (12 / 100000000000000000)) by (apply Rmult_le_compat_l; lra).
  unfold error. split; [|split].
  - pose proof (err_trans _ _ _ _ _ E1 H1). lra.
  - pose proof (err_trans _ _ _ _ _ E2 H2). lra.
  - pose proof (err_trans _ _ _ _ _ E3 H3). lra.
Qed.

(** ** C158: from coordinates to latitude, longitude and height *)
Theorem C158_float_itrs_to_wgs84 :
  forall (L : arrays) (J : geodesy) arctan2, accurate_arrays L -> accurate_geodesy J -> accurate_arctan2 arctan2 ->
  forall unit positions, measures unit = Lengths -> positions <> [] -> (Z.of_nat (length positions) <= 2 ^ 40)%Z ->
    (forall i p, nth_error positions i = Some p -> finite_vec p /\ outside (place unit p) /\ clear_of_poles (place unit p)) ->
    (exists result, fitrs_to_wgs84 L J arctan2 unit positions result) /\
    forall result, fitrs_to_wgs84 L J arctan2 unit positions result ->
      length (fw_latitude result) = length positions /\ length (fw_longitude result) = length positions /\ length (fw_height result) = length positions /\
      (exists steps, faltitude L J unit positions steps (fw_height result)) /\
      forall i p latitude longitude, nth_error positions i = Some p -> nth_error (fw_latitude result) i = Some latitude -> nth_error (fw_longitude result) i = Some longitude ->
        let v := place unit p in
        finite latitude /\ Rabs (value latitude - atan (vz v / sqrt (vx v ^ 2 + vy v ^ 2))) <= 5 / 10 ^ 15 /\
        finite longitude /\ Rabs (value longitude) <= PI + 1 / 10 ^ 15 /\
        exists angle, at_longitude angle v /\ Rabs (value longitude - angle) <= 2 / 10 ^ 15.
Proof.
  intros L J f HL HJ Hf unit positions U NE LE H. destruct (points_tracked unit positions U H) as (points & K & LP & T).
  destruct (C156_float_altitude_rounding L J HL HJ unit positions U NE LE H) as ((steps & heights & A1 & _) & A2). split.
  - exists (FWgs84 (map (fwgs84_latitude J) points) (map (fwgs84_longitude f) points) heights). exists points. split; [exact K|]. split; [reflexivity|]. split; [reflexivity|]. exists steps. exact A1.
  - intros [lats lons hs] (points' & K' & E1 & E2 & st & ST). cbn [fw_latitude fw_longitude fw_height] in *. rewrite (same_points _ _ _ K _ K') in *. clear points' K'. subst lats lons.
    split; [now rewrite map_length|]. split; [now rewrite map_length|]. split; [now destruct (A2 st hs ST)|]. split; [now exists st|].
    intros i p lat lon E1 E2 E3. exact (lat_lon J f unit positions points HJ Hf T LP i p lat lon E1 E2 E3).
Qed.

(** ** C159: there and back *)
Lemma placed L J angle length q : accurate_arrays L -> accurate_geodesy J -> ordinary_place angle length q ->
  let lat := radians angle (latitude_of q) in let lon := radians angle (longitude_of q) in let h := km length (height_of q) in
  exists p, fwgs84_to_itrs L J (latitude_of q) (longitude_of q) (height_of q) angle length = Ok p /\ finite_vec p /\ outside (place Ukm p) /\ clear_of_poles (place Ukm p) /\
    - (PI / 2) < lat < PI / 2 /\
    Rabs (atan (vz (place Ukm p) / sqrt (vx (place Ukm p) ^ 2 + vy (place Ukm p) ^ 2)) - atan (ratio lat h * tan lat)) <= 2 / 10 ^ 11 /\
    forall th, at_longitude th (place Ukm p) -> exists a, cos a = cos lon /\ sin a = sin lon /\ Rabs (th - a) <= 1 / 10 ^ 11.
Proof.
  intros HL HJ (AE & LA & HH) lat lon h. destruct (wgs84_ok L J _ _ _ angle length HL HJ AE) as (p & E & (F1 & E1 & _) & (F2 & E2 & _) & (F3 & E3 & _)). destruct (lat_size _ _ LA) as (LR & LC). rewrite (radians_eq angle (latitude_of q)) in E1, E2, E3, LR, LC. rewrite (radians_eq angle (longitude_of q)) in E1, E2, E3. rewrite km_eq in E1, E2, E3. fold lat lon h in E1, E2, E3, LR, LC.
  exists p. split; [exact E|]. split; [split; auto|]. assert (PL : place Ukm p = vector p) by (unfold place, times, vector; cbn [size vx vy vz]; f_equal; field). rewrite PL.
  pose proof uu16 as U. fold h in HH. rewrite (Rabs_pos_eq h) in * by lra. pose proof (Np_bounds lat) as NB. pose proof A_val as VA.
  assert (D : 59 * (6401 + h) * uu <= DD * ((Np lat + h) * cos lat)).
  { apply Rle_trans with (59 * (6401 + h) * (12 / 100000000000000000)); [apply Rmult_le_compat_l; lra|]. assert ((6378 + h) * 0.0017 <= (Np lat + h) * cos lat) by (apply Rmult_le_compat; lra). unfold DD. lra. }
  assert (D' : 40 * (6401 + h) * uu <= 59 * (6401 + h) * uu) by (apply Rmult_le_compat_r; lra).
  destruct (near_wgs84 lat lon h (vector p) LR LC HH (Rle_trans _ _ _ E1 D) (Rle_trans _ _ _ E2 D) (Rle_trans _ _ _ E3 (Rle_trans _ _ _ D' D))) as (N1 & N2 & N3 & N4). split; [exact N1|]. split; [exact N2|]. split; [exact LR|]. split; [exact N3|exact N4].
Qed.
Lemma all_placed L J angle length places : accurate_arrays L -> accurate_geodesy J -> (forall i q, nth_error places i = Some q -> ordinary_place angle length q) ->
  exists positions, Forall2 (fun q p => fwgs84_to_itrs L J (latitude_of q) (longitude_of q) (height_of q) angle length = Ok p) places positions.
Proof.
  intros HL HJ. induction places as [|q l IH]; intros H; [exists []; constructor|]. destruct IH as (ps & F); [intros i r E; exact (H (S i) r E)|].
  destruct (placed L J angle length q HL HJ (H 0%nat q eq_refl)) as (p & E & _). exists (p :: ps). constructor; auto.
Qed.
Lemma forall2_nth_l {X Y} (R1 : X -> Y -> Prop) l k i x : Forall2 R1 l k -> nth_error l i = Some x -> exists y, nth_error k i = Some y /\ R1 x y.
Proof. intros F. revert i. induction F as [|a b l k H F IH]; intros [|i] E; cbn [nth_error] in *; try discriminate; [injection E as <-; eauto|auto]. Qed.
Lemma forall2_len {X Y} (R1 : X -> Y -> Prop) l k : Forall2 R1 l k -> length l = length k.
Proof. intros F. induction F; cbn; congruence. Qed.
Lemma nth_some {X} (l : list X) i n : length l = n -> (i < n)%nat -> exists x, nth_error l i = Some x.
Proof. intros <- I. destruct (nth_error l i) eqn:E; [eauto|]. apply nth_error_None in E. lia. Qed.
Lemma shrink k lat : 0.9933 <= k < 1 -> - (PI / 2) < lat < PI / 2 -> Rabs (atan (k * tan lat) - lat) < 0.0034.
Proof.
  intros KB PB. assert (AT : atan (tan lat) = lat) by (apply atan_tan; auto). destruct (Rtotal_order lat 0) as [N|[Z|P]].
  - assert (TN : 0 < - tan lat) by (assert (tan lat < 0) by (apply tan_lt_0; lra); lra).
    destruct (atan_shrink k (- tan lat) KB TN) as ((A1 & A2) & A3). replace (k * - tan lat) with (- (k * tan lat)) in * by ring. rewrite !atan_opp, AT in *. rewrite Rabs_right; lra.
  - rewrite Z, tan_0, Rmult_0_r, atan_0, Rminus_0_r, Rabs_R0. lra.
  - assert (TN : 0 < tan lat) by (apply tan_gt_0; lra). destruct (atan_shrink k (tan lat) KB TN) as ((A1 & A2) & A3). rewrite AT in *. rewrite Rabs_left; lra.
Qed.
Section Trip.
Variables (L : arrays) (J : geodesy) (arctan2 : float -> float -> float) (angle length : unit_name) (places : list geodetic) (positions : list fvec) (result : fwgs84).
Hypotheses (HL : accurate_arrays L) (HJ : accurate_geodesy J) (Hf : accurate_arctan2 arctan2).
Hypotheses (NE : places <> []) (LE : (Z.of_nat (List.length places) <= 2 ^ 40)%Z) (HP : forall i q, nth_error places i = Some q -> ordinary_place angle length q).
Hypothesis There : Forall2 (fun q p => fwgs84_to_itrs L J (latitude_of q) (longitude_of q) (height_of q) angle length = Ok p) places positions.
Lemma there_nth i p : nth_error positions i = Some p -> exists q, nth_error places i = Some q /\ ordinary_place angle length q /\
  fwgs84_to_itrs L J (latitude_of q) (longitude_of q) (height_of q) angle length = Ok p.
Proof. intros E. destruct (forall2_nth _ _ _ _ _ There E) as (q & E1 & E2). exists q. eauto. Qed.
Lemma there_good : forall i p, nth_error positions i = Some p -> finite_vec p /\ outside (place Ukm p) /\ clear_of_poles (place Ukm p).
Proof.
  intros i p E. destruct (there_nth i p E) as (q & E1 & O & E2). destruct (placed L J angle length q HL HJ O) as (p' & E3 & F & O1 & O2 & _). rewrite E2 in E3. injection E3 as <-. auto.
Qed.
Lemma there_ne : positions <> []. Proof. intros ->. inversion There. subst. contradiction. Qed.
Lemma there_len : (Z.of_nat (List.length positions) <= 2 ^ 40)%Z. Proof. now rewrite <- (forall2_len _ _ _ There). Qed.
Lemma back : fitrs_to_wgs84 L J arctan2 Ukm positions result -> forall i q, nth_error places i = Some q ->
  let lat := radians angle (latitude_of q) in let lon := radians angle (longitude_of q) in let h := km length (height_of q) in
  exists x y z, nth_error (fw_latitude result) i = Some x /\ nth_error (fw_longitude result) i = Some y /\ nth_error (fw_height result) i = Some z /\
    finite x /\ finite y /\ finite z /\ - (PI / 2) < lat < PI / 2 /\ 0 <= h /\ Rabs (value x - atan (ratio lat h * tan lat)) <= 3 / 10 ^ 11 /\
    exists a, cos a = cos lon /\ sin a = sin lon /\ Rabs (value y - a) <= 2 / 10 ^ 11.
Proof.
  intros W i q EQ lat lon h. destruct (forall2_nth_l _ _ _ _ _ There EQ) as (p & EP & E1). destruct (placed L J angle length q HL HJ (HP i q EQ)) as (p' & E3 & F & O1 & O2 & LR & P1 & P2). rewrite E1 in E3. injection E3 as <-. fold lat lon h in LR, P1, P2.
  destruct (C158_float_itrs_to_wgs84 L J arctan2 HL HJ Hf Ukm positions eq_refl there_ne there_len there_good) as (_ & G). destruct (G result W) as (L1 & L2 & L3 & (steps & ST) & G2). assert (I : (i < List.length positions)%nat) by (apply nth_error_Some; congruence).
  destruct (nth_some _ _ _ L1 I) as (x & X). destruct (nth_some _ _ _ L2 I) as (y & Y). destruct (nth_some _ _ _ L3 I) as (z & Z). destruct (G2 i p x y EP X Y) as (F1 & G3 & F2 & _ & th & T1 & T2).
  destruct (C156_float_altitude_rounding L J HL HJ Ukm positions eq_refl there_ne there_len there_good) as (_ & A2). destruct (A2 steps _ ST) as (_ & A3). destruct (A3 i p z EP Z) as (F3 & _). destruct (P2 th T1) as (a & C1 & C2 & C3).
  destruct (HP i q EQ) as (_ & _ & HH). fold h in HH. exists x, y, z. do 6 (split; [assumption|]). split; [exact LR|]. split; [lra|]. split.
  - pose proof (err_trans _ _ _ _ _ G3 P1). lra.
  - exists a. split; [exact C1|]. split; [exact C2|]. pose proof (err_trans _ _ _ _ _ T2 C3). lra.
Qed.
End Trip.
(** Full claim: the latitude, longitude and height come back, up to rounding.  The longitude does (as
    an angle: 180 degrees may come back as -180); the latitude comes back within 0.0035 radians (0.2
    degrees) only. *)
Theorem C159_float_round_trip_partial :
  forall (L : arrays) (J : geodesy) arctan2, accurate_arrays L -> accurate_geodesy J -> accurate_arctan2 arctan2 ->
  forall angle length places, places <> [] -> (Z.of_nat (List.length places) <= 2 ^ 40)%Z ->
    (forall i q, nth_error places i = Some q -> ordinary_place angle length q) ->
    exists positions, Forall2 (fun q p => fwgs84_to_itrs L J (latitude_of q) (longitude_of q) (height_of q) angle length = Ok p) places positions /\
    (exists result, fitrs_to_wgs84 L J arctan2 Ukm positions result) /\
    forall result, fitrs_to_wgs84 L J arctan2 Ukm positions result ->
    forall i q, nth_error places i = Some q ->
      exists x y z, nth_error (fw_latitude result) i = Some x /\ nth_error (fw_longitude result) i = Some y /\ nth_error (fw_height result) i = Some z /\
        finite x /\ finite y /\ finite z /\ Rabs (value x - radians angle (latitude_of q)) <= 0.0035 /\
        exists a, cos a = cos (radians angle (longitude_of q)) /\ sin a = sin (radians angle (longitude_of q)) /\ Rabs (value y - a) <= 2 / 10 ^ 11.
Proof.
  intros L J f HL HJ Hf angle length places NE LE HP. destruct (all_placed L J angle length places HL HJ HP) as (positions & There). exists positions. split; [exact There|]. split.
  - apply C158_float_itrs_to_wgs84; auto; [eapply there_ne; eauto|eapply there_len; eauto|eapply there_good; eauto].
  - intros result W i q EQ. destruct (back L J f angle length places positions result HL HJ Hf NE LE HP There W i q EQ) as (x & y & z & X & Y & Z & F1 & F2 & F3 & LR & H0 & G & a & C). exists x, y, z. do 6 (split; [assumption|]). split; [|exists a; exact C].
    assert (KB : 0.9933 <= ratio (radians angle (latitude_of q)) (km length (height_of q)) < 1) by (apply ratio_bounds; auto). pose proof (shrink _ _ KB LR) as SH. apply Rlt_le in SH. pose proof (err_trans _ _ _ _ _ G SH). lra.
Qed.
Lemma double_sin x : 0.69 <= x <= 0.88 -> 0.49 <= sin x * cos x.
Proof.
  intros X. assert (E : sin x * cos x = cos (PI / 2 - 2 * x) / 2) by (rewrite cos_shift, sin_2a; field). rewrite E. set (y := PI / 2 - 2 * x). pose proof PI_near. assert (Y : -0.2 <= y <= 0.2) by (unfold y; lra). clearbody y.
  assert (C : 1 - y ^ 2 / 2 <= cos y). { replace y with (2 * (y / 2)) at 2 by field. rewrite cos_2a_sin. assert (S : Rabs (sin (y / 2)) <= Rabs (y / 2)). { pose proof (sin_lip (y / 2) 0) as SL. rewrite sin_0, !Rminus_0_r in SL. exact SL. }
    assert (sin (y / 2) ^ 2 <= (y / 2) ^ 2) by (rewrite <- (pow2_abs (sin _)), <- (pow2_abs (y / 2)); apply pow_incr; split; [apply Rabs_pos|exact S]). replace ((y / 2) ^ 2) with (y ^ 2 / 4) in * by field. lra. }
  assert (y ^ 2 <= 0.04) by nra. lra.
Qed.
(** Between 40 and 50 degrees north and up to 10 km high, the latitude comes back more than 0.003
    radians (0.17 degrees, 19 km) too far south. *)
Theorem C159_float_round_trip_refuted :
  forall (L : arrays) (J : geodesy) arctan2, accurate_arrays L -> accurate_geodesy J -> accurate_arctan2 arctan2 ->
  forall angle length places positions result, places <> [] -> (Z.of_nat (List.length places) <= 2 ^ 40)%Z ->
    (forall i q, nth_error places i = Some q -> ordinary_place angle length q) ->
    Forall2 (fun q p => fwgs84_to_itrs L J (latitude_of q) (longitude_of q) (height_of q) angle length = Ok p) places positions ->
    fitrs_to_wgs84 L J arctan2 Ukm positions result ->
    forall i q, nth_error places i = Some q -> 40 <= value (latitude_of q) * size angle <= 50 -> km length (height_of q) <= 10 ->
      exists x, nth_error (fw_latitude result) i = Some x /\ value x < radians angle (latitude_of q) - 0.003.
Proof.
  intros L J f HL HJ Hf angle length places positions result NE LE HP There W i q EQ B1 B2. destruct (back L J f angle length places positions result HL HJ Hf NE LE HP There W i q EQ) as (x & y & z & X & _ & _ & _ & _ & _ & LR & H0 & G & _).
  exists x. split; [exact X|]. set (lat := radians angle (latitude_of q)) in *. set (h := km length (height_of q)) in *. assert (LB : 0.69 <= lat <= 0.88) by (unfold lat, radians; lra). pose proof (double_sin lat LB) as DS. clearbody lat h.
  assert (C0 : 0 < cos lat) by (apply cos_gt_0; lra). assert (S0 : 0 < sin lat) by (apply sin_gt_0; pose proof PI_near; lra). assert (T0 : 0 < tan lat) by (apply tan_gt_0; lra). assert (AT : atan (tan lat) = lat) by (apply atan_tan; auto).
  assert (KB : 0.9933 <= ratio lat h < 1) by (apply ratio_bounds; auto). assert (K1 : ratio lat h <= 1 - 0.00668). { unfold ratio. pose proof (Np_bounds lat) as NB. pose proof A_val as VA. pose proof ecc2 as E2. apply Rmult_le_reg_r with (Np lat + h); [lra|]. unfold Rdiv. rewrite Rmult_assoc, Rinv_l, Rmult_1_r by lra. nra. }
  set (k := ratio lat h) in *. clearbody k. assert (KT : k * tan lat < tan lat) by nra. destruct (MVT_cor2 atan (fun x => / (1 + x ^ 2)) (k * tan lat) (tan lat) KT) as (c & M & C). { intros. apply derivable_pt_lim_atan. } rewrite AT in M.
  assert (P : 0 < 1 + c ^ 2) by nra. assert (D : / (1 + tan lat ^ 2) <= / (1 + c ^ 2)). { apply Rinv_le_contravar; auto. assert (0 < k * tan lat) by (apply Rmult_lt_0_compat; lra). assert (c ^ 2 <= tan lat ^ 2) by (apply pow_incr; lra). lra. }
  assert (TS : / (1 + tan lat ^ 2) * tan lat = sin lat * cos lat). { pose proof (sc2 lat) as T. unfold tan. replace (1 + (sin lat / cos lat) ^ 2) with ((sin lat * sin lat + cos lat * cos lat) / (cos lat * cos lat)) by (field; lra). rewrite T. field. lra. }
  assert (/ (1 + tan lat ^ 2) * (tan lat - k * tan lat) <= / (1 + c ^ 2) * (tan lat - k * tan lat)) by (apply Rmult_le_compat_r; lra). replace (/ (1 + tan lat ^ 2) * (tan lat - k * tan lat)) with ((1 - k) * (sin lat * cos lat)) in * by (rewrite <- TS; ring).
  assert (0.00668 * 0.49 <= (1 - k) * (sin lat * cos lat)) by (apply Rmult_le_compat; lra). apply Rabs_le_inv in G. lra.
Qed.

(** ** Cases *)
Definition best_angle (y x : R) : R := if Rle_dec 0 y then acos (x / sqrt (x ^ 2 + y ^ 2)) else - acos (x / sqrt (x ^ 2 + y ^ 2)).
Definition best_arctan2 (y x : float) : float := to_float (best_angle (value y) (value x)).
Lemma square_pos x : x <> 0 -> 0 < x ^ 2. Proof. intros X. pose proof (Rsqr_pos_lt x X). unfold Rsqr in *. lra. Qed.
Lemma best_arctan2_accurate : accurate_arctan2 best_arctan2.
Proof.
  intros y x F1 F2 (B & _). set (vx0 := value x) in *. set (vy0 := value y) in *. assert (R0 : 0 < vx0 ^ 2 + vy0 ^ 2).
  { assert (0 < / 2 ^ 100) by (apply Rinv_0_lt_compat, pow_lt; lra). assert (0 < Rabs vx0 + Rabs vy0) by lra. pose proof (pow2_ge_0 vx0). pose proof (pow2_ge_0 vy0). destruct (Req_dec vx0 0) as [X|X]; [|pose proof (square_pos vx0 X); lra]. destruct (Req_dec vy0 0) as [Y|Y]; [|pose proof (square_pos vy0 Y); lra]. rewrite X, Y, Rabs_R0 in *. lra. }
  set (r := sqrt (vx0 ^ 2 + vy0 ^ 2)). assert (RP : 0 < r) by (apply sqrt_lt_R0; auto). assert (R2 : r * r = vx0 ^ 2 + vy0 ^ 2) by (apply sqrt_sqrt; lra).
  assert (Q : -1 <= vx0 / r <= 1). { assert (- r <= vx0 <= r) by nra. assert (E : vx0 = vx0 / r * r) by (field; lra). set (q := vx0 / r) in *. clearbody q. nra. }
  pose proof (acos_bound (vx0 / r)) as AB. pose proof PI_near as PN. assert (CA : cos (acos (vx0 / r)) = vx0 / r) by (apply cos_acos; auto). assert (SA : sin (acos (vx0 / r)) = Rabs vy0 / r).
  { rewrite sin_acos by auto. rewrite <- (sqrt_Rsqr (Rabs vy0 / r)) by (apply Rmult_le_pos; [apply Rabs_pos|apply Rlt_le, Rinv_0_lt_compat; auto]). f_equal. unfold Rsqr. replace (Rabs vy0 / r * (Rabs vy0 / r)) with (Rabs vy0 ^ 2 / (r * r)) by (field; lra). rewrite pow2_abs, R2. replace (1 - vx0 / r * (vx0 / r)) with (1 - vx0 ^ 2 / (r * r)) by (field; lra). rewrite R2. field. lra. }
  assert (A : - PI <= best_angle vy0 vx0 <= PI) by (unfold best_angle; fold r; destruct (Rle_dec 0 vy0); lra).
  destruct (to_float_ok (best_angle vy0 vx0)) as (G1 & G2); [apply small_abs, Rabs_le; lra|]. split; [exact G1|]. exists (best_angle vy0 vx0). split; [exact A|]. split.
  - unfold best_arctan2. fold vx0 vy0. change (nearest ?a) with (rnd a) in G2. rewrite G2. eapply Rle_trans; [apply (rnd_1err _ 4); [apply Rabs_le; lra|lra]|]. rewrite uu_value. lra.
  - unfold at_longitude. cbn [vx vy]. fold r. unfold best_angle. fold r. destruct (Rle_dec 0 vy0) as [Y|Y].
    + rewrite CA, SA, Rabs_pos_eq by auto. split; field; lra.
    + rewrite cos_neg, sin_neg, CA, SA, Rabs_left by lra. split; field; lra.
Qed.
(** Saskatoon, and a place on the equator at the date line, 500 km high; degrees and metres. *)
Definition two_places : list geodetic := [Geodetic (of_Z 52) (of_Z (-106)) (of_Z 482); Geodetic (of_Z 0) (of_Z 180) (of_Z 500000)].
Example C157_case : around_earth (of_Z 52) (of_Z (-106)) (of_Z 482) Udeg Um /\ ordinary_place Udeg Um (Geodetic (of_Z 45) (of_Z 0) (of_Z 482)).
Proof.
  destruct (of_Z_ok 52 ltac:(lia)) as (_ & V1). destruct (of_Z_ok (-106) ltac:(lia)) as (_ & V2). destruct (of_Z_ok 482 ltac:(lia)) as (_ & V3). destruct (of_Z_ok 0 ltac:(lia)) as (_ & V4). destruct (of_Z_ok 45 ltac:(lia)) as (_ & V5).
  split; [|split; [|split]]; unfold around_earth, km; cbn [latitude_of longitude_of height_of size measures]; rewrite ?V1, ?V2, ?V3, ?V4, ?V5; try (repeat split; try (apply moderate_Z; lia); try (apply Rabs_le; lra)); try (apply Rabs_le; lra); lra.
Qed.
Example C158_case : accurate_arctan2 best_arctan2 /\ forall i p, nth_error two_satellites i = Some p -> finite_vec p /\ outside (place Um p) /\ clear_of_poles (place Um p).
Proof.
  split; [exact best_arctan2_accurate|]. destruct C155_case as (_ & _ & _ & _ & foot & height & H). intros i p E. destruct (H i p E) as (F & A1 & A2 & A3 & C). split; [exact F|]. split; [|exact C]. eapply above_outside; eauto.
Qed.
Example C159_case : two_places <> [] /\ forall i q, nth_error two_places i = Some q -> ordinary_place Udeg Um q.
Proof.
  split; [discriminate|]. destruct (of_Z_ok 52 ltac:(lia)) as (_ & V1). destruct (of_Z_ok (-106) ltac:(lia)) as (_ & V2). destruct (of_Z_ok 482 ltac:(lia)) as (_ & V3). destruct (of_Z_ok 0 ltac:(lia)) as (_ & V4). destruct (of_Z_ok 180 ltac:(lia)) as (_ & V5). destruct (of_Z_ok 500000 ltac:(lia)) as (_ & V6).
  intros [|[|i]] q E; cbn [nth_error two_places] in E; [| |destruct i; discriminate]; injection E as <-;
    (split; [|split]); unfold around_earth, km; cbn [latitude_of longitude_of height_of size measures]; rewrite ?V1, ?V2, ?V3, ?V4, ?V5, ?V6; try (repeat split; try (apply moderate_Z; lia); try (apply Rabs_le; lra)); try (apply Rabs_le; lra); lra.
Qed.

Print Assumptions C157_float_wgs84_to_itrs.
Print Assumptions C158_float_itrs_to_wgs84.
Print Assumptions C159_float_round_trip_partial.
Print Assumptions C159_float_round_trip_refuted.
Print Assumptions C159_case.
