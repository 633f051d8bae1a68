(** Theorems on ground locations, directions and distances: C60, C61, C64, C66, C67, C89, C90. *)
From Coq Require Import List Reals Arith Bool Lia Lra Psatz.
From Verif Require Import Py PyLemmas Num Time_Model Rot_Model Rot_Spec Rot_Proofs Geo_Model Geo_Spec Geo_Alt Geo_Alt2 Geo_Acc Geo_Dir Geo_Props.
Import ListNotations.
Open Scope R_scope.
Open Scope list_scope.

Lemma ecc_val : eccentricity = 0.08181919084296284. Proof. reflexivity. Qed.
Lemma ecc2 : 0.00669437999 < eccentricity ^ 2 < 0.006694379991.
Proof. rewrite ecc_val. lra. Qed.
Global Opaque eccentricity.
Notation e2 := (eccentricity ^ 2).

(** ** C66: what is accepted as a location *)
Definition valid_degrees (latitude longitude : R) : Prop := -90 <= latitude <= 90 /\ -180 <= longitude <= 180.
Definition accepted_location (lat lon height ang len : R) : Prop := exists l, ground_location lat lon height ang len = Ok l.
Lemma location_iff lat lon height ang len :
  (valid_degrees lat lon /\ ground_location lat lon height ang len = Ok (Location lat lon height ang len)) \/
  (~ valid_degrees lat lon /\ ground_location lat lon height ang len = Raise ValueError).
Proof.
  unfold ground_location, valid_degrees. repeat destruct (Rlt_dec _ _); try (right; split; [lra|reflexivity]). left. split; [lra|reflexivity].
Qed.
(** In degrees the check is the stated one ([ang] is the number of degrees per unit). *)
Theorem C66_validation_partial :
  forall lat lon height len,
    (accepted_location lat lon height 1 len <-> valid_degrees (lat * 1) (lon * 1)) /\
    (forall l, ground_location lat lon height 1 len = Ok l -> l = Location lat lon height 1 len) /\
    (forall e, ground_location lat lon height 1 len = Raise e -> e = ValueError).
Proof.
  intros. rewrite !Rmult_1_r. unfold accepted_location. destruct (location_iff lat lon height 1 len) as [(V & ->)|(V & ->)].
  - split; [|split].
    + split; intros _; [exact V|eexists; reflexivity].
    + intros l E; now injection E.
    + discriminate.
  - split; [|split].
    + split; [intros (l & E); discriminate|intros; contradiction].
    + discriminate.
    + intros l E; now injection E.
Qed.
(** In every larger unit a latitude beyond the pole is accepted, in every smaller unit a
    possible latitude is rejected. *)
Theorem C66_validation_refuted :
  forall height ang len,
    (1 < ang -> exists lat lon, ~ valid_degrees (lat * ang) (lon * ang) /\ accepted_location lat lon height ang len) /\
    (0 < ang < 1 -> exists lat lon, valid_degrees (lat * ang) (lon * ang) /\ ground_location lat lon height ang len = Raise ValueError).
Proof.
  intros height ang len. split.
  - intros A1. exists 90, 0. split. { unfold valid_degrees. lra. } destruct (location_iff 90 0 height ang len) as [(V & E)|(V & E)]; [now exists (Location 90 0 height ang len)|].
    exfalso. apply V. unfold valid_degrees. lra.
  - intros A1. exists (90 / ang), 0. replace (90 / ang * ang) with 90 by (field; lra). split. { unfold valid_degrees. lra. }
    destruct (location_iff (90 / ang) 0 height ang len) as [((V & _) & _)|(V & E)]; [|exact E]. exfalso.
    assert (90 < 90 / ang); [|lra]. apply Rmult_lt_reg_r with ang; [lra|]. replace (90 / ang * ang) with 90 by (field; lra). nra.
Qed.
Example C66_case : accepted_location 52.1579 (-106.6702) 0.482 1 1000 /\ ~ valid_degrees (3 * deg_per_rad) 0 /\ accepted_location 3 0 0 deg_per_rad 1000.
Proof.
  split; [|split].
  - destruct (location_iff 52.1579 (-106.6702) 0.482 1 1000) as [(_ & E)|(V & _)]; [eexists; exact E|]. exfalso. apply V. unfold valid_degrees. lra.
  - unfold valid_degrees, deg_per_rad. lra.
  - destruct (location_iff 3 0 0 deg_per_rad 1000) as [(_ & E)|(V & _)]; [eexists; exact E|]. exfalso. apply V. unfold valid_degrees. lra.
Qed.

(** ** C67: radius and coordinates of a location *)
Lemma sc2 x : sin x * sin x + cos x * cos x = 1. Proof. pose proof (sin2_cos2 x) as T. exact T. Qed.
Lemma sin2_bound x : 0 <= sin x ^ 2 <= 1.
Proof. pose proof (sc2 x). pose proof (sq0 (sin x)). pose proof (sq0 (cos x)). split; nra. Qed.
Lemma radius_bounds l : B <= radius l - height_km l <= A.
Proof.
  unfold radius. set (c := cos _). set (s := sin _). pose proof (sc2 (lat_rad l)) as T. fold s c in T. pose proof A_pos. pose proof B_pos. pose proof B_lt_A.
  set (n := (A ^ 2 * c) ^ 2 + (B ^ 2 * s) ^ 2). set (d := (A * c) ^ 2 + (B * s) ^ 2).
  assert (C0 : 0 <= c * c) by apply sq0. assert (S0 : 0 <= s * s) by apply sq0.
  assert (A2 : 0 < B * B < A * A) by (split; nra).
  assert (D : 0 < d). { unfold d. replace ((A * c) ^ 2 + (B * s) ^ 2) with ((A * A) * (c * c) + (B * B) * (s * s)) by ring. nra. }
  assert (NE : n = (A * A) * (A * A) * (c * c) + (B * B) * (B * B) * (s * s)) by (unfold n; ring).
  assert (DE : d = (A * A) * (c * c) + (B * B) * (s * s)) by (unfold d; ring).
  assert (L : B * B <= n / d <= A * A).
  { set (a2 := A * A) in *. set (b2 := B * B) in *. set (x := c * c) in *. set (y := s * s) in *. clearbody n d a2 b2 x y.
    assert (0 <= a2 * x) by nra. assert (0 <= b2 * y) by nra.
    split; apply Rmult_le_reg_r with d; auto; unfold Rdiv; rewrite Rmult_assoc, Rinv_l by lra; rewrite Rmult_1_r, NE, DE; nra. }
  replace (sqrt (n / d) + height_km l - height_km l) with (sqrt (n / d)) by ring. split.
  - rewrite <- (sqrt_square B) by lra. apply sqrt_le_1_alt. lra.
  - rewrite <- (sqrt_square A) by lra. apply sqrt_le_1_alt. lra.
Qed.
Definition Np (phi : R) : R := radius_of_curvature_in_prime_vertical phi.
Lemma Np_root phi : 0 < 1 - e2 * sin phi ^ 2 <= 1.
Proof. pose proof ecc2. pose proof (sin2_bound phi). nra. Qed.
Lemma Np_sq phi : Np phi * Np phi * (1 - e2 * sin phi ^ 2) = A * A.
Proof.
  unfold Np, radius_of_curvature_in_prime_vertical. pose proof (Np_root phi) as R. set (q := 1 - _) in *.
  assert (S : sqrt q * sqrt q = q) by (apply sqrt_sqrt; lra). assert (0 < sqrt q) by (apply sqrt_lt_R0; lra).
  set (r := sqrt q) in *. clearbody r. clearbody q. subst q. field. lra.
Qed.
Lemma Np_bounds phi : A <= Np phi < 6400.
Proof.
  pose proof (Np_sq phi) as S. pose proof A_pos. pose proof A_val as HA. pose proof (Np_root phi) as R. pose proof ecc2 as E. pose proof (sin2_bound phi) as SB.
  assert (P : 0 < Np phi).
  { unfold Np, radius_of_curvature_in_prime_vertical. apply Rdiv_lt_0_compat; auto. apply sqrt_lt_R0. lra. }
  set (q := 1 - _) in *. assert (Q : 0.9933 <= q <= 1) by (unfold q; nra). clearbody q. set (n := Np phi) in *. clearbody n. rewrite HA in *. split; nra.
Qed.
(** Both axes to fifteen digits: the third equation would be exact if the eccentricity given
    in the code were exactly the one of the two axes. *)
Theorem C67_radius_and_coordinates :
  forall l,
    wgs84_b <= radius l - height_km l <= wgs84_a /\
    (height_km l = 0 ->
       let g := itrs_of l in
       (vx g ^ 2 + vy g ^ 2) / wgs84_a ^ 2 + vz g ^ 2 / (wgs84_a ^ 2 * (1 - eccentricity ^ 2)) = 1 /\
       Rabs ((vx g ^ 2 + vy g ^ 2) / wgs84_a ^ 2 + vz g ^ 2 / wgs84_b ^ 2 - 1) <= 1 / 10 ^ 15).
Proof.
  intros l. rewrite wa, wb. split; [apply radius_bounds|]. intros H g. unfold g, itrs_of, itrs_x, itrs_y, itrs_z. cbn [vx vy vz]. rewrite H, !Rplus_0_r.
  fold (Np (lat_rad l)). set (phi := lat_rad l). set (lam := lon_rad l). pose proof (Np_sq phi) as S. set (n := Np phi) in *. clearbody n.
  pose proof (sc2 phi) as T. pose proof (sc2 lam) as T'. set (s := sin phi) in *. set (c := cos phi) in *. set (s' := sin lam) in *. set (c' := cos lam) in *. clearbody s c s' c'.
  pose proof ecc2 as E. pose proof A_pos as HA. pose proof B_pos as HB.
  assert (X : (n * c * c') ^ 2 + (n * c * s') ^ 2 = n * n * (1 - s * s)).
  { transitivity (n * n * (c * c) * (s' * s' + c' * c')); [ring|]. rewrite T'. replace (c * c) with (1 - s * s) by lra. ring. }
  rewrite X.
  assert (Z : (n * (1 - e2) * s) ^ 2 = n * n * (1 - e2) * (1 - e2) * (s * s)) by ring. rewrite Z.
  assert (I1 : n * n * (1 - s * s) / A ^ 2 + n * n * (1 - e2) * (1 - e2) * (s * s) / (A ^ 2 * (1 - e2)) = 1).
  { transitivity (n * n * (1 - e2 * s ^ 2) / (A * A)); [field; split; lra|]. rewrite S. field. lra. }
  split; [exact I1|].
  set (y := n * n * (1 - e2) * (1 - e2) * (s * s)) in *.
  replace (n * n * (1 - s * s) / A ^ 2 + y / B ^ 2 - 1) with (y / B ^ 2 - y / (A ^ 2 * (1 - e2))) by lra.
  assert (Y : 0 <= y <= A ^ 2 * (1 - e2)).
  { assert (Y0 : 0 <= y). { unfold y. apply Rmult_le_pos; [|apply sq0]. apply Rmult_le_pos; [|lra]. apply Rmult_le_pos; [apply sq0|lra]. }
    split; auto. assert (C0 : 0 <= n * n * (1 - s * s) / A ^ 2).
    { apply Rmult_le_pos; [|apply Rlt_le, Rinv_0_lt_compat; nra]. pose proof (sq0 n). pose proof (sq0 c). apply Rmult_le_pos; lra. }
    assert (P : 0 < A ^ 2 * (1 - e2)) by nra. apply Rmult_le_reg_r with (/ (A ^ 2 * (1 - e2))); [now apply Rinv_0_lt_compat|]. rewrite Rinv_r by lra. unfold Rdiv in *. lra. }
  assert (D : 0 <= A ^ 2 * (1 - e2) - B ^ 2 <= 0.00000002). { rewrite A_val, B_val, ecc_val. lra. }
  clearbody y. clear I1 X Z. set (b' := A ^ 2 * (1 - e2)) in *. assert (BB : 40000000 <= B ^ 2) by (rewrite B_val; lra). set (b2 := B ^ 2) in *. clearbody b' b2.
  replace (y / b2 - y / b') with ((y / b') * ((b' - b2) / b2)) by (field; lra).
  assert (Q1 : 0 <= y / b' <= 1).
  { split; [apply Rmult_le_pos; [lra|apply Rlt_le, Rinv_0_lt_compat; lra]|]. apply Rmult_le_reg_r with b'; [lra|]. unfold Rdiv. rewrite Rmult_assoc, Rinv_l by lra. lra. }
  assert (Q2 : 0 <= (b' - b2) / b2 <= 1 / 10 ^ 15).
  { split; [apply Rmult_le_pos; [lra|apply Rlt_le, Rinv_0_lt_compat; lra]|]. apply Rmult_le_reg_r with b2; [lra|]. replace ((b' - b2) / b2 * b2) with (b' - b2) by (field; lra). lra. }
  rewrite Rabs_right by (apply Rle_ge, Rmult_le_pos; lra). nra.
Qed.
(** A location has the coordinates that the conversion from WGS84 gives to its latitude,
    longitude and height. *)
Theorem C67_same_as_conversion :
  forall t l, itrs_of l = point (wgs84_to_itrs [t] [loc_latitude l] [loc_longitude l] [loc_height l] (angular_scale l) (length_scale l)) 0.
Proof. reflexivity. Qed.
Example C67_case : height_km (Location 52.1579 (-106.6702) 0 1 1000) = 0. Proof. unfold height_km, to_km. cbn. lra. Qed.

Print Assumptions C66_validation_partial.
Print Assumptions C66_validation_refuted.
Print Assumptions C67_radius_and_coordinates.
Print Assumptions C67_same_as_conversion.
