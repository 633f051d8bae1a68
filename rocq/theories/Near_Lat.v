(** Geodetic latitudes: there is one, and the geocentric latitude is not far from it. *)
From Coq Require Import List ZArith Reals Lra Lia Psatz.
From Verif Require Import Rot_Model Rot_Spec Geo_Model Geo_Spec Geo_Alt Geo_Alt2 Geo_Acc Geo_Props Geo_Foot Fln_Props Near_Spec2.
Open Scope R_scope.

Lemma steep f : on_ellipsoid f -> 0 < norm (gradient f).
Proof.
  intros E. unfold norm. apply sqrt_lt_R0. unfold dot. destruct (Rle_lt_or_eq_dec 0 (vx (gradient f) * vx (gradient f) + vy (gradient f) * vy (gradient f) + vz (gradient f) * vz (gradient f))) as [H|H]; [nra|exact H|exfalso].
  assert (X : vx (gradient f) = 0) by nra. assert (Y : vy (gradient f) = 0) by nra. assert (Z : vz (gradient f) = 0) by nra. unfold gradient in X, Y, Z. cbn [vx vy vz] in *. unfold on_ellipsoid in E.
  assert (K : forall x a, a <> 0 -> x / a ^ 2 = 0 -> x = 0). { intros x a A0 Q. replace x with (x / a ^ 2 * a ^ 2) by (field; auto). rewrite Q. ring. }
  apply K in X, Y, Z; unfold wgs84_a, wgs84_b; try lra. rewrite X, Y, Z in E. unfold Rdiv in E. rewrite !pow_ne_zero in E by lia. lra.
Qed.
Lemma one_latitude p : not_below p -> exists latitude, geodetic_latitude p latitude /\ forall other, geodetic_latitude p other -> other = latitude.
Proof.
  intros N. destruct (C59_one_height p N) as (f & h & A & H & U). pose proof (steep f (proj1 A)) as G. set (g := norm (gradient f)) in *.
  assert (GG : g ^ 2 = vx (gradient f) ^ 2 + vy (gradient f) ^ 2 + vz (gradient f) ^ 2).
  { unfold g, norm. replace (sqrt (dot (gradient f) (gradient f)) ^ 2) with (sqrt (dot (gradient f) (gradient f)) * sqrt (dot (gradient f) (gradient f))) by ring. rewrite sqrt_sqrt; unfold dot; [ring|nra]. }
  pose proof (pow2_ge_0 (vx (gradient f))) as P1. pose proof (pow2_ge_0 (vy (gradient f))) as P2. pose proof (pow2_ge_0 (vz (gradient f))) as P3.
  assert (B : -1 <= vz (gradient f) / g <= 1).
  { assert (Q : - g <= vz (gradient f) <= g) by nra. split; (apply Rmult_le_reg_r with g; [exact G|]; unfold Rdiv; rewrite Rmult_assoc, Rinv_l by lra; lra). }
  exists (asin (vz (gradient f) / g)). split.
  - split; [apply asin_bound|]. exists f, h, g. split; [exact A|]. split; [exact H|]. split; [exact G|]. rewrite sin_asin by exact B. split; [field; lra|]. rewrite cos_asin by exact B.
    rewrite <- (sqrt_square g) at 1 by lra. rewrite <- sqrt_mult_alt by nra. f_equal. unfold Rsqr. replace (g * g * (1 - vz (gradient f) / g * (vz (gradient f) / g))) with (g ^ 2 - vz (gradient f) ^ 2) by (field; lra). lra.
  - intros o (OB & f' & h' & k & A' & H' & K & S & C). destruct (U f' h' A' H') as (-> & ->).
    assert (KG : k = g). { pose proof (sin2_cos2 o) as T. unfold Rsqr in T. assert (Q : k ^ 2 = g ^ 2). { rewrite GG. rewrite S. assert (C2 : (k * cos o) ^ 2 = vx (gradient f) ^ 2 + vy (gradient f) ^ 2). { rewrite <- C. replace (sqrt (vx (gradient f) ^ 2 + vy (gradient f) ^ 2) ^ 2) with (sqrt (vx (gradient f) ^ 2 + vy (gradient f) ^ 2) * sqrt (vx (gradient f) ^ 2 + vy (gradient f) ^ 2)) by ring. apply sqrt_sqrt. lra. } rewrite <- C2. transitivity (k ^ 2 * (sin o * sin o + cos o * cos o)); [rewrite T; ring|ring]. } nra. }
    rewrite S, KG. replace (g * sin o / g) with (sin o) by (field; lra). symmetry. apply asin_sin. exact OB.
Qed.
(** Along a vertical, the ratio of the tangents of the two latitudes. *)
Lemma latitudes_ratio p latitude : off_axis p -> geodetic_latitude p latitude ->
  exists k, 0.9933 <= k < 1 /\ - (PI / 2) < latitude < PI / 2 /\ vz p / sqrt (vx p ^ 2 + vy p ^ 2) = k * tan latitude.
Proof.
  intros O (B & f & h & k & (E & P) & H & K & S & C). pose proof (steep f E) as G. set (t := h / norm (gradient f)) in *. assert (T : 0 <= t) by (apply Rmult_le_pos; [lra|apply Rlt_le, Rinv_0_lt_compat; lra]). clearbody t.
  assert (PX : vx p = (wgs84_a ^ 2 + t) * vx (gradient f)) by (rewrite P; unfold plus, times, gradient; cbn [vx vy vz]; field; unfold wgs84_a; lra).
  assert (PY : vy p = (wgs84_a ^ 2 + t) * vy (gradient f)) by (rewrite P; unfold plus, times, gradient; cbn [vx vy vz]; field; unfold wgs84_a; lra).
  assert (PZ : vz p = (wgs84_b ^ 2 + t) * vz (gradient f)) by (rewrite P; unfold plus, times, gradient; cbn [vx vy vz]; field; unfold wgs84_b; lra).
  assert (R : sqrt (vx p ^ 2 + vy p ^ 2) = (wgs84_a ^ 2 + t) * (k * cos latitude)).
  { rewrite <- C, PX, PY. assert (W : 0 <= wgs84_a ^ 2 + t) by (unfold wgs84_a; lra). rewrite <- (sqrt_square (wgs84_a ^ 2 + t)) at 3 by exact W. rewrite <- sqrt_mult_alt by nra. f_equal. ring. }
  assert (R0 : 0 < sqrt (vx p ^ 2 + vy p ^ 2)). { apply sqrt_lt_R0. destruct O as [O|O]; [pose proof (pow2_ge_0 (vy p)); assert (0 < vx p ^ 2) by (rewrite <- Rsqr_pow2; apply Rsqr_pos_lt; exact O)|pose proof (pow2_ge_0 (vx p)); assert (0 < vy p ^ 2) by (rewrite <- Rsqr_pow2; apply Rsqr_pos_lt; exact O)]; lra. }
  assert (A0 : 0 < wgs84_a ^ 2 + t) by (unfold wgs84_a; lra).
  assert (C0 : cos latitude <> 0) by (intros Z; rewrite R, Z in R0; lra).
  assert (B' : - (PI / 2) < latitude < PI / 2).
  { destruct B as [[B1|B1] [B2|B2]]; try lra; exfalso; apply C0; [rewrite B2; apply cos_PI2|rewrite <- B1, cos_neg; apply cos_PI2|rewrite <- B1, cos_neg; apply cos_PI2]. }
  exists ((wgs84_b ^ 2 + t) / (wgs84_a ^ 2 + t)). split; [|split; [exact B'|]].
  - split.
    + apply Rmult_le_reg_r with (wgs84_a ^ 2 + t); [exact A0|]. unfold Rdiv. rewrite Rmult_assoc, Rinv_l by lra. unfold wgs84_a, wgs84_b. lra.
    + apply Rmult_lt_reg_r with (wgs84_a ^ 2 + t); [exact A0|]. unfold Rdiv. rewrite Rmult_assoc, Rinv_l by lra. unfold wgs84_a, wgs84_b. lra.
  - rewrite R, PZ, S. unfold tan. field. repeat split; lra.
Qed.
(** Every point on or outside the ellipsoid and not on the axis has a geocentric latitude within 0.0034 radians of the geodetic one. *)
Lemma latitudes_near p latitude : off_axis p -> geodetic_latitude p latitude -> Rabs (atan (vz p / sqrt (vx p ^ 2 + vy p ^ 2)) - latitude) < 0.0034.
Proof. intros O G. destruct (latitudes_ratio p latitude O G) as (k & K & B & ->). apply shrink; auto. Qed.
Lemma nearer_equator p latitude : off_axis p -> geodetic_latitude p latitude ->
  let seen := atan (vz p / sqrt (vx p ^ 2 + vy p ^ 2)) in 0 <= seen <= latitude \/ latitude <= seen <= 0.
Proof.
  intros O G. destruct (latitudes_ratio p latitude O G) as (k & K & B & ->). cbv zeta. assert (AT : atan (tan latitude) = latitude) by (apply atan_tan; auto).
  destruct (Rtotal_order latitude 0) as [N|[Z|P]].
  - right. assert (T : 0 < tan (- latitude)) by (apply tan_gt_0; lra). rewrite tan_neg in T. destruct (Geo_Props7.atan_shrink k (- tan latitude) K T) as (A & _). replace (k * - tan latitude) with (- (k * tan latitude)) in A by ring. rewrite !atan_opp, AT in A. lra.
  - left. rewrite Z, tan_0, Rmult_0_r, atan_0. lra.
  - left. assert (T : 0 < tan latitude) by (apply tan_gt_0; lra). destruct (Geo_Props7.atan_shrink k (tan latitude) K T) as (A & _). rewrite AT in A. lra.
Qed.
