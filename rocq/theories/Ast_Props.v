(** C165-C170: the astronomical quantities against the formulas they are documented to compute. *)
From Coq Require Import List Reals Lra Lia Psatz.
From Flocq Require Import Core.Core.
From Verif Require Import Py Time_Model Time_Spec Time_Proofs Time_Props Flc_Spec Ast_Spec Flg_Num Ast_Proofs.
Import ListNotations.
Open Scope R_scope.

(** ** C165: obliquity *)
Lemma laskar jd : mean_obliquity jd = laskar_obliquity (T_of jd / 100).
Proof. unfold mean_obliquity, laskar_obliquity, dms. change (centuries jd) with (T_of jd). cbv zeta. cbn [poly]. set (u := T_of jd / 100). clearbody u. decimals. field. Qed.
Lemma laskar_range U : -1 <= U <= 1 -> 22.5 < laskar_obliquity U < 24.4.
Proof.
  intros B. unfold laskar_obliquity, dms. cbn [poly].
  set (s := _ + U * (-4680.93 + _)). 
  assert (P : forall k x, 0 <= k -> -1 <= x <= 1 -> -1 <= U * x <= 1) by (intros; nra).
  assert (S : s = -4680.93 * U + 1999.25 * (U * U * U) + U * U * (-1.55 + U * U * (-51.38 + U * (-249.67 + U * (-39.05 + U * (7.12 + U * (27.87 + U * (5.79 + U * 2.45)))))))) by (unfold s; ring).
  rewrite S. clear S s P.
  assert (K : forall a b m, - m <= b <= m -> a - m <= a + U * b <= a + m) by (intros; nra).
  pose proof (K 5.79 2.45 2.45 ltac:(lra)) as K1. set (k1 := 5.79 + U * 2.45) in *. clearbody k1.
  pose proof (K 27.87 k1 8.24 ltac:(lra)) as K2. set (k2 := 27.87 + U * k1) in *. clearbody k2.
  pose proof (K 7.12 k2 36.11 ltac:(lra)) as K3. set (k3 := 7.12 + U * k2) in *. clearbody k3.
  pose proof (K (-39.05) k3 43.23 ltac:(lra)) as K4. set (k4 := -39.05 + U * k3) in *. clearbody k4.
  pose proof (K (-249.67) k4 82.28 ltac:(lra)) as K5. set (k5 := -249.67 + U * k4) in *. clearbody k5.
  pose proof (K (-51.38) k5 331.95 ltac:(lra)) as K6. set (k6 := -51.38 + U * k5) in *. clearbody k6.
  assert (Q : 0 <= U * U <= 1) by nra.
  assert (R1 : -384.88 <= U * U * (-1.55 + U * U * k6) <= 384.88).
  { assert (-383.33 <= U * U * k6 <= 383.33) by (set (w := U * U) in *; clearbody w; nra). set (v := U * U * k6) in *. clearbody v. set (w := U * U) in *. clearbody w. nra. }
  set (rest := U * U * (-1.55 + U * U * k6)) in *. clearbody rest.
  assert (C : -2800 <= -4680.93 * U + 1999.25 * (U * U * U) <= 2800).
  { split.
    - assert (H : 0 <= (U + 1.7668) * ((U - 0.8834) * (U - 0.8834))) by (apply Rmult_le_pos; [lra|apply Rle_0_sqr]).
      ring_simplify in H. replace (U ^ 3) with (U * U * U) in H by ring. set (w := U * U * U) in *. clearbody w. lra.
    - assert (H : 0 <= (1.7668 - U) * ((U + 0.8834) * (U + 0.8834))) by (apply Rmult_le_pos; [lra|apply Rle_0_sqr]).
      ring_simplify in H. replace (U ^ 3) with (U * U * U) in H by ring. set (w := U * U * U) in *. clearbody w. lra. }
  lra.
Qed.
Theorem C165_mean_obliquity :
  forall jd, let T := T_of jd in
    mean_obliquity jd = laskar_obliquity (T / 100) /\ (-100 <= T <= 100 -> 22.5 < mean_obliquity jd < 24.4).
Proof. intros jd T. split; [apply laskar|]. intros B. rewrite laskar. apply laskar_range. fold T. lra. Qed.
Theorem C165_apparent_obliquity :
  forall jd, apparent_obliquity jd = mean_obliquity jd + dms 0 0 (snd (nutation_components jd)) /\
    Rabs (apparent_obliquity jd - mean_obliquity jd) < dms 0 0 10.
Proof.
  intros jd. destruct (C54_nutation_bounded jd) as (_ & B). unfold apparent_obliquity, arcsec_to_deg, dms. set (n := snd _) in *. clearbody n.
  split; [field|]. apply Rabs_def1; lra.
Qed.

(** ** C166: nutation *)
Lemma ratio_near x : Rabs (deg_to_rad x - in_radians x) <= 1 / 10 ^ 18 * Rabs x.
Proof.
  unfold deg_to_rad, in_radians, deg_per_rad. pose proof PI_near as P.
  replace (x * (1 / 57.29577951308232) - x * PI / 180) with ((1 / 57.29577951308232 - PI / 180) * x) by (unfold Rdiv; ring).
  rewrite Rabs_mult. apply Rmult_le_compat_r; [apply Rabs_pos|]. apply Rabs_le. lra.
Qed.
Lemma radians_near x y d : Rabs (x - y) <= d -> Rabs (in_radians x - in_radians y) <= 0.0175 * d.
Proof.
  intros D. unfold in_radians. pose proof PI_near as P. replace (x * PI / 180 - y * PI / 180) with (PI / 180 * (x - y)) by (unfold Rdiv; ring).
  rewrite Rabs_mult. apply Rmult_le_compat; auto using Rabs_pos. apply Rabs_le. lra.
Qed.
Section Trig.
Variables x y d : R.
Hypothesis D : Rabs (x - y) <= d.
(** An argument that is not reduced *)
Lemma direct_near n : (0 <= n)%Z -> Rabs x <= 10 ^ 8 ->
  Rabs (sin (IZR n * deg_to_rad x) - sin (IZR n * in_radians y)) <= IZR n * (0.0175 * d + 1 / 10 ^ 10) /\
  Rabs (cos (IZR n * deg_to_rad x) - cos (IZR n * in_radians y)) <= IZR n * (0.0175 * d + 1 / 10 ^ 10).
Proof.
  intros N X. apply IZR_le in N. pose proof (ratio_near x) as A. pose proof (radians_near x y d D) as B.
  assert (C : Rabs (IZR n * deg_to_rad x - IZR n * in_radians y) <= IZR n * (0.0175 * d + 1 / 10 ^ 10)).
  { replace (IZR n * deg_to_rad x - IZR n * in_radians y) with (IZR n * ((deg_to_rad x - in_radians x) + (in_radians x - in_radians y))) by ring.
    rewrite Rabs_mult, (Rabs_pos_eq (IZR n)) by exact N. apply Rmult_le_compat_l; [exact N|]. eapply Rle_trans; [apply Rabs_triang|]. lra. }
  split; eapply Rle_trans; [apply sin_lip|exact C|apply cos_lip|exact C].
Qed.
(** An argument reduced to [0, 360) *)
Lemma reduced_near n : (0 <= n)%Z ->
  Rabs (sin (IZR n * deg_to_rad (Rmod x 360)) - sin (IZR n * in_radians y)) <= IZR n * (0.0175 * d + 1 / 10 ^ 10) /\
  Rabs (cos (IZR n * deg_to_rad (Rmod x 360)) - cos (IZR n * in_radians y)) <= IZR n * (0.0175 * d + 1 / 10 ^ 10).
Proof.
  intros N. apply IZR_le in N. destruct (Rmod_congruent x 360) as (k & K). pose proof (Rmod_range x 360 ltac:(lra)) as Rg. set (r := Rmod x 360) in *. clearbody r.
  pose proof (ratio_near r) as A. rewrite (Rabs_pos_eq r) in A by lra. pose proof (radians_near x y d D) as B.
  destruct (sin_turns (IZR n * in_radians y) (n * k)) as (<- & <-).
  assert (C : Rabs (IZR n * deg_to_rad r - (IZR n * in_radians y + IZR (n * k) * (2 * PI))) <= IZR n * (0.0175 * d + 1 / 10 ^ 10)).
  { rewrite mult_IZR. assert (E : in_radians r = in_radians x + IZR k * (2 * PI)). { replace r with (x + 360 * IZR k) by lra. unfold in_radians. field. }
    replace (IZR n * deg_to_rad r - (IZR n * in_radians y + IZR n * IZR k * (2 * PI))) with (IZR n * ((deg_to_rad r - in_radians r) + (in_radians x - in_radians y))) by (rewrite E; ring).
    rewrite Rabs_mult, (Rabs_pos_eq (IZR n)) by exact N. apply Rmult_le_compat_l; [exact N|]. eapply Rle_trans; [apply Rabs_triang|]. lra. }
  split; eapply Rle_trans; [apply sin_lip|exact C|apply cos_lip|exact C].
Qed.
End Trig.
Ltac coefficients := cbn [poly]; change (centuries ?jd) with (T_of jd); match goal with |- context [T_of ?jd] => let t := fresh "t" in set (t := T_of jd) in *; clearbody t end.
Lemma node_same jd : longitude_of_ascending_node jd = Rmod (meeus_node (T_of jd)) 360.
Proof. unfold longitude_of_ascending_node, meeus_node. cbv zeta. f_equal. coefficients. decimals. field. Qed.
Lemma node_near jd n : (0 <= n)%Z ->
  Rabs (sin (IZR n * deg_to_rad (longitude_of_ascending_node jd)) - sin (IZR n * in_radians (meeus_node (T_of jd)))) <= IZR n / 10 ^ 10 /\
  Rabs (cos (IZR n * deg_to_rad (longitude_of_ascending_node jd)) - cos (IZR n * in_radians (meeus_node (T_of jd)))) <= IZR n / 10 ^ 10.
Proof.
  intros N. rewrite node_same. pose proof (reduced_near (meeus_node (T_of jd)) (meeus_node (T_of jd)) 0) as H. rewrite Rminus_diag_eq, Rabs_R0 in H by reflexivity.
  specialize (H ltac:(lra) n N). replace (IZR n * (0.0175 * 0 + 1 / 10 ^ 10)) with (IZR n / 10 ^ 10) in H by (unfold Rdiv; ring). exact H.
Qed.
Lemma sun_near jd n : (0 <= n)%Z -> Rabs (T_of jd) <= 1 ->
  Rabs (sin (IZR n * deg_to_rad (mean_longitude_of_sun jd)) - sin (IZR n * in_radians (meeus_sun (T_of jd)))) <= IZR n * (0.0175 * 0.00008 + 1 / 10 ^ 10) /\
  Rabs (cos (IZR n * deg_to_rad (mean_longitude_of_sun jd)) - cos (IZR n * in_radians (meeus_sun (T_of jd)))) <= IZR n * (0.0175 * 0.00008 + 1 / 10 ^ 10).
Proof.
  intros N B. apply Rabs_le_inv in B. apply direct_near; auto; apply Rabs_le; unfold mean_longitude_of_sun, meeus_sun; coefficients; lra.
Qed.
Lemma moon_near jd n : (0 <= n)%Z -> Rabs (T_of jd) <= 1 ->
  Rabs (sin (IZR n * deg_to_rad (mean_longitude_of_moon jd)) - sin (IZR n * in_radians (meeus_moon (T_of jd)))) <= IZR n * (0.0175 * 0 + 1 / 10 ^ 10) /\
  Rabs (cos (IZR n * deg_to_rad (mean_longitude_of_moon jd)) - cos (IZR n * in_radians (meeus_moon (T_of jd)))) <= IZR n * (0.0175 * 0 + 1 / 10 ^ 10).
Proof.
  intros N B. apply Rabs_le_inv in B. apply direct_near; auto; apply Rabs_le; unfold mean_longitude_of_moon, meeus_moon; coefficients; lra.
Qed.
Theorem C166_nutation :
  forall jd, let T := T_of jd in Rabs T <= 1 ->
    Rabs (fst (nutation_components jd) - meeus_nutation_longitude T) <= 4 / 10 ^ 6 /\
    Rabs (snd (nutation_components jd) - meeus_nutation_obliquity T) <= 2 / 10 ^ 6.
Proof.
  intros jd T B. unfold nutation_components. cbv zeta. cbn [fst snd]. unfold nutation_in_longitude, nutation_in_obliquity, meeus_nutation_longitude, meeus_nutation_obliquity, harmonic. cbv zeta.
  destruct (node_near jd 1 ltac:(lia)) as (A1 & C1). destruct (node_near jd 2 ltac:(lia)) as (A2 & C2). destruct (sun_near jd 2 ltac:(lia) B) as (A3 & C3). destruct (moon_near jd 2 ltac:(lia) B) as (A4 & C4).
  fold T in A1, A2, A3, A4, C1, C2, C3, C4.
  rewrite !Rmult_1_l in *. apply Rabs_le_inv in A1, A2, A3, A4, C1, C2, C3, C4.
  repeat match goal with |- context [sin ?a] => let s := fresh "s" in set (s := sin a) in *; clearbody s end.
  repeat match goal with |- context [cos ?a] => let s := fresh "s" in set (s := cos a) in *; clearbody s end.
  split; apply Rabs_le; lra.
Qed.

(** ** C167: the right ascension of the Sun *)
Lemma anomaly_near jd n : (0 <= n)%Z -> Rabs (T_of jd) <= 1 ->
  Rabs (sin (IZR n * deg_to_rad (mean_anomaly_of_sun jd)) - sin (IZR n * in_radians (meeus_mean_anomaly (T_of jd)))) <= IZR n * (0.0175 * 0.0015 + 1 / 10 ^ 10) /\
  Rabs (cos (IZR n * deg_to_rad (mean_anomaly_of_sun jd)) - cos (IZR n * in_radians (meeus_mean_anomaly (T_of jd)))) <= IZR n * (0.0175 * 0.0015 + 1 / 10 ^ 10).
Proof.
  intros N B. apply Rabs_le_inv in B. apply reduced_near; auto. apply Rabs_le. unfold meeus_mean_anomaly. coefficients.
  replace (t ^ 2) with (t * t) by ring. replace (t ^ 3) with (t * t * t) by ring. assert (S2 : 0 <= t * t <= 1) by nra. assert (S3 : -1 <= t * t * t <= 1) by (set (w := t * t) in *; clearbody w; nra).
  replace (357.52911 + t * (35999.05029 + t * (-0.0001537 + t * 0))) with (357.52911 + 35999.05029 * t - 0.0001537 * (t * t)) by (decimals; field).
  set (w3 := t * t * t) in *. set (w2 := t * t) in *. clearbody w2 w3. lra.
Qed.
Lemma longitude_near jd : Rabs (T_of jd) <= 1 -> Rabs (mean_longitude_of_sun jd - meeus_mean_longitude (T_of jd)) <= 0.000314 /\ Rabs (mean_longitude_of_sun jd) <= 10 ^ 8.
Proof.
  intros B. apply Rabs_le_inv in B. unfold mean_longitude_of_sun, meeus_mean_longitude. coefficients.
  assert (S2 : 0 <= t * t <= 1) by nra. replace (t * (36000.76983 + t * (0.0003032 + t * 0))) with (36000.76983 * t + 0.0003032 * (t * t)) by ring.
  set (w2 := t * t) in *. clearbody w2. split; apply Rabs_le; lra.
Qed.
Lemma prod_near a b c e da db A B : Rabs (a - c) <= da -> Rabs (b - e) <= db -> Rabs c <= A -> Rabs b <= B -> Rabs (a * b - c * e) <= B * da + A * db.
Proof.
  intros H1 H2 H3 H4. replace (a * b - c * e) with (b * (a - c) + c * (b - e)) by ring. eapply Rle_trans; [apply Rabs_triang|]. rewrite !Rabs_mult.
  apply Rplus_le_compat; apply Rmult_le_compat; auto using Rabs_pos.
Qed.
(** The point of the plane whose angle is the right ascension *)
Definition sun_longitude (jd : R) : R :=
  let m := deg_to_rad (mean_anomaly_of_sun jd) in let t := centuries jd in
  radians (mean_longitude_of_sun jd + ((1.914602 - 0.004817 * t - 0.000014 * t ^ 2) * sin m + (0.019993 - 0.000101 * t) * sin (2 * m) + 0.000289 * sin (3 * m))).
Definition sun_angle (jd : R) : R := atan2 (cos (deg_to_rad (mean_obliquity jd)) * sin (sun_longitude jd)) (cos (sun_longitude jd)).
Lemma sun_angle_mod jd : sun_right_ascension jd = Rmod (sun_angle jd) (2 * PI). Proof. reflexivity. Qed.
Lemma true_longitude_near jd : Rabs (T_of jd) <= 1 -> Rabs (sun_longitude jd - meeus_true_longitude (T_of jd)) <= 6.5 / 10 ^ 6.
Proof.
  intros B. unfold sun_longitude, meeus_true_longitude, meeus_centre. cbv zeta. change (radians ?x) with (x * (PI / 180)).
  destruct (anomaly_near jd 1 ltac:(lia) B) as (A1 & _). destruct (anomaly_near jd 2 ltac:(lia) B) as (A2 & _). destruct (anomaly_near jd 3 ltac:(lia) B) as (A3 & _).
  rewrite !Rmult_1_l in A1. destruct (longitude_near jd B) as (A4 & _). apply Rabs_le_inv in B.
  repeat match goal with |- context [sin ?a] => let s := fresh "s" in set (s := sin a) in *; clearbody s end.
  change (centuries jd) with (T_of jd). set (l := mean_longitude_of_sun jd) in *. set (l' := meeus_mean_longitude (T_of jd)) in *. set (t := T_of jd) in *. clearbody l l' t.
  match goal with |- Rabs ((l + ?c) * (PI / 180) - in_radians (l' + ?c')) <= _ => set (x := c); set (y := c') end.
  assert (C : Rabs (x - y) <= 0.0000525).
  { assert (E : x - y = (1.914602 - 0.004817 * t - 0.000014 * t ^ 2) * (s - s2) + (0.019993 - 0.000101 * t) * (s0 - s3) + 0.000289 * (s1 - s4)) by (unfold x, y; cbn [poly]; decimals; field).
    assert (K1 : Rabs (1.914602 - 0.004817 * t - 0.000014 * t ^ 2) <= 1.9195) by (apply Rabs_le; nra). assert (K2 : Rabs (0.019993 - 0.000101 * t) <= 0.0201) by (apply Rabs_le; lra).
    set (k1 := 1.914602 - 0.004817 * t - 0.000014 * t ^ 2) in *. set (k2 := 0.019993 - 0.000101 * t) in *. clearbody k1 k2. rewrite E. clear E x y.
    assert (P1 : Rabs (k1 * (s - s2)) <= 1.9195 * (0.0175 * 0.0015 + 1 / 10 ^ 10)) by (rewrite Rabs_mult; apply Rmult_le_compat; auto using Rabs_pos).
    assert (P2 : Rabs (k2 * (s0 - s3)) <= 0.0201 * (2 * (0.0175 * 0.0015 + 1 / 10 ^ 10))) by (rewrite Rabs_mult; apply Rmult_le_compat; auto using Rabs_pos).
    apply Rabs_le_inv in P1, P2, A3. apply Rabs_le. lra. }
  clearbody x y. change ((l + x) * (PI / 180)) with ((l + x) * (PI * / 180)). replace ((l + x) * (PI * / 180)) with (in_radians (l + x)) by (unfold in_radians, Rdiv; ring).
  eapply Rle_trans; [apply (radians_near _ _ 0.0003665)|lra]. apply Rabs_le_inv in A4, C. apply Rabs_le. lra.
Qed.
Lemma century_obliquity jd : Rabs (T_of jd) <= 1 -> 23.4 <= mean_obliquity jd <= 23.5.
Proof.
  intros B. apply Rabs_le_inv in B. rewrite laskar. unfold laskar_obliquity, dms. set (u := T_of jd / 100). assert (U : -0.01 <= u <= 0.01) by (unfold u; lra). clearbody u. clear B jd.
  cbn [poly]. assert (K : forall a b m, 0 <= m -> - m <= b <= m -> a - 0.01 * m <= a + u * b <= a + 0.01 * m) by (intros; nra).
  rewrite Rmult_0_r, Rplus_0_r.
  pose proof (K 5.79 2.45 1000 ltac:(lra) ltac:(lra)) as K1. set (k1 := 5.79 + u * 2.45) in *. clearbody k1.
  pose proof (K 27.87 k1 1000 ltac:(lra) ltac:(lra)) as K2. set (k2 := 27.87 + u * k1) in *. clearbody k2.
  pose proof (K 7.12 k2 1000 ltac:(lra) ltac:(lra)) as K3. set (k3 := 7.12 + u * k2) in *. clearbody k3.
  pose proof (K (-39.05) k3 1000 ltac:(lra) ltac:(lra)) as K4. set (k4 := -39.05 + u * k3) in *. clearbody k4.
  pose proof (K (-249.67) k4 1000 ltac:(lra) ltac:(lra)) as K5. set (k5 := -249.67 + u * k4) in *. clearbody k5.
  pose proof (K (-51.38) k5 1000 ltac:(lra) ltac:(lra)) as K6. set (k6 := -51.38 + u * k5) in *. clearbody k6.
  pose proof (K 1999.25 k6 1000 ltac:(lra) ltac:(lra)) as K7. set (k7 := 1999.25 + u * k6) in *. clearbody k7.
  pose proof (K (-1.55) k7 2100 ltac:(lra) ltac:(lra)) as K8. set (k8 := -1.55 + u * k7) in *. clearbody k8.
  pose proof (K (-4680.93) k8 100 ltac:(lra) ltac:(lra)) as K9. set (k9 := -4680.93 + u * k8) in *. clearbody k9.
  pose proof (K 0 k9 5000 ltac:(lra) ltac:(lra)) as K10. set (k10 := 0 + u * k9) in *. clearbody k10. lra.
Qed.
Lemma cos_below x : Rabs x <= 1 -> 1 - x * x / 2 <= cos x.
Proof.
  intros X. replace x with (2 * (x / 2)) at 3 by field. rewrite cos_2a_sin. pose proof (sin_lip (x / 2) 0) as S. rewrite sin_0, !Rminus_0_r in S.
  set (s := sin (x / 2)) in *. clearbody s. assert (s * s <= (x / 2) * (x / 2)); [|lra]. rewrite <- (Rabs_pos_eq (s * s)) by nra. rewrite Rabs_mult.
  rewrite <- (Rabs_pos_eq (x / 2 * (x / 2))) by nra. rewrite (Rabs_mult (x / 2)). apply Rmult_le_compat; auto using Rabs_pos.
Qed.
Theorem C167_sun_right_ascension :
  forall jd alpha, let T := T_of jd in Rabs T <= 1 -> angle_of_point alpha (meeus_equator_x T) (meeus_equator_y T) ->
    0 <= sun_right_ascension jd < 2 * PI /\ apart_at_most (2 * PI) (in_radians 0.002) (sun_right_ascension jd) alpha.
Proof.
  intros jd alpha T B An. split; [apply C54_sun_right_ascension|]. apply angle_atan2 in An.
  pose proof (true_longitude_near jd B) as Lo. pose proof (century_obliquity jd B) as Ob. pose proof PI_near as P.
  rewrite sun_angle_mod. unfold sun_angle. unfold meeus_equator_x, meeus_equator_y in An.
  set (l := sun_longitude jd) in *. fold T in Lo. set (l' := meeus_true_longitude T) in *. clearbody l l'.
  set (c := cos (deg_to_rad (mean_obliquity jd))). set (c' := cos (in_radians (laskar_obliquity (T / 100)))) in *.
  assert (Cn : Rabs (c - c') <= 1 / 10 ^ 10).
  { unfold c, c', T. rewrite <- laskar. eapply Rle_trans; [apply cos_lip|]. eapply Rle_trans; [apply ratio_near|]. rewrite Rabs_pos_eq by lra. lra. }
  assert (Cp : 9 / 10 <= c' <= 1).
  { split; [|apply COS_bound]. unfold c', T. rewrite <- laskar. assert (0.4 <= in_radians (mean_obliquity jd) <= 0.42) as X by (unfold in_radians; nra).
    set (x := in_radians (mean_obliquity jd)) in *. clearbody x. pose proof (cos_below x ltac:(apply Rabs_le; lra)). nra. }
  clearbody c c'. pose proof (sin_lip l l') as Sl. pose proof (cos_lip l l') as Cl. pose proof (sin2_cos2 l') as Q. unfold Rsqr in Q. pose proof (SIN_bound l) as Bl. pose proof (COS_bound l') as Bc. pose proof (SIN_bound l') as Bs.
  destruct (atan2_near (c' * sin l') (cos l') (c * sin l) (cos l) (7 / 10 ^ 6)) as ((k & K) & _).
  - set (s := sin l') in *. set (q := cos l') in *. clearbody s q. assert (81 / 100 <= c' * c') by nra. pose proof (Rle_0_sqr s) as A1. pose proof (Rle_0_sqr q) as A2. unfold Rsqr in A1, A2. nra.
  - apply Rabs_le. lra.
  - apply Rabs_le. set (s := sin l') in *. clearbody s. nra.
  - lra.
  - eapply Rle_trans; [apply (prod_near c (sin l) c' (sin l') (1 / 10 ^ 10) (6.5 / 10 ^ 6) 1 1); [exact Cn|lra|apply Rabs_le; lra|apply Rabs_le; lra]|lra].
  - lra.
  - destruct An as (j & J). set (a := atan2 (c * sin l) (cos l)) in *. set (b := atan2 (c' * sin l') (cos l')) in *. clearbody a b.
    destruct (Rmod_congruent a (2 * PI)) as (i & I). exists (i + k + j)%Z. rewrite !plus_IZR. set (r := Rmod a (2 * PI)) in *. clearbody r.
    apply Rabs_le_inv in K, J. apply Rabs_le. unfold in_radians. lra.
Qed.

(** ** C168: the equation of time *)
Lemma tan_near a b d : 0.2 <= a <= 0.21 -> 0.2 <= b <= 0.21 -> Rabs (a - b) <= d -> Rabs (tan a - tan b) <= 1.07 * d /\ 0 <= tan a <= 0.22 /\ 0 <= tan b <= 0.22.
Proof.
  intros A B D. assert (C : forall x, 0.2 <= x <= 0.21 -> 0.97 <= cos x). { intros x X. pose proof (cos_below x ltac:(apply Rabs_le; lra)). nra. }
  pose proof (C a A) as Ca. pose proof (C b B) as Cb.
  assert (S : forall x, 0.2 <= x <= 0.21 -> 0.97 <= cos x -> 0 <= tan x <= 0.22).
  { intros x X Cx. pose proof (sin_lip x 0) as Sx. rewrite sin_0, !Rminus_0_r, (Rabs_pos_eq x) in Sx by lra. apply Rabs_le_inv in Sx.
    pose proof PI_near as P. assert (0 <= sin x) by (apply sin_ge_0; lra). unfold tan. split; [apply Rmult_le_pos; [lra|apply Rlt_le, Rinv_0_lt_compat; lra]|].
    apply Rmult_le_reg_r with (cos x); [lra|]. unfold Rdiv. rewrite Rmult_assoc, Rinv_l by lra. lra. }
  split; [|split; auto]. assert (E : tan a - tan b = sin (a - b) * / (cos a * cos b)). { unfold tan. rewrite sin_minus. field. split; lra. }
  rewrite E, Rabs_mult. pose proof (sin_lip (a - b) 0) as Sd. rewrite sin_0, !Rminus_0_r in Sd.
  assert (I : Rabs (/ (cos a * cos b)) <= 1.07).
  { assert (0.9409 <= cos a * cos b) by nra. rewrite Rabs_pos_eq by (apply Rlt_le, Rinv_0_lt_compat; lra). apply Rle_trans with (/ 0.9409); [apply Rinv_le_contravar; lra|lra]. }
  rewrite Rmult_comm. apply Rmult_le_compat; auto using Rabs_pos. lra.
Qed.
Lemma sun_mean_near jd n : (0 <= n)%Z -> Rabs (T_of jd) <= 1 ->
  Rabs (sin (IZR n * deg_to_rad (mean_longitude_of_sun jd)) - sin (IZR n * in_radians (meeus_mean_longitude (T_of jd)))) <= IZR n * (0.0175 * 0.000314 + 1 / 10 ^ 10) /\
  Rabs (cos (IZR n * deg_to_rad (mean_longitude_of_sun jd)) - cos (IZR n * in_radians (meeus_mean_longitude (T_of jd)))) <= IZR n * (0.0175 * 0.000314 + 1 / 10 ^ 10).
Proof. intros N B. destruct (longitude_near jd B). now apply direct_near. Qed.
Lemma eccentricity_same jd : earth_eccentricity jd = meeus_eccentricity (T_of jd).
Proof. unfold earth_eccentricity, meeus_eccentricity. coefficients. decimals. field. Qed.
Lemma eccentricity_small T : Rabs T <= 1 -> 0 <= meeus_eccentricity T <= 0.0168.
Proof. intros B. apply Rabs_le_inv in B. unfold meeus_eccentricity. cbn [poly]. nra. Qed.
(** The documentation takes the mean obliquity, the code the apparent one. *)
Lemma half_obliquity_near jd : Rabs (T_of jd) <= 1 ->
  0.2 <= deg_to_rad (apparent_obliquity jd) / 2 <= 0.21 /\ 0.2 <= in_radians (laskar_obliquity (T_of jd / 100)) / 2 <= 0.21 /\
  Rabs (deg_to_rad (apparent_obliquity jd) / 2 - in_radians (laskar_obliquity (T_of jd / 100)) / 2) <= 2.44 / 10 ^ 5.
Proof.
  intros B. pose proof (century_obliquity jd B) as Ob. destruct (C165_apparent_obliquity jd) as (_ & D). rewrite <- laskar. set (m := mean_obliquity jd) in *. set (a := apparent_obliquity jd) in *. clearbody m a.
  unfold dms in D. apply Rabs_lt_inv in D. pose proof (ratio_near a) as Ra. rewrite (Rabs_pos_eq a) in Ra by lra. pose proof (radians_near a m 0.00278 ltac:(apply Rabs_le; lra)) as Rn.
  assert (X : 0.4083 <= in_radians m <= 0.4103) by (unfold in_radians; pose proof PI_near; nra).
  apply Rabs_le_inv in Ra, Rn. set (x := deg_to_rad a) in *. set (y := in_radians a) in *. set (z := in_radians m) in *. clearbody x y z.
  split; [lra|]. split; [lra|]. apply Rabs_le. lra.
Qed.
Theorem C168_equation_of_time :
  forall jd, let T := T_of jd in Rabs T <= 1 -> Rabs (equation_of_time jd - meeus_equation_of_time T) <= 2 / 10 ^ 5.
Proof.
  intros jd T B. unfold equation_of_time, meeus_equation_of_time, smart_equation. cbv zeta. rewrite eccentricity_same. fold T.
  pose proof (eccentricity_small T B) as Ec. destruct (half_obliquity_near jd B) as (H1 & H2 & H3). fold T in H2, H3. destruct (tan_near _ _ _ H1 H2 H3) as (D & Ta & Tb).
  set (a := tan (deg_to_rad _ / 2)) in *. set (b := tan (in_radians _ / 2)) in *. clearbody a b. clear H1 H2 H3.
  destruct (sun_mean_near jd 2 ltac:(lia) B) as (S2 & C2). destruct (sun_mean_near jd 4 ltac:(lia) B) as (S4 & _).
  destruct (anomaly_near jd 1 ltac:(lia) B) as (M1 & _). destruct (anomaly_near jd 2 ltac:(lia) B) as (M2 & _). rewrite !Rmult_1_l in M1. fold T in S2, C2, S4, M1, M2.
  set (e := meeus_eccentricity T) in *. clearbody e.
  assert (Y : Rabs (a ^ 2 - b ^ 2) <= 1.15 / 10 ^ 5).
  { replace (a ^ 2 - b ^ 2) with ((a + b) * (a - b)) by ring. rewrite Rabs_mult, (Rabs_pos_eq (a + b)) by lra.
    apply Rle_trans with (0.44 * (1.07 * (2.44 / 10 ^ 5))); [apply Rmult_le_compat; try lra; apply Rabs_pos|lra]. }
  assert (Ya : 0 <= a ^ 2 <= 0.0484) by nra. assert (Yb : 0 <= b ^ 2 <= 0.0484) by nra. set (y := a ^ 2) in *. set (y' := b ^ 2) in *. clearbody y y'. clear D Ta Tb.
  set (l := deg_to_rad (mean_longitude_of_sun jd)) in *. set (m := deg_to_rad (mean_anomaly_of_sun jd)) in *. set (l' := in_radians (meeus_mean_longitude T)) in *. set (m' := in_radians (meeus_mean_anomaly T)) in *.
  pose proof (SIN_bound (2 * l)) as B1. pose proof (COS_bound (2 * l)) as B2. pose proof (SIN_bound (4 * l)) as B3. pose proof (SIN_bound m) as B4. pose proof (SIN_bound m') as B5. pose proof (COS_bound (2 * l')) as B6.
  set (s2 := sin (2 * l)) in *. set (c2 := cos (2 * l)) in *. set (s4 := sin (4 * l)) in *. set (m1 := sin m) in *. set (m2 := sin (2 * m)) in *.
  set (s2' := sin (2 * l')) in *. set (c2' := cos (2 * l')) in *. set (s4' := sin (4 * l')) in *. set (m1' := sin m') in *. set (m2' := sin (2 * m')) in *.
  clearbody s2 c2 s4 m1 m2 s2' c2' s4' m1' m2'. clear l m l' m'.
  assert (P1 : Rabs (y * s2 - y' * s2') <= 1.21 / 10 ^ 5).
  { eapply Rle_trans; [apply (prod_near _ _ _ _ (1.15 / 10 ^ 5) (2 * (0.0175 * 0.000314 + 1 / 10 ^ 10)) 0.0484 1); auto; apply Rabs_le; lra|lra]. }
  assert (P2 : Rabs (m1 * c2 - m1' * c2') <= 3.8 / 10 ^ 5).
  { eapply Rle_trans; [apply (prod_near _ _ _ _ (0.0175 * 0.0015 + 1 / 10 ^ 10) (2 * (0.0175 * 0.000314 + 1 / 10 ^ 10)) 1 1); auto; apply Rabs_le; lra|lra]. }
  assert (P2' : Rabs (m1 * c2) <= 1) by (apply Rabs_le; nra).
  assert (P3 : Rabs (y * (m1 * c2) - y' * (m1' * c2')) <= 1.4 / 10 ^ 5).
  { eapply Rle_trans; [apply (prod_near _ _ _ _ (1.15 / 10 ^ 5) (3.8 / 10 ^ 5) 0.0484 1); auto; apply Rabs_le; lra|lra]. }
  assert (P4 : Rabs (y * y - y' * y') <= 0.12 / 10 ^ 5).
  { eapply Rle_trans; [apply (prod_near _ _ _ _ (1.15 / 10 ^ 5) (1.15 / 10 ^ 5) 0.0484 0.0484); auto; apply Rabs_le; lra|lra]. }
  assert (P5 : Rabs (y * y * s4 - y' * y' * s4') <= 0.13 / 10 ^ 5).
  { eapply Rle_trans; [apply (prod_near _ _ _ _ (0.12 / 10 ^ 5) (4 * (0.0175 * 0.000314 + 1 / 10 ^ 10)) 0.0024 1); auto; try (apply Rabs_le; nra)|lra]. }
  assert (P6 : Rabs (e * (m1 - m1')) <= 0.0168 * (0.0175 * 0.0015 + 1 / 10 ^ 10)).
  { rewrite Rabs_mult, (Rabs_pos_eq e) by lra. apply Rmult_le_compat; try lra; apply Rabs_pos. }
  assert (P7 : Rabs (e * (y * (m1 * c2) - y' * (m1' * c2'))) <= 0.0168 * (1.4 / 10 ^ 5)).
  { rewrite Rabs_mult, (Rabs_pos_eq e) by lra. apply Rmult_le_compat; try lra; apply Rabs_pos. }
  assert (P8 : Rabs (e * e * (m2 - m2')) <= 0.0003 * (2 * (0.0175 * 0.0015 + 1 / 10 ^ 10))).
  { rewrite Rabs_mult, (Rabs_pos_eq (e * e)) by nra. apply Rmult_le_compat; try nra; apply Rabs_pos. }
  match goal with |- Rabs ?z <= _ => replace z with ((y * s2 - y' * s2') - 2 * (e * (m1 - m1')) + 4 * (e * (y * (m1 * c2) - y' * (m1' * c2'))) - 1 / 2 * (y * y * s4 - y' * y' * s4') - 5 / 4 * (e * e * (m2 - m2'))) end.
  2:{ decimals. field. }
  apply Rabs_le_inv in P1, P5, P6, P7, P8. apply Rabs_le. lra.
Qed.

(** ** C169: the equation of the equinoxes *)
(** The number is the equation in seconds of time, that is, in fifteenths of the arcseconds ... *)
Theorem C169_equinoxes_partial :
  forall jd, let T := T_of jd in Rabs T <= 1 ->
    let angle := meeus_nutation_longitude T * cos (in_radians (laskar_obliquity (T / 100) + dms 0 0 (meeus_nutation_obliquity T))) in
    Rabs (15 * equation_of_equinoxes jd - angle) <= 5 / 10 ^ 6.
Proof.
  intros jd T B angle. destruct (C166_nutation jd B) as (N1 & N2). fold T in N1, N2. destruct (C54_nutation_bounded jd) as (Bd & _). destruct (C165_apparent_obliquity jd) as (E & _).
  unfold equation_of_equinoxes. replace (15 * (fst (nutation_components jd) * cos (deg_to_rad (apparent_obliquity jd)) / 15)) with (fst (nutation_components jd) * cos (deg_to_rad (apparent_obliquity jd))) by field.
  pose proof (century_obliquity jd B) as Ob. destruct (C165_apparent_obliquity jd) as (_ & Ap). unfold dms in Ap. apply Rabs_lt_inv in Ap.
  assert (Cn : Rabs (cos (deg_to_rad (apparent_obliquity jd)) - cos (in_radians (laskar_obliquity (T / 100) + dms 0 0 (meeus_nutation_obliquity T)))) <= 1 / 10 ^ 10).
  { eapply Rle_trans; [apply cos_lip|]. pose proof (ratio_near (apparent_obliquity jd)) as Ra. rewrite (Rabs_pos_eq (apparent_obliquity jd)) in Ra by lra.
    assert (D : Rabs (apparent_obliquity jd - (laskar_obliquity (T / 100) + dms 0 0 (meeus_nutation_obliquity T))) <= 1 / 10 ^ 9).
    { rewrite E, laskar. fold T. unfold dms. apply Rabs_le_inv in N2. apply Rabs_le. lra. }
    pose proof (radians_near _ _ _ D) as Rn. apply Rabs_le_inv in Ra, Rn. apply Rabs_le. lra. }
  unfold angle. set (c := cos (deg_to_rad _)) in *. set (c' := cos (in_radians _)) in *. pose proof (COS_bound (deg_to_rad (apparent_obliquity jd))) as Bc. fold c in Bc.
  apply Rabs_le_inv in N1. eapply Rle_trans; [apply (prod_near _ _ _ _ (4 / 10 ^ 6) (1 / 10 ^ 10) 19 1); [apply Rabs_le; lra|exact Cn|apply Rabs_le; lra|apply Rabs_le; lra]|lra].
Qed.
(** ... so that as the angle in arcseconds that it is labelled to be it is wrong, at the epoch by more
    than five arcseconds. *)
Theorem C169_equinoxes_refuted :
  let T := T_of 2451545 in
  let angle := meeus_nutation_longitude T * cos (in_radians (laskar_obliquity (T / 100) + dms 0 0 (meeus_nutation_obliquity T))) in
  equation_of_equinoxes 2451545 - angle > 5.
Proof.
  intros T angle. assert (T0 : T = 0) by (unfold T, T_of; lra). assert (B : Rabs T <= 1) by (rewrite T0, Rabs_R0; lra).
  pose proof (C169_equinoxes_partial 2451545 B) as P. fold T in P. cbv zeta in P. fold angle in P. apply Rabs_le_inv in P.
  assert (A : angle <= -6); [|lra]. pose proof PI_near as Pn.
  assert (N : meeus_nutation_longitude T <= -6.8).
  { unfold meeus_nutation_longitude, harmonic. rewrite Rmult_1_l. pose proof (SIN_bound (2 * in_radians (meeus_sun T))). pose proof (SIN_bound (2 * in_radians (meeus_moon T))). pose proof (SIN_bound (2 * in_radians (meeus_node T))).
    assert (1 / 2 <= sin (in_radians (meeus_node T))); [|lra]. rewrite <- sin_PI6. rewrite <- (sin_PI_x (PI / 6)). rewrite T0. unfold meeus_node, in_radians. cbn [poly]. rewrite Rmult_0_l. apply Rlt_le, sin_decreasing_1; lra. }
  assert (C : 9 / 10 <= cos (in_radians (laskar_obliquity (T / 100) + dms 0 0 (meeus_nutation_obliquity T)))).
  { destruct (C166_nutation 2451545 B) as (_ & N2). fold T in N2. destruct (C54_nutation_bounded 2451545) as (_ & Bd). pose proof (century_obliquity 2451545 B) as Ob. rewrite laskar in Ob. fold T in Ob. apply Rabs_le_inv in N2.
    set (n := meeus_nutation_obliquity T) in *. set (o := laskar_obliquity (T / 100)) in *. clearbody n o. unfold dms. set (x := in_radians _). assert (X : 0.4 <= x <= 0.42) by (unfold x, in_radians; nra). clearbody x.
    pose proof (cos_below x ltac:(apply Rabs_le; lra)). nra. }
  unfold angle. set (c := cos _) in *. set (n := meeus_nutation_longitude T) in *. clearbody c n. nra.
Qed.

(** ** C170: precession *)
Theorem C170_precession_partial :
  forall jd, let T := T_of jd in
    theta_precession_angle jd = iau_theta T /\ z_precession_angle jd = iau_z T /\ zeta_precession_angle jd = iau_zeta T + 0.00034416.
Proof.
  intros jd T. unfold theta_precession_angle, iau_theta, z_precession_angle, iau_z, zeta_precession_angle, iau_zeta. change (centuries jd) with T. clearbody T. cbn [poly].
  repeat split; decimals; field.
Qed.
(** ... a constant mistyped as 2.59796176 makes zeta wrong at every time. *)
Theorem C170_precession_refuted : forall jd, zeta_precession_angle jd <> iau_zeta (T_of jd).
Proof. intros jd. destruct (C170_precession_partial jd) as (_ & _ & E). rewrite E. lra. Qed.

(** ** Cases *)
(** Noon of 1 January 2020 is within a century of the epoch, and the Sun has a right ascension. *)
Example C165_case : Rabs (T_of 2458850) <= 1 /\ T_of 2458850 = 0.2 /\
  angle_of_point (atan2 (meeus_equator_y 0.2) (meeus_equator_x 0.2)) (meeus_equator_x 0.2) (meeus_equator_y 0.2).
Proof.
  assert (E : T_of 2458850 = 0.2) by (unfold T_of; lra). rewrite E. split; [apply Rabs_le; lra|]. split; [reflexivity|].
  assert (B : Rabs (T_of 2458850) <= 1) by (rewrite E; apply Rabs_le; lra). pose proof (century_obliquity 2458850 B) as Ob. rewrite laskar, E in Ob.
  assert (C : 9 / 10 <= cos (in_radians (laskar_obliquity (0.2 / 100)))).
  { set (o := laskar_obliquity _) in *. clearbody o. pose proof PI_near as Pn. set (x := in_radians o). assert (X : 0.4 <= x <= 0.42) by (unfold x, in_radians; nra). clearbody x. pose proof (cos_below x ltac:(apply Rabs_le; lra)). nra. }
  unfold meeus_equator_x, meeus_equator_y. set (c := cos (in_radians _)) in *. pose proof (sin2_cos2 (meeus_true_longitude 0.2)) as Q. unfold Rsqr in Q. set (s := sin _) in *. set (q := cos (meeus_true_longitude _)) in *. clearbody c s q.
  assert (N : 0 < c * s * (c * s) + q * q). { pose proof (Rle_0_sqr s) as A1. pose proof (Rle_0_sqr q) as A2. unfold Rsqr in A1, A2. assert (81 / 100 <= c * c) by nra. assert (81 / 100 * (s * s) <= c * c * (s * s)) by (apply Rmult_le_compat_r; lra). nra. }
  exists (sqrt (c * s * (c * s) + q * q)). pose proof (sqrt_lt_R0 _ N) as Sp. pose proof (sqrt_sqrt _ (Rlt_le _ _ N)) as Sq. set (r := sqrt _) in *. clearbody r.
  destruct (atan2_sin_cos (c * s) q r Sp Sq) as (-> & ->). split; [exact Sp|]. split; field; lra.
Qed.

Print Assumptions C165_mean_obliquity.
Print Assumptions C165_apparent_obliquity.
Print Assumptions C166_nutation.
Print Assumptions C167_sun_right_ascension.
Print Assumptions C168_equation_of_time.
Print Assumptions C169_equinoxes_partial.
Print Assumptions C169_equinoxes_refuted.
Print Assumptions C170_precession_partial.
Print Assumptions C170_precession_refuted.
