(** The accuracy of the coordinates of a ground location, continued. *)
From Coq Require Import ZArith Reals Lra Lia Psatz.
From Flocq Require Import Core.Core IEEE754.BinarySingleNaN IEEE754.Binary IEEE754.Bits.
From Verif Require Import Py Fl_Model Fl_Spec Fl_Proofs Flg_Model Flg_Spec Rot_Model Rot_Spec Time_Model Flg_Proofs Flg_Num Flg_Proofs2 Flg_Proofs3 Flg_Proofs5 Geo_Model.
Open Scope R_scope.

Lemma sin_lip x y : Rabs (sin x - sin y) <= Rabs (x - y).
Proof.
  rewrite form4. rewrite !Rabs_mult, (Rabs_pos_eq 2) by lra.
  assert (A : Rabs (cos ((x + y) / 2)) <= 1) by (apply Rabs_le, COS_bound).
  assert (B : Rabs (sin ((x - y) / 2)) <= Rabs ((x - y) / 2)).
  { set (t := (x - y) / 2). clearbody t. destruct (Rle_dec 0 t) as [T|T].
    - rewrite (Rabs_pos_eq t) by auto. apply Rabs_le. destruct (Req_dec t 0) as [-> |]; [rewrite sin_0; lra|]. pose proof (SIN_bound t). 
      assert (sin t < t) by (apply sin_lt_x; lra). split; [|lra]. destruct (Rle_dec t PI); [assert (0 <= sin t) by (apply sin_ge_0; lra); lra|pose proof PI_RGT_0; pose proof PI2_1; lra].
    - rewrite <- Rabs_Ropp, <- sin_neg, (Rabs_left t) by lra. set (s := - t). assert (S : 0 < s) by (unfold s; lra). clearbody s. apply Rabs_le. pose proof (SIN_bound s).
      assert (sin s < s) by (apply sin_lt_x; lra). split; [|lra]. destruct (Rle_dec s PI); [assert (0 <= sin s) by (apply sin_ge_0; lra); lra|pose proof PI_RGT_0; pose proof PI2_1; lra]. }
  assert (C : Rabs ((x - y) / 2) = Rabs (x - y) / 2) by (unfold Rdiv; rewrite Rabs_mult, (Rabs_pos_eq (/ 2)) by lra; reflexivity).
  rewrite C in B. pose proof (Rabs_pos (sin ((x - y) / 2))). pose proof (Rabs_pos (cos ((x + y) / 2))). nra.
Qed.
Lemma cos_lip x y : Rabs (cos x - cos y) <= Rabs (x - y).
Proof. rewrite !cos_sin. replace (x - y) with (PI / 2 + x - (PI / 2 + y)) by ring. apply sin_lip. Qed.

Lemma conv_rad x a b : moderate x -> kind_of a = Angle -> Rabs (value x * size a) <= b -> 0 <= b ->
  exists y, fconvert x a Urad = Ok y /\ appr y (to_rad (size a) (value x)) (7 * (b / 57)) (b / 57).
Proof.
  intros M K B B0. destruct (convert_ok x a Urad K M) as (y & E & F & O). exists y. split; auto.
  change (value x * (size a / size Urad)) with (value x * (size a / (5729577951308232 / 100000000000000))) in O.
  assert (Q : to_rad (size a) (value x) = value x * (size a / (5729577951308232 / 100000000000000))) by (unfold to_rad, deg_per_rad, Rdiv; apply Rmult_eq_compat_l, Rmult_eq_compat_l; lra).
  rewrite Q. apply appr_off; auto; [|lra]. replace (value x * (size a / (5729577951308232 / 100000000000000))) with (value x * size a * (100000000000000 / 5729577951308232)) by field.
  rewrite Rabs_mult, (Rabs_pos_eq (100000000000000 / 5729577951308232)) by lra. pose proof (Rabs_pos (value x * size a)). unfold Rdiv at 2. apply Rmult_le_compat; lra.
Qed.
Lemma appr_cos M x r e b : accurate M -> appr x r e b -> b <= 4 -> 0 <= e <= 100 -> appr (m_cos M x) (cos r) (e + 2) 1.
Proof.
  intros A (F & E & B) Hb He. pose proof uu_pos. pose proof uu14. destruct (cos_good M A x F) as (Fc & Ec). { eapply Rle_trans; [apply (err_abs _ _ _ E)|]. nra. }
  split; auto. split; [|apply Rabs_le, COS_bound]. replace (/ 2 ^ 52) with (2 * uu) in Ec by (rewrite uu_value; lra).
  pose proof (cos_lip (value x) r) as L. pose proof (Rle_trans _ _ _ L E) as L2. eapply Rle_trans; [apply (err_trans _ _ _ _ _ Ec L2)|]. lra.
Qed.
Lemma appr_sin M x r e b : accurate M -> appr x r e b -> b <= 4 -> 0 <= e <= 100 -> appr (m_sin M x) (sin r) (e + 2) 1.
Proof.
  intros A (F & E & B) Hb He. pose proof uu_pos. pose proof uu14. destruct (sin_good M A x F) as (Fc & Ec). { eapply Rle_trans; [apply (err_abs _ _ _ E)|]. nra. }
  split; auto. split; [|apply Rabs_le, SIN_bound]. replace (/ 2 ^ 52) with (2 * uu) in Ec by (rewrite uu_value; lra).
  pose proof (sin_lip (value x) r) as L. pose proof (Rle_trans _ _ _ L E) as L2. eapply Rle_trans; [apply (err_trans _ _ _ _ _ Ec L2)|]. lra.
Qed.
Lemma appr_square M x r e b : accurate M -> appr x r e b -> 0 <= b <= 1 -> 0 <= e <= 100 -> appr (m_square M x) (r ^ 2) (2 * b * e + 5) (b * b).
Proof.
  intros A (F & E & B) Hb He. pose proof uu_pos as U. pose proof uu14 as U'. assert (eu : 0 <= e * uu <= / 1000000000000) by nra.
  destruct (square_good M A x F) as (Fc & Ec). { eapply Rle_trans; [apply (err_abs _ _ _ E)|]. lra. }
  split; auto. split.
  - replace (/ 2 ^ 51) with (4 * uu) in Ec by (rewrite uu_value; lra).
    assert (D : Rabs (value x ^ 2 - r ^ 2) <= (2 * b * e + 1) * uu).
    { replace (value x ^ 2 - r ^ 2) with (2 * r * (value x - r) + (value x - r) * (value x - r)) by ring. eapply Rle_trans; [apply Rabs_triang|]. rewrite !Rabs_mult, (Rabs_pos_eq 2) by lra.
      assert (Rabs r * Rabs (value x - r) <= b * (e * uu)) by (apply Rmult_le_compat; auto using Rabs_pos).
      assert (Rabs (value x - r) * Rabs (value x - r) <= e * uu * (e * uu)) by (apply Rmult_le_compat; auto using Rabs_pos).
      assert (e * uu * (e * uu) <= 1 * uu) by (rewrite <- (Rmult_assoc (e * uu)); apply Rmult_le_compat_r; nra). lra. }
    eapply Rle_trans; [apply (err_trans _ _ _ _ _ Ec D)|]. lra.
  - replace (r ^ 2) with (r * r) by ring. rewrite Rabs_mult. apply Rmult_le_compat; auto using Rabs_pos.
Qed.

Lemma ten17 : finite (of_Z 100000000000000000) /\ value (of_Z 100000000000000000) = 100000000000000000.
Proof.
  unfold of_Z, finite, value. set (z := 100000000000000000%Z).
  match goal with |- context [binary_normalize _ _ ?a ?b] => pose proof (binary_normalize_correct 53 1024 a b mode_NE z 0 false) as C end.
  cbn [round_mode] in C. assert (E : F2R (Float radix2 z 0) = IZR z) by (unfold F2R; cbn [Fnum Fexp bpow]; ring). rewrite E in C. fold (rnd (IZR z)) in C.
  assert (F : fmt (IZR z)).
  { replace (IZR z) with (IZR 762939453125 * bpow radix2 17); [apply fmt_int; lia|]. rewrite <- (IZR_Zpower radix2) by lia. rewrite <- mult_IZR. reflexivity. }
  rewrite (rnd_fmt _ F) in C. rewrite Rlt_bool_true in C; [destruct C as (C1 & C2 & _); auto|].
  rewrite <- abs_IZR. apply Rle_lt_trans with (bpow radix2 60); [apply (IZR_le z (2 ^ 60)); lia|apply bpow_lt; lia].
Qed.
Lemma appr_ecc : appr feccentricity eccentricity 1 (9 / 100).
Proof.
  destruct ten17 as (F1 & V1). destruct (of_Z_ok 8181919084296284 ltac:(lia)) as (F2 & V2). unfold feccentricity, literal.
  assert (E : value (of_Z 8181919084296284) / value (of_Z 100000000000000000) = eccentricity) by (rewrite V1, V2; unfold eccentricity; lra).
  destruct (fdiv_ok _ _ F2 ltac:(rewrite V1; lra)) as (F & V). { rewrite E. apply small_abs, Rabs_le. unfold eccentricity. lra. }
  split; auto. rewrite V, E. split; [|apply Rabs_le; unfold eccentricity; lra].
  pose proof (rnd_mul_err eccentricity) as R. pose proof ee1. rewrite (Rabs_pos_eq eccentricity) in R by (unfold eccentricity; lra). pose proof uu_pos. assert (uu * eccentricity <= uu * (1 / 10)) by (apply Rmult_le_compat_l; unfold eccentricity; lra). lra.
Qed.
Lemma appr_axis : appr fmajor_axis major_axis 6379 6379.
Proof.
  destruct (literal_ok 6378137 1000 ltac:(lia) ltac:(lia)) as (F & N). fold fmajor_axis in F, N. apply near_off in N.
  assert (Q : 6378137 / 1000 = major_axis) by (unfold major_axis; lra). rewrite Q in N. replace 6379 with (1 * 6379) at 1 by ring. apply appr_off; auto; [|lra]. apply Rabs_le. unfold major_axis. lra.
Qed.
Lemma ecc_sq : eccentricity ^ 2 = 0.08181919084296284 * 0.08181919084296284. Proof. unfold eccentricity. ring. Qed.
Lemma appr_ecc2 M : accurate M -> appr (m_square M feccentricity) (eccentricity ^ 2) 6 (9 / 1000).
Proof.
  intros A. destruct (appr_square M _ _ _ _ A appr_ecc ltac:(lra) ltac:(lra)) as (F & E & _). pose proof uu_pos as U. split; auto. split; [lra|].
  rewrite ecc_sq. apply Rabs_le. lra.
Qed.
Lemma inner_range t : 99 / 100 <= 1 - eccentricity ^ 2 * sin t ^ 2 <= 1.
Proof. rewrite ecc_sq. pose proof (SIN_bound t). assert (0 <= sin t ^ 2 <= 1) by nra. lra. Qed.
Lemma inner_better t : 9933 / 10000 <= 1 - eccentricity ^ 2 * sin t ^ 2 <= 1.
Proof. rewrite ecc_sq. pose proof (SIN_bound t). assert (0 <= sin t ^ 2 <= 1) by nra. lra. Qed.
Lemma curvature_range t : 6378 <= radius_of_curvature_in_prime_vertical t <= 6401.
Proof.
  unfold radius_of_curvature_in_prime_vertical. pose proof (inner_better t) as I. set (w := 1 - _) in *.
  assert (S : 9966 / 10000 <= sqrt w <= 1).
  { split. - rewrite <- (sqrt_square (9966 / 10000)) by lra. apply sqrt_le_1_alt. lra. - rewrite <- sqrt_1. apply sqrt_le_1_alt. lra. }
  set (s := sqrt w) in *. clearbody s. unfold major_axis. split; apply Rmult_le_reg_r with s; try lra; unfold Rdiv; rewrite (Rmult_assoc _ (/ s)), Rinv_l by lra; lra.
Qed.
Lemma appr_curvature M x r : accurate M -> appr x r 12 2 ->
  appr (fprime_vertical M x) (radius_of_curvature_in_prime_vertical r) 66000 6401.
Proof.
  intros A X. unfold fprime_vertical, radius_of_curvature_in_prime_vertical.
  pose proof (appr_sin M x r _ _ A X ltac:(lra) ltac:(lra)) as S. pose proof (appr_square M _ _ _ _ A S ltac:(lra) ltac:(lra)) as S2.
  pose proof (appr_mul _ _ _ _ _ _ _ _ (appr_ecc2 M A) S2 ltac:(lra) ltac:(lra) ltac:(lra) ltac:(lra)) as P.
  assert (I1 : Rabs (1 - eccentricity ^ 2 * sin r ^ 2) <= IZR (Z.abs 1)) by (pose proof (inner_range r); apply Rabs_le; cbn; lra).
  pose proof (appr_sub _ _ _ _ _ _ _ _ (appr_Z 1 ltac:(lia)) P ltac:(lra) ltac:(lra) ltac:(cbn; lra) ltac:(lra) I1) as D.
  pose proof (appr_le _ _ _ _ 11 1 D ltac:(cbn; lra) ltac:(cbn; lra)) as D'. clear D.
  pose proof (appr_sqrt _ _ _ D' (proj1 (inner_range r)) ltac:(lra)) as Q.
  pose proof (appr_le _ _ _ _ 8 1 Q ltac:(lra) ltac:(lra)) as Q'. clear Q.
  pose proof (curvature_range r) as C. unfold radius_of_curvature_in_prime_vertical in C.
  assert (SR : 99 / 100 <= sqrt (1 - eccentricity ^ 2 * sin r ^ 2)).
  { pose proof (inner_range r). rewrite <- (sqrt_square (99 / 100)) by lra. apply sqrt_le_1_alt. lra. }
  pose proof (appr_div _ _ _ _ _ _ 6401 (appr_le _ _ _ _ 6379 6401 appr_axis ltac:(lra) ltac:(lra)) Q' SR ltac:(unfold major_axis; lra) ltac:(lra) ltac:(lra) ltac:(lra) ltac:(lra)) as Z.
  apply (appr_le _ _ _ _ _ _ Z); lra.
Qed.
Lemma measures_length a : measures a = Lengths -> kind_of a = Length. Proof. destruct a; cbn; congruence. Qed.
Lemma measures_angle a : measures a = Angles -> kind_of a = Angle. Proof. destruct a; cbn; congruence. Qed.
Lemma conv_height x a : moderate x -> kind_of a = Length -> Rabs (value x * size a) <= 1000 * 1000 ->
  exists y, fconvert x a Ukm = Ok y /\ appr y (to_km (size a) (value x)) 7000 1000.
Proof.
  intros M K B. destruct (convert_ok x a Ukm K M) as (y & E & F & O). exists y. split; auto. change (size Ukm) with 1000 in O.
  replace 7000 with (7 * 1000) by ring. apply appr_off; auto; [|lra]. unfold to_km. replace (value x * (size a / 1000)) with (value x * size a * / 1000) by field.
  rewrite Rabs_mult, (Rabs_pos_eq (/ 1000)) by lra. lra.
Qed.

Lemma fitrs_ok M l : accurate M -> on_earth l -> exists g, fitrs M l = Ok g /\
  appr (fx g) (itrs_x (exact_location l)) 386000 7401 /\ appr (fy g) (itrs_y (exact_location l)) 386000 7401 /\ appr (fz g) (itrs_z (exact_location l)) 251000 7401.
Proof.
  intros A (M1 & M2 & M3 & K1 & K2 & B1 & B2 & B3). apply measures_angle in K1. apply measures_length in K2.
  destruct (conv_rad _ _ 90 M1 K1 B1 ltac:(lra)) as (lat & C1 & A1). destruct (conv_rad _ _ 180 M2 K1 B2 ltac:(lra)) as (lon & C2 & A2).
  destruct (conv_height _ _ M3 K2 B3) as (h & C3 & A3).
  change (to_rad (size (fl_angle l)) (value (fl_latitude l))) with (lat_rad (exact_location l)) in A1.
  change (to_rad (size (fl_angle l)) (value (fl_longitude l))) with (lon_rad (exact_location l)) in A2.
  change (to_km (size (fl_length l)) (value (fl_height l))) with (height_km (exact_location l)) in A3.
  unfold fitrs, fitrs_x, fitrs_y, fitrs_z, fq_add. rewrite K2. change (kind_eqb (kind_of Ukm) Length) with true. cbn [negb]. rewrite C1, C2, C3. cbn [bind].
  eexists. split; [reflexivity|]. cbn [fx fy fz]. unfold itrs_x, itrs_y, itrs_z.
  pose proof (appr_le _ _ _ _ 12 2 A1 ltac:(lra) ltac:(lra)) as T1; clear A1; rename T1 into A1. pose proof (appr_le _ _ _ _ 23 4 A2 ltac:(lra) ltac:(lra)) as T2; clear A2; rename T2 into A2.
  set (tl := lat_rad (exact_location l)) in *. set (to := lon_rad (exact_location l)) in *. set (th := height_km (exact_location l)) in *. clearbody tl to th.
  pose proof (appr_curvature M _ _ A A1) as N. pose proof (appr_cos M _ _ _ _ A A1 ltac:(lra) ltac:(lra)) as CL. pose proof (appr_sin M _ _ _ _ A A1 ltac:(lra) ltac:(lra)) as SL.
  pose proof (appr_cos M _ _ _ _ A A2 ltac:(lra) ltac:(lra)) as CO. pose proof (appr_sin M _ _ _ _ A A2 ltac:(lra) ltac:(lra)) as SO.
  pose proof (appr_add _ _ _ _ _ _ _ _ N A3 ltac:(lra) ltac:(lra) ltac:(lra) ltac:(lra)) as S.
  pose proof (appr_le _ _ _ _ 81000 7401 S ltac:(lra) ltac:(lra)) as T3; clear S; rename T3 into S.
  pose proof (appr_mul _ _ _ _ _ _ _ _ S CL ltac:(lra) ltac:(lra) ltac:(lra) ltac:(lra)) as P.
  pose proof (appr_le _ _ _ _ 193000 7401 P ltac:(lra) ltac:(lra)) as T4; clear P; rename T4 into P.
  split; [|split].
  - pose proof (appr_mul _ _ _ _ _ _ _ _ P CO ltac:(lra) ltac:(lra) ltac:(lra) ltac:(lra)) as X. apply (appr_le _ _ _ _ _ _ X); lra.
  - pose proof (appr_mul _ _ _ _ _ _ _ _ P SO ltac:(lra) ltac:(lra) ltac:(lra) ltac:(lra)) as X. apply (appr_le _ _ _ _ _ _ X); lra.
  - assert (I1 : Rabs (1 - eccentricity ^ 2) <= IZR (Z.abs 1)) by (rewrite ecc_sq; apply Rabs_le; cbn; lra).
    pose proof (appr_sub _ _ _ _ _ _ _ _ (appr_Z 1 ltac:(lia)) (appr_ecc2 M A) ltac:(lra) ltac:(lra) ltac:(cbn; lra) ltac:(lra) I1) as D.
    pose proof (appr_le _ _ _ _ 8 1 D ltac:(cbn; lra) ltac:(cbn; lra)) as T5; clear D; rename T5 into D.
    pose proof (appr_mul _ _ _ _ _ _ _ _ N D ltac:(lra) ltac:(lra) ltac:(lra) ltac:(lra)) as X.
    pose proof (appr_le _ _ _ _ 124000 6401 X ltac:(lra) ltac:(lra)) as T6; clear X; rename T6 into X.
    pose proof (appr_add _ _ _ _ _ _ _ _ X A3 ltac:(lra) ltac:(lra) ltac:(lra) ltac:(lra)) as Y.
    pose proof (appr_le _ _ _ _ 139000 7401 Y ltac:(lra) ltac:(lra)) as T7; clear Y; rename T7 into Y.
    pose proof (appr_mul _ _ _ _ _ _ _ _ Y SL ltac:(lra) ltac:(lra) ltac:(lra) ltac:(lra)) as W. apply (appr_le _ _ _ _ _ _ W); lra.
Qed.
