(** C183: the nutation matrix, made of three turns, and the obliquity it turns by. *)
From Coq Require Import List Reals Lra Lia Psatz.
From Flocq Require Import Core.Core.
From Verif Require Import Py Time_Model Time_Spec Time_Proofs Time_Props Rot_Model Rot_Spec Rot_Proofs Rot_Props Flc_Spec Ast_Spec Flg_Num Ast_Proofs Ast_Props.
Import ListNotations.
Open Scope R_scope.

(** The coordinates of a vector after the axes are turned about the first or the second axis. *)
Definition axes_about_x (a : R) (v : vec) : vec := V (vx v) (cos a * vy v + sin a * vz v) (- sin a * vy v + cos a * vz v).
Definition axes_about_y (a : R) (v : vec) : vec := V (cos a * vx v + sin a * vz v) (vy v) (- sin a * vx v + cos a * vz v).
(** To the ecliptic, by the nutation in longitude, and back to the equator. *)
Definition nutated (obliquity longitude in_obliquity : R) (v : vec) : vec :=
  axes_about_x (- (obliquity + in_obliquity)) (axes_about_y longitude (axes_about_x obliquity v)).
(** The change of the mean obliquity since the epoch, in arcseconds. *)
Definition change_since_epoch (T : R) : R := poly [0; -46.84024; -0.00059; 0.001813] T.

Theorem C183_nutation_partial :
  forall jd, let T := T_of jd in Rabs T <= 1 -> exists longitude in_obliquity,
    Rabs (longitude - in_radians (dms 0 0 (meeus_nutation_longitude T))) <= 2 / 10 ^ 11 /\
    Rabs (in_obliquity - in_radians (dms 0 0 (meeus_nutation_obliquity T))) <= 1 / 10 ^ 11 /\
    forall v, mat_vec (nutation_matrix jd) v =
      nutated (in_radians (laskar_obliquity (T / 100) + dms 0 0 (change_since_epoch T))) longitude in_obliquity v.
Proof.
  intros jd T B. exists (arcsec_to_rad (fst (nutation_components jd))), (radians (arcsec_to_deg (snd (nutation_components jd)))).
  destruct (C166_nutation jd B) as (N1 & N2). fold T in N1, N2. pose proof PI_near as P. destruct (C54_nutation_bounded jd) as (S1 & _).
  split; [|split].
  - apply Rabs_le_inv in N1. unfold arcsec_to_rad, in_radians, dms, deg_per_rad. set (x := fst _) in *. set (y := meeus_nutation_longitude T) in *. clearbody x y. clear N2.
    replace (x * (1 / 3600 / 57.29577951308232) - (0 + 0 / 60 + y / 3600) * PI / 180) with ((x - y) * (PI / 648000) + x * (1 / 3600 / 57.29577951308232 - PI / 648000)) by lra.
    set (d := 1 / 3600 / 57.29577951308232 - PI / 648000). assert (D : -1 / 10 ^ 17 <= d <= 1 / 10 ^ 17) by (unfold d; lra). clearbody d.
    apply Rabs_le. nra.
  - apply Rabs_le_inv in N2. unfold radians, arcsec_to_deg, in_radians, dms. set (x := snd _) in *. set (y := meeus_nutation_obliquity T) in *. clearbody x y. clear N1 S1. apply Rabs_le. nra.
  - intros v. assert (E : radians (nutation_obliquity jd / 3600) = in_radians (laskar_obliquity (T / 100) + dms 0 0 (change_since_epoch T))).
    { unfold nutation_obliquity. cbv zeta. rewrite laskar. change (centuries jd) with T. fold T. unfold radians, in_radians, change_since_epoch, dms. cbn [poly].
      set (l := laskar_obliquity _). clearbody l T. decimals. field. }
    unfold nutation_matrix. cbv zeta. replace (radians (nutation_obliquity jd / 3600 + arcsec_to_deg (snd (nutation_components jd)))) with (radians (nutation_obliquity jd / 3600) + radians (arcsec_to_deg (snd (nutation_components jd)))) by (unfold radians; ring).
    rewrite <- E. set (e := radians (nutation_obliquity jd / 3600)). set (d := arcsec_to_rad _). set (o := radians (arcsec_to_deg _)). clearbody e d o.
    unfold nutated, axes_about_x, axes_about_y, mat_vec, row_times. cbn [vx vy vz r0 r1 r2]. rewrite !sin_neg, !cos_neg. apply vec_eq; cbn [vx vy vz]; ring.
Qed.
(** ... so the change since the epoch is counted twice: with the obliquity of the date the
    result would be another one. *)
Theorem C183_nutation_refuted :
  forall jd, let T := T_of jd in Rabs T <= 1 -> T <> 0 -> 1 / 10 ^ 5 <= Rabs (meeus_nutation_longitude T) ->
  forall longitude in_obliquity,
    Rabs (longitude - in_radians (dms 0 0 (meeus_nutation_longitude T))) <= 2 / 10 ^ 11 ->
    ~ forall v, mat_vec (nutation_matrix jd) v = nutated (in_radians (laskar_obliquity (T / 100))) longitude in_obliquity v.
Proof.
  intros jd T B T0 L d o D A. destruct (C183_nutation_partial jd B) as (d0 & o0 & _ & _ & A0). fold T in A0.
  set (e := in_radians (laskar_obliquity (T / 100))) in *. pose proof PI_near as P.
  assert (E : in_radians (laskar_obliquity (T / 100) + dms 0 0 (change_since_epoch T)) = e + in_radians (dms 0 0 (change_since_epoch T))) by (unfold e, in_radians; lra).
  rewrite E in A0. clear E. set (dl := in_radians (dms 0 0 (change_since_epoch T))) in *.
  assert (Dl : Rabs dl <= 1 / 1000 /\ dl <> 0).
  { unfold dl, in_radians, dms, change_since_epoch. cbn [poly]. apply Rabs_le_inv in B. clear - B T0 P.
    set (f := -46.84024 + T * (-0.00059 + T * (0.001813 + T * 0))). assert (F : -46.85 <= f <= -46.83) by (unfold f; nra).
    replace ((0 + 0 / 60 + (0 + T * f) / 3600) * PI / 180) with (T * (f * (PI / 648000))) by lra.
    assert (G : -1 / 1000 <= f * (PI / 648000) <= -1 / 10000) by nra. set (g := f * (PI / 648000)) in *. clearbody g. split; [apply Rabs_le; nra|].
    intros Z. apply Rmult_integral in Z. destruct Z as [Z|Z]; [exact (T0 Z)|lra]. }
  destruct Dl as (Dl1 & Dl0). assert (S1 : sin d <> 0).
  { assert (Lb : Rabs (meeus_nutation_longitude T) <= 19).
    { unfold meeus_nutation_longitude, harmonic. repeat match goal with |- context [sin ?a] => pose proof (SIN_bound a); let q := fresh "q" in set (q := sin a) in *; clearbody q end. apply Rabs_le. lra. }
    assert (M : Rabs d <= 1 /\ d <> 0).
    { unfold in_radians, dms in D. set (y := meeus_nutation_longitude T) in *. clearbody y. clear - L Lb D P.
      apply Rabs_le_inv in D, Lb. unfold Rabs in L. destruct (Rcase_abs y); split; try (apply Rabs_le); nra. }
    destruct M as (M1 & M0). intros Z. apply Rabs_le_inv in M1. destruct (Rtotal_order d 0) as [Q|[Q|Q]]; [|exact (M0 Q)|].
    - pose proof (sin_gt_0 (- d) ltac:(lra) ltac:(lra)) as K. rewrite sin_neg in K. lra.
    - pose proof (sin_gt_0 d ltac:(lra) ltac:(lra)). lra. }
  assert (S2 : sin dl <> 0).
  { intros Z. apply Rabs_le_inv in Dl1. destruct (Rtotal_order dl 0) as [Q|[Q|Q]]; [|exact (Dl0 Q)|].
    - pose proof (sin_gt_0 (- dl) ltac:(lra) ltac:(lra)) as K. rewrite sin_neg in K. lra.
    - pose proof (sin_gt_0 dl ltac:(lra) ltac:(lra)). lra. }
  clearbody e dl. assert (U : forall v, vx (nutated e d o v) = vx (nutated (e + dl) d0 o0 v)) by (intros v; now rewrite <- A, A0).
  pose proof (U (V 0 1 0)) as U2. pose proof (U (V 0 0 1)) as U3. unfold nutated, axes_about_x, axes_about_y in U2, U3. cbn [vx vy vz] in U2, U3.
  assert (W : sin d * sin dl = 0).
  { transitivity (sin d * sin ((e + dl) - e)); [f_equal; f_equal; ring|]. rewrite sin_minus.
    assert (V2 : sin d * sin e = sin d0 * sin (e + dl)) by lra. assert (V3 : sin d * cos e = sin d0 * cos (e + dl)) by lra.
    transitivity (sin (e + dl) * (sin d * cos e) - cos (e + dl) * (sin d * sin e)); [ring|]. rewrite V2, V3. ring. }
  apply Rmult_integral in W. tauto.
Qed.

(** Noon of 1 January 2020: there is nutation in longitude. *)
Example C183_case : Rabs (T_of 2458850) <= 1 /\ T_of 2458850 <> 0 /\ 1 / 10 ^ 5 <= Rabs (meeus_nutation_longitude (T_of 2458850)) /\
  Rabs (in_radians (dms 0 0 (meeus_nutation_longitude (T_of 2458850))) - in_radians (dms 0 0 (meeus_nutation_longitude (T_of 2458850)))) <= 2 / 10 ^ 11.
Proof.
  destruct C165_case as (C1 & C2 & _). split; [exact C1|]. rewrite C2. split; [lra|]. split; [|rewrite Rminus_diag_eq by reflexivity; rewrite Rabs_R0; lra].
  unfold meeus_nutation_longitude, harmonic. 
  pose proof (SIN_bound (2 * in_radians (meeus_node 0.2))). pose proof (SIN_bound (2 * in_radians (meeus_sun 0.2))). pose proof (SIN_bound (2 * in_radians (meeus_moon 0.2))).
  rewrite Rmult_1_l. pose proof PI_near as P.
  assert (N : 0.5 <= sin (in_radians (meeus_node 0.2))).
  { replace (in_radians (meeus_node 0.2)) with (- (in_radians (- meeus_node 0.2 - 180) + PI)) by (unfold in_radians; field).
    rewrite sin_neg, neg_sin, Ropp_involutive. set (x := in_radians _). assert (X : 1.42 <= x <= 1.43) by (unfold x, in_radians, meeus_node; cbn [poly]; lra). clearbody x.
    pose proof (sin_lower x ltac:(lra)). assert (x ^ 3 <= 1.43 ^ 3) by (apply pow_incr; lra). lra. }
  set (a := sin (2 * in_radians (meeus_node 0.2))) in *. set (b := sin (2 * in_radians (meeus_sun 0.2))) in *. set (c := sin (2 * in_radians (meeus_moon 0.2))) in *. set (n := sin _) in *. clearbody a b c n.
  unfold Rabs. destruct (Rcase_abs _); lra.
Qed.

Print Assumptions C183_nutation_partial.
Print Assumptions C183_nutation_refuted.
