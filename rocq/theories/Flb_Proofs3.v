(** Azimuths in floating point against azimuths in exact arithmetic. *)
From Coq Require Import List ZArith Reals Lra Lia Psatz.
From Flocq Require Import Core.Core IEEE754.BinarySingleNaN IEEE754.Binary IEEE754.Bits.
From Verif Require Import Py Num Fl_Model Fl_Spec Fl_Proofs Flg_Model Flg_Spec Rot_Model Rot_Spec Time_Proofs Geo_Model Geo_Spec Lvlh_Spec Lvlh_Proofs Flg_Proofs Flg_Num Flg_Proofs2 Flg_Proofs3 Flg_Proofs4 Flg_Proofs5 Flg_Proofs6 Flg_Proofs7 Flr_Model Flr_Spec Flv_Model Flv_Proofs Fly_Model Flb_Model Fln_Spec Flb_Spec Flb_Proofs Flb_Proofs2.
From Verif Require Geo_Dir Geo_Acc Geo_Alt Geo_Props3 Geo_Props4.
Open Scope R_scope.
#[local] Strategy 1000 [fmul fadd fsub fdiv fneg of_Z].

(** The cosine and the angle, for any two computed norms *)
Lemma cosine_gen u v nu nv : sized u -> sized v -> finite nu -> Rabs (value nu - norm (vector u)) <= 5 * uu * norm (vector u) ->
  finite nv -> Rabs (value nv - norm (vector v)) <= 5 * uu * norm (vector v) ->
  finite (fdiv (fdot u v) (fmul nu nv)) /\
  Rabs (value (fdiv (fdot u v) (fmul nu nv)) - cosine (vector u) (vector v)) <= 20 * uu.
Proof.
  intros Su Sv Fu Eu Fn En. destruct (dot_ok u v Su Sv) as (Fd & Ed).
  pose proof (bpow_gt_0 radix2 (-400)) as L. pose proof Su as (_ & U1 & U2). pose proof Sv as (_ & V1 & V2).
  pose proof (sized_prod u v Su Sv) as P. pose proof (cauchy_norm (vector u) (vector v)) as C.
  pose proof (prod_norms (norm (vector u)) (norm (vector v)) (value nu) (value nv) ltac:(lra) ltac:(lra) Eu En) as E.
  set (p := norm (vector u) * norm (vector v)) in *. pose proof uu_pos as U. pose proof (bpow_gt_0 radix2 (-800)) as P0.
  pose proof (uu_shrink p ltac:(lra)) as UP. assert (Up : 0 <= uu * p) by nra.
  assert (B : p / 2 <= value nu * value nv <= 2 * p) by (apply Rabs_le_inv in E; lra).
  destruct (fmul_ok nu nv Fu Fn) as (Fp & Vp).
  { rewrite Rabs_pos_eq by lra. apply Rle_trans with (bpow radix2 201); [change 201%Z with (1 + 200)%Z; rewrite bpow_plus; change (bpow radix2 1) with 2; lra|apply bpow_le; lia]. }
  assert (Ep : Rabs (value (fmul nu nv) - p) <= 12 * uu * p).
  { rewrite Vp. destruct (rnd_rel' (value nu * value nv)) as (e & E1 & R).
    { right. rewrite Rabs_pos_eq by lra. apply Rle_trans with (bpow radix2 (-801)); [apply bpow_le; lia|]. change (-801)%Z with (-800 + -1)%Z. rewrite bpow_plus. change (bpow radix2 (-1)) with (/ 2). lra. }
    rewrite R. set (x := value nu * value nv) in *. clearbody x. apply Rabs_le_inv in E1, E. apply Rabs_le. pose proof (uu_shrink2 p ltac:(lra)).
    assert (- (uu * x) <= x * e <= uu * x) by nra. assert (uu * x <= uu * (p + 101 / 10 * uu * p)) by (apply Rmult_le_compat_l; lra). lra. }
  destruct (quotient (dot (vector u) (vector v)) (value (fdot u v)) p (value (fmul nu nv)) ltac:(lra) C Ed Ep) as (Nz & Q).
  pose proof (cosine_range (vector u) (vector v) ltac:(lra) ltac:(lra)) as R. change (dot (vector u) (vector v) / p) with (cosine (vector u) (vector v)) in Q.
  pose proof uu_small as Us. apply Rabs_le_inv in Q.
  destruct (fdiv_ok (fdot u v) (fmul nu nv) Fd Nz) as (Fq & Vq). { apply small_abs, Rabs_le. lra. }
  split; auto. rewrite Vq. set (q := value (fdot u v) / value (fmul nu nv)) in *. clearbody q.
  pose proof (rnd_mul_err q) as M. apply Rabs_le_inv in M. assert (Aq : Rabs q <= 2) by (apply Rabs_le; lra).
  assert (E8 : 4 * ee <= uu * 1) by (apply ee_small; change 1 with (bpow radix2 0); apply bpow_le; lia).
  assert (Rabs q <= 1 + 175 / 10 * uu) by (apply Rabs_le; lra). assert (uu * Rabs q <= uu * (1 + 175 / 10 * uu)) by (apply Rmult_le_compat_l; lra).
  pose proof (uu_shrink uu ltac:(lra)). apply Rabs_le. lra.
Qed.
Lemma ang_1d_ok M u v a b d : accurate M -> sized u -> sized v -> 0 < norm a -> 0 < norm b -> ang a (vector u) + ang b (vector v) <= d ->
  let x := fget_ang_1d M u v in let t := in_degrees (angle a b) in
  (is_NaN x /\ (t <= 39 / 10000000 + 57.3 * d \/ 180 - (39 / 10000000 + 57.3 * d) <= t)) \/
  (finite x /\ Rabs (value x - t) <= 39 / 10000000 + 57.3 * d).
Proof.
  intros A Su Sv Na Nb D x t. destruct (fnorm_1d_ok M u A Su) as (F1 & E1). destruct (fnorm_ok v Sv) as (F2 & E2).
  destruct (cosine_gen u v _ _ Su Sv F1 E1 F2 E2) as (Fq & Eq). unfold x, fget_ang_1d. set (q := fdiv (fdot u v) _) in *.
  pose proof (bpow_gt_0 radix2 (-400)) as L. pose proof Su as (_ & U1 & _). pose proof Sv as (_ & V1 & _).
  pose proof (cosine_range (vector u) (vector v) ltac:(lra) ltac:(lra)) as C.
  pose proof (ang_change a b (vector u) (vector v) Na Nb ltac:(lra) ltac:(lra)) as G.
  assert (D0 : 0 <= d) by (pose proof (ang_range a (vector u)); pose proof (ang_range b (vector v)); lra).
  assert (G' : Rabs (ang a b - ang (vector u) (vector v)) <= d) by lra. clear G. unfold ang in G' at 2. apply Rabs_le_inv in G'. rewrite <- angle_fold in G'.
  pose proof PI_near as PN. pose proof deg_factor as DF.
  destruct (arccos_ok M q _ A Fq C Eq) as [(N & H)|(F & w & W & E & E3 & _)].
  - left. split; [now apply nan_mul|]. unfold t. destruct H as [H|H].
    + left. assert (angle a b <= 2.002 * small_e + d) by lra. unfold in_degrees. unfold small_e in *. assert (0 <= angle a b) by (rewrite angle_fold; apply ang_range). nra.
    + right. assert (K : PI - (2.002 * small_e + d) <= angle a b) by lra. pose proof (in_degrees_PI) as IP. unfold in_degrees in *. unfold small_e in *. nra.
  - right. destruct (fdegrees_ok _ w F W E) as (Fd & Ed). split; [exact Fd|]. apply Rabs_le_inv in E3.
    assert (T : Rabs (w - angle a b) <= 2.002 * small_e + d) by (apply Rabs_le; lra). apply in_degrees_diff in T. fold t in T.
    eapply Rle_trans; [apply (err_trans _ _ _ _ _ Ed T)|]. unfold small_e. lra.
Qed.

(** ** The exact side *)
Lemma tight_norm l : on_earth l -> norm (itrs_of (exact_location l)) <= 7401 /\ 5356 <= radius (exact_location l) <= 7379 /\ -1000 <= height_km (exact_location l) <= 1000 /\
  5378 <= radius_of_curvature_in_prime_vertical (lat_rad (exact_location l)) + height_km (exact_location l).
Proof.
  intros (_ & _ & _ & _ & _ & _ & _ & H). assert (Hh : -1000 <= height_km (exact_location l) <= 1000).
  { unfold height_km, to_km. cbn [length_scale loc_height exact_location]. apply Rabs_le_inv in H. replace (value (fl_height l) * (size (fl_length l) / 1000)) with (value (fl_height l) * size (fl_length l) / 1000) by field. lra. }
  set (L := exact_location l) in *. clearbody L. pose proof (curvature_range (lat_rad L)) as C. pose proof (Geo_Props3.radius_bounds L) as RB. pose proof Geo_Alt.A_val. pose proof Geo_Alt.B_val.
  split; [|split; [lra|split; lra]]. unfold itrs_of, itrs_x, itrs_y, itrs_z.
  set (n := radius_of_curvature_in_prime_vertical (lat_rad L)) in *. clearbody n.
  set (h := height_km L) in *. clearbody h. pose proof (sin2_cos2 (lat_rad L)) as T1. pose proof (sin2_cos2 (lon_rad L)) as T2. unfold Rsqr in *.
  set (s := sin (lat_rad L)) in *. set (c := cos (lat_rad L)) in *. set (s' := sin (lon_rad L)) in *. set (c' := cos (lon_rad L)) in *. clearbody s c s' c'.
  rewrite ecc_sq. set (f := 1 - _). assert (Hf : 99 / 100 <= f <= 1) by (unfold f; lra). clearbody f.
  set (a := n + h). set (b := n * f + h). assert (Ha : 5000 <= a <= 7401) by (unfold a; lra). assert (Hb : 5000 <= b <= 7401) by (unfold b; split; nra). clearbody a b.
  assert (D : dot (V (a * c * c') (a * c * s') (b * s)) (V (a * c * c') (a * c * s') (b * s)) = a * a * (c * c) + b * b * (s * s)).
  { unfold dot. cbn [vx vy vz]. replace (a * c * c' * (a * c * c') + a * c * s' * (a * c * s') + b * s * (b * s)) with (a * a * (c * c) * (s' * s' + c' * c') + b * b * (s * s)) by ring. rewrite T2. ring. }
  unfold norm. rewrite D. assert (0 <= c * c) by nra. assert (0 <= s * s) by nra.
  assert (Xa : 5000 * 5000 <= a * a <= 7401 * 7401) by nra. assert (Xb : 5000 * 5000 <= b * b <= 7401 * 7401) by nra.
  rewrite <- (sqrt_square 7401) by lra. apply sqrt_le_1_alt. nra.
Qed.
Lemma lat_rad_eq l : lat_rad (exact_location l) = latitude_at l.
Proof. unfold lat_rad, to_rad, latitude_at, radians, Time_Model.deg_per_rad, Rdiv. cbn [angular_scale loc_latitude exact_location]. ring. Qed.
Lemma lon_rad_eq l : lon_rad (exact_location l) = longitude_at l.
Proof. unfold lon_rad, to_rad, longitude_at, radians, Time_Model.deg_per_rad, Rdiv. cbn [angular_scale loc_longitude exact_location]. ring. Qed.

Lemma nan_mul_r x y : is_NaN y -> is_NaN (fmul x y).
Proof. unfold is_NaN, fmul, b64_mult. destruct y; cbn [is_nan]; try discriminate. intros _. destruct x; reflexivity. Qed.
(** The last step *)
Lemma wrap_ok b a : let z := if b : bool then fsub (of_Z 360) (fmul (of_Z 1) a) else fsub (of_Z 0) (fmul (of_Z (-1)) a) in
  (is_NaN a -> is_NaN z) /\
  (finite a -> Rabs (value a) <= 1000 -> finite z /\ Rabs (value z - (if b then 360 - value a else value a)) <= / 1000000000000).
Proof.
  cbv zeta. destruct (of_Z_ok 360 ltac:(lia)) as (F3 & V3). destruct (of_Z_ok 0 ltac:(lia)) as (F0 & V0). destruct (of_Z_ok 1 ltac:(lia)) as (F1 & V1). destruct (of_Z_ok (-1) ltac:(lia)) as (Fm & Vm).
  split; [intros N; destruct b; apply nan_sub, nan_mul_r, N|]. intros F B. pose proof uu_pos as U. pose proof uu_small as US.
  destruct b.
  - destruct (fmul_ok (of_Z 1) a F1 F) as (FP & VP). { rewrite V1, Rmult_1_l. apply small_abs. lra. } rewrite V1, Rmult_1_l, (rnd_fmt _ (value_fmt a)) in VP.
    destruct (fsub_ok (of_Z 360) (fmul (of_Z 1) a) F3 FP) as (FS & VS). { rewrite V3, VP. apply small_abs. apply Rabs_le_inv in B. apply Rabs_le. lra. } split; auto. rewrite VS, V3, VP.
    pose proof (rnd_add_err 360 (- value a)) as R. specialize (R ltac:(rewrite <- V3; apply value_fmt) ltac:(apply generic_format_opp, value_fmt)). change (360 + - value a) with (360 - value a) in R.
    eapply Rle_trans; [exact R|]. assert (Rabs (360 - value a) <= 1360) by (apply Rabs_le_inv in B; apply Rabs_le; lra). assert (uu * Rabs (360 - value a) <= uu * 1360) by (apply Rmult_le_compat_l; lra). rewrite uu_value in *. lra.
  - destruct (fmul_ok (of_Z (-1)) a Fm F) as (FP & VP). { rewrite Vm, Rabs_mult. replace (Rabs (-1)) with 1 by (rewrite Rabs_left; lra). rewrite Rmult_1_l. apply small_abs. lra. }
    rewrite Vm in VP. replace (-1 * value a) with (- value a) in VP by ring. rewrite rnd_fmt in VP by (apply generic_format_opp, value_fmt).
    destruct (fsub_ok (of_Z 0) (fmul (of_Z (-1)) a) F0 FP) as (FS & VS). { rewrite V0, VP. replace (0 - - value a) with (value a) by ring. apply small_abs. lra. } split; auto. rewrite VS, V0, VP.
    replace (0 - - value a) with (value a) by ring. rewrite (rnd_fmt _ (value_fmt a)). rewrite Rminus_eq_0, Rabs_R0. lra.
Qed.
Lemma norm_east x : norm (east x) = 1.
Proof. unfold norm, dot, east. cbn [vx vy vz]. pose proof (sin2_cos2 x) as T. unfold Rsqr in T. replace (- sin x * - sin x + cos x * cos x + 0 * 0) with (sin x * sin x + cos x * cos x) by ring. rewrite T. apply sqrt_1. Qed.

Section Azimuth.
Variable M : maths.
Variable L : arrays.
Variable square : float -> float.
Hypothesis HM : accurate M.
Hypothesis HL : accurate_arrays L.
Hypothesis HQ : accurate_square square.
Variable l : flocation.
Variable unit : unit_name.
Variable p : fvec.
Hypothesis OE : on_earth l.
Hypothesis ML : mid_latitude l.
Hypothesis IO : in_orbit unit p.
Let L0 := exact_location l.
Let G := itrs_of L0.
Let S := exact_km unit p.
Let D := from_to G S.
Let off := norm (product D G) / norm G.
Hypothesis FAR : 1 <= off.
Let E := dot D (east (longitude_at l)).
Let tol := (4 + 11 / off) / 10 ^ 6.

Lemma azimuth_ok : exists a x, fazimuth M L square l unit p = Ok a /\ azimuth L0 S = Fin x /\
  ((is_NaN a /\ (x <= tol \/ Rabs (x - 180) <= tol \/ 360 - tol <= x)) \/
   (finite a /\ (Rabs (value a - x) <= tol \/ (Rabs E < 1 / 250 /\ Rabs (value a - (360 - x)) <= tol)))).
Proof.
  destruct (tight_norm l OE) as (NG & RR & HH & NH). fold L0 G in NG, RR, HH, NH. pose proof (ground_norm l OE) as (NG0 & _). fold L0 G in NG0.
  destruct ML as (SP & CP). rewrite <- lat_rad_eq in SP, CP. fold L0 in SP, CP.
  assert (PN : norm (product D G) = off * norm G) by (unfold off; field; lra).
  assert (ND0 : off <= norm D). { pose proof (norm_product_le D G) as N. rewrite PN in N. apply Rmult_le_reg_r with (norm G); lra. }
  destruct (setting M l unit p HM OE IO) as (s & g & Es & Eg & Ss & Sg & Sd & _ & Hg & Hd & ND). { fold L0 G S D. lra. } fold L0 G in Hg. fold L0 G S D in Hd, ND.
  destruct (radius_ok M square HM HQ l OE) as (lat & r & El & Al & Er & Fr & Hr). fold L0 in Al, Hr.
  set (d := fvsub s g) in *. unfold fazimuth. rewrite Es, Eg, El, Er. cbn [bind]. unfold fazimuth_at. fold d.
  set (T := sub (V 0 0 (radius L0 / sin (lat_rad L0))) G). set (P := sub D (times (dot D G / (radius L0 * radius L0)) G)).
  destruct (tangent_close L HL G (radius L0) (lat_rad L0) NG RR SP g r lat (proj1 Sg) Hg Fr Hr Al) as (Ft & Et & Bt). fold T in Et, Bt.
  destruct (plane_close M square HM HQ G D (radius L0) NG ND RR g d r (proj1 Sg) Hg (proj1 Sd) Hd Fr Hr) as (Fp & Ep & Bp). fold P in Ep, Bp.
  pose proof (side_close M L square HM HL HQ G D (radius L0) (lat_rad L0) NG ND RR SP g d r lat (proj1 Sg) Hg (proj1 Sd) Hd Fr Hr Al) as SIDE. cbv zeta in SIDE. fold T P in SIDE.
  assert (deep : -6000 <= height_km L0) by lra. assert (S0 : sin (lat_rad L0) <> 0) by (intros Z; rewrite Z, Rabs_R0 in SP; lra). assert (C0 : cos (lat_rad L0) <> 0) by lra.
  set (rho := (radius_of_curvature_in_prime_vertical (lat_rad L0) + height_km L0) * cos (lat_rad L0)) in *. set (tau := radius L0 / sin (lat_rad L0)) in *.
  assert (RHO : 896 / 10 <= rho). { unfold rho. apply Rle_trans with (5378 * (1 / 60)); [lra|apply Rmult_le_compat; lra]. }
  assert (TAU : 5356 <= Rabs tau).
  { unfold tau, Rdiv. rewrite Rabs_mult, (Rabs_pos_eq (radius L0)), Rabs_inv by lra. assert (Rabs (sin (lat_rad L0)) <= 1) by (apply Rabs_le, SIN_bound).
    assert (1 <= / Rabs (sin (lat_rad L0))). { rewrite <- Rinv_1 at 1. apply Rinv_le_contravar; lra. } apply Rle_trans with (5356 * 1); [lra|apply Rmult_le_compat; lra]. }
  (* the exact azimuth *)
  assert (PG : product P G = product D G) by (unfold P, product, sub, times; cbn [vx vy vz]; f_equal; ring).
  assert (NP : off <= norm P). { pose proof (norm_product_le P G) as N. rewrite PG, PN in N. apply Rmult_le_reg_r with (norm G); lra. }
  assert (NK : forall k, D <> times k G).
  { intros k Z. assert (Q : product D G = V 0 0 0) by (rewrite Z; unfold product, times; cbn [vx vy vz]; f_equal; ring). assert (Q' : norm (product D G) = 0) by (rewrite Q, norm_axis, Rabs_R0; reflexivity). rewrite PN in Q'. nra. }
  pose proof (Geo_Props4.azimuth_half L0 deep S0 C0 S NK) as (x & X & DX & CX & _).
  change (Geo_Props4.tangent L0) with T in DX. change (Geo_Props4.in_plane L0 (sub S (itrs_of L0))) with P in DX.
  assert (EL : dot D (east (lon_rad L0)) = E) by (unfold E, L0; now rewrite lon_rad_eq).
  assert (CX' : (0 <= tau * rho * E /\ azimuth L0 S = Fin x) \/ (tau * rho * E < 0 /\ azimuth L0 S = Fin (360 - x))) by (rewrite <- EL; exact CX). clear CX. rename CX' into CX.
  assert (NT : 896 / 10 <= norm T).
  { rewrite <- (sqrt_square (896 / 10)) by lra. apply sqrt_le_1_alt. pose proof (Geo_Props4.rho_g L0) as RG.
    change (vx G * vx G + vy G * vy G = rho * rho) in RG. assert (Q : dot T T = (vx G * vx G + vy G * vy G) + vz T * vz T) by (unfold dot, T, sub; cbn [vx vy vz]; ring). rewrite Q, RG. nra. }
  assert (TX : in_degrees (angle T P) = x).
  { assert (PI0 : 0 < PI) by (pose proof PI_near; lra). unfold angle. rewrite DX. replace (norm T * norm P * cos (x * (PI / 180)) / (norm T * norm P)) with (cos (x * (PI / 180))) by (field; lra).
    rewrite acos_cos by (split; nra). unfold in_degrees. field. lra. }
  (* the computed angle *)
  assert (I11 : 11 / norm P <= 11 / off) by (unfold Rdiv; apply Rmult_le_compat_l; [lra|]; apply Rinv_le_contravar; lra).
  assert (I0 : 0 < 11 / norm P) by (apply Rdiv_lt_0_compat; lra).
  set (t := ftangent L g lat r) in *. set (q := fon_plane M square g r d) in *.
  destruct (near_angle T (vector t) (67 / 100000000000)) as (_ & A1); [lra|lra| |].
  { eapply Rle_trans; [exact Et|]. lra. }
  assert (I1 : 11 / norm P <= 11). { apply Rmult_le_reg_r with (norm P); [lra|]. unfold Rdiv. rewrite Rmult_assoc, Rinv_l by lra. lra. }
  destruct (near_angle P (vector q) (18 / 1100000000 * (11 / norm P))) as (_ & A2); [lra|lra| |].
  { eapply Rle_trans; [exact Ep|]. replace (18 / 1100000000 * (11 / norm P) * norm P) with (18 / 100000000) by (field; lra). lra. }
  assert (B1 : bpow radix2 (-400) <= 1 / 2). { apply Rle_trans with (bpow radix2 (-1)); [apply bpow_le; lia|cbn; lra]. }
  assert (B2 : 4000000000 <= bpow radix2 100) by (apply Rle_trans with (bpow radix2 32); [cbn; lra|apply bpow_le; lia]).
  pose proof (norm_near (vector t) T) as Nt. apply Rabs_le_inv in Nt. pose proof (norm_near (vector q) P) as Nq. apply Rabs_le_inv in Nq.
  assert (St : sized t) by (split; auto; lra). assert (Sq : sized q) by (split; auto; lra).
  pose proof (ang_1d_ok M t q T P _ HM St Sq ltac:(lra) ltac:(lra) (Rplus_le_compat _ _ _ _ A1 A2)) as ANG. cbv zeta in ANG. rewrite TX in ANG.
  set (tol0 := 39 / 10000000 + 57.3 * (1.001 * (67 / 100000000000) + 1.001 * (18 / 1100000000 * (11 / norm P)))) in *.
  assert (TOL : tol0 + / 1000000000000 <= tol) by (unfold tol, tol0; lra).
  set (neg := flt (fdot q (fcross t g)) (of_Z 0)). set (a0 := fget_ang_1d M t q) in *. destruct (wrap_ok neg a0) as (WN & WF).
  set (z := if neg then _ else _) in *. exists z.
  assert (T0 : 0 <= tol0) by (unfold tol0; lra). assert (TS : tol0 <= 1) by (unfold tol0; lra).
  (* the side *)
  assert (CT : product T G = times (tau * rho) (east (lon_rad L0))). { pose proof (Geo_Props4.cross_tangent L0) as CT. exact CT. }
  assert (NC : norm (product T G) = Rabs (tau * rho)) by (rewrite CT, norm_times, norm_east; ring).
  assert (TR : Rabs (tau * rho) = Rabs tau * rho) by (rewrite Rabs_mult, (Rabs_pos_eq rho) by lra; reflexivity).
  assert (TR1 : 5356 * (896 / 10) <= Rabs tau * rho) by (apply Rmult_le_compat; lra).
  assert (DP : dot P (product T G) = tau * rho * E). { pose proof (Geo_Props4.side L0 D) as SD. rewrite <- EL. exact SD. }
  assert (NEG : 1 / 250 <= Rabs E -> (neg = true <-> tau * rho * E < 0)).
  { intros HE. assert (F0 : finite (of_Z 0) /\ value (of_Z 0) = 0) by (apply of_Z_ok; lia). destruct F0 as (F0 & V0).
    destruct (Rle_lt_dec 0 (tau * rho)) as [Z|Z].
    - rewrite (Rabs_pos_eq _ Z) in NC, TR. destruct (SIDE E ltac:(rewrite NC; lra) ltac:(lra) ltac:(rewrite NC; exact DP) HE) as (FD & PO & NE). unfold neg. rewrite (flt_iff _ _ FD F0), V0.
      assert (EN : E <> 0) by (intros Y; rewrite Y, Rabs_R0 in HE; lra). assert (ZP : 0 < tau * rho) by lra.
      split; intros Y. + destruct (Rlt_le_dec E 0) as [W|W]; [assert (0 < tau * rho * - E) by (apply Rmult_lt_0_compat; lra); lra|]. assert (0 < E) by lra. specialize (PO H). lra. + apply NE. destruct (Rlt_le_dec E 0) as [|W]; auto. pose proof (Rmult_le_pos _ _ Z W). lra.
    - rewrite (Rabs_left _ Z) in NC, TR. destruct (SIDE (- E) ltac:(rewrite NC; lra) ltac:(lra) ltac:(rewrite NC, DP; ring) ltac:(rewrite Rabs_Ropp; exact HE)) as (FD & PO & NE). unfold neg. rewrite (flt_iff _ _ FD F0), V0.
      assert (EN : E <> 0) by (intros Y; rewrite Y, Rabs_R0 in HE; lra).
      split; intros Y. + destruct (Rlt_le_dec (- E) 0) as [W|W]; [assert (0 < - (tau * rho) * E) by (apply Rmult_lt_0_compat; lra); lra|]. assert (0 < - E) by lra. specialize (PO H). lra. + apply NE. destruct (Rlt_le_dec (- E) 0) as [|W]; auto. assert (Z' : 0 <= - (tau * rho)) by lra. pose proof (Rmult_le_pos _ _ Z' W). lra. }
  assert (SGN : (neg = true /\ tau * rho * E < 0) \/ (neg = false /\ 0 <= tau * rho * E) \/ Rabs E < 1 / 250).
  { destruct (Rlt_le_dec (Rabs E) (1 / 250)) as [W|W]; [auto|]. specialize (NEG W). destruct neg; [left; split; auto; now apply NEG|right; left; split; auto].
    destruct (Rle_lt_dec 0 (tau * rho * E)) as [|Y]; auto. apply NEG in Y. discriminate. }
  destruct CX as [(Q & AZ)|(Q & AZ)].
  - exists x. split; [reflexivity|]. split; [exact AZ|]. destruct ANG as [(N & H)|(F & H)].
    + left. split; [auto|]. destruct H as [H|H]; [left; lra|right; left; apply Rabs_le; lra].
    + right. apply Rabs_le_inv in H. destruct (WF F ltac:(apply Rabs_le; lra)) as (FZ & EZ). split; auto. apply Rabs_le_inv in EZ.
      destruct neg; [|left; apply Rabs_le; lra]. right. destruct SGN as [(_ & Y)|[(Y & _)|Y]]; [lra|discriminate|]. split; auto. apply Rabs_le. lra.
  - exists (360 - x). split; [reflexivity|]. split; [exact AZ|]. destruct ANG as [(N & H)|(F & H)].
    + left. split; [auto|]. destruct H as [H|H]; [right; right; lra|right; left; apply Rabs_le; lra].
    + right. apply Rabs_le_inv in H. destruct (WF F ltac:(apply Rabs_le; lra)) as (FZ & EZ). split; auto. apply Rabs_le_inv in EZ.
      destruct neg; [left; apply Rabs_le; lra|]. right. destruct SGN as [(Y & _)|[(_ & Y)|Y]]; [discriminate|lra|]. split; auto. apply Rabs_le. lra.
Qed.
End Azimuth.
