(** The conversions in floating point: the rotation of the Earth, and the steps put together. *)
From Coq Require Import List ZArith QArith Qreals Reals Lra Lia Psatz Bool.
From Flocq Require Import Core.Core IEEE754.BinarySingleNaN IEEE754.Binary IEEE754.Bits.
From Verif Require Import Py Fl_Model Fl_Spec Fl_Proofs Fla_Proofs4 Flg_Model Flg_Spec Time_Model Time_Spec Time_Proofs Rot_Model Rot_Spec Rot_Proofs Flg_Proofs Flg_Num Flg_Proofs2 Flg_Proofs3
  Flc_Model Flc_Spec Flc_Proofs Flc_Proofs2 Flc_Proofs3 Flc_Proofs4 Flc_Proofs5 Flg_Proofs5 Flr_Model Flr_Spec Flx_Expr Flr_Proofs Flr_Proofs2 Flr_Proofs3 Flr_Proofs4 Flr_Proofs5.
Open Scope R_scope.
#[local] Strategy 1000 [fmul fadd fsub fdiv fneg literal of_Z fpymod].

Lemma inv_rigid m : rigid (mat_vec m) -> rigid (mat_vec (inv_of m)).
Proof.
  intros H. destruct (inv_of_ok m H) as (_ & _ & B). destruct H as (D & W). split.
  - intros a b. rewrite <- (D (mat_vec (inv_of m) a)), !B. reflexivity.
  - intros a b c. rewrite <- (W (mat_vec (inv_of m) a)), !B. reflexivity.
Qed.
Lemma turn_back a v : turn (- a) (turn a v) = v /\ turn a (turn (- a) v) = v.
Proof.
  pose proof (sc a) as E. split; apply vec_eq; unfold turn; cbn [vx vy vz]; rewrite ?cos_neg, ?sin_neg; auto; set (c := cos a) in *; set (s := sin a) in *; clearbody c s.
  - replace (c * (c * vx v - s * vy v) - - s * (s * vx v + c * vy v)) with ((s * s + c * c) * vx v) by ring. rewrite E. ring.
  - replace (- s * (c * vx v - s * vy v) + c * (s * vx v + c * vy v)) with ((s * s + c * c) * vy v) by ring. rewrite E. ring.
  - replace (c * (c * vx v - - s * vy v) - s * (- s * vx v + c * vy v)) with ((s * s + c * c) * vx v) by ring. rewrite E. ring.
  - replace (s * (c * vx v - - s * vy v) + c * (- s * vx v + c * vy v)) with ((s * s + c * c) * vy v) by ring. rewrite E. ring.
Qed.
(** Turning by two close angles *)
Lemma turn_near a b v : norm (sub (turn a v) (turn b v)) <= Rabs (a - b) * norm v.
Proof.
  unfold norm. rewrite <- (sqrt_square (Rabs (a - b))) by apply Rabs_pos. rewrite <- sqrt_mult_alt by apply Rle_0_sqr. apply sqrt_le_1_alt.
  pose proof (sin_lip ((a - b) / 2) 0) as S. rewrite sin_0, !Rminus_0_r in S.
  assert (Sq : sin ((a - b) / 2) * sin ((a - b) / 2) <= (a - b) * (a - b) / 4).
  { apply Rsqr_le_abs_1 in S. unfold Rsqr in S. lra. }
  assert (C : cos (a - b) = 1 - 2 * (sin ((a - b) / 2) * sin ((a - b) / 2))).
  { replace (a - b) with (2 * ((a - b) / 2)) at 1 by field. rewrite cos_2a_sin. ring. }
  rewrite cos_minus in C. pose proof (sc a) as Ea. pose proof (sc b) as Eb.
  assert (Q : Rabs (a - b) * Rabs (a - b) = (a - b) * (a - b)) by (rewrite <- Rabs_mult; apply Rabs_pos_eq, Rle_0_sqr). rewrite Q.
  set (w := sin ((a - b) / 2) * sin ((a - b) / 2)) in *. set (d := (a - b) * (a - b)) in *. clearbody w d. destruct v as [x y z].
  assert (E : dot (sub (turn a (V x y z)) (turn b (V x y z))) (sub (turn a (V x y z)) (turn b (V x y z))) = 4 * w * (x * x + y * y)).
  { unfold dot, sub, turn. cbn [vx vy vz]. set (ca := cos a) in *. set (sa := sin a) in *. set (cb := cos b) in *. set (sb := sin b) in *. clearbody ca sa cb sb. clear - C Ea Eb.
    assert (W : 4 * w = (ca - cb) * (ca - cb) + (sa - sb) * (sa - sb)) by lra. rewrite W. ring. }
  rewrite E. unfold dot. cbn [vx vy vz]. assert (0 <= x * x) by apply Rle_0_sqr. assert (0 <= y * y) by apply Rle_0_sqr. assert (0 <= z * z) by apply Rle_0_sqr.
  assert (D0 : 0 <= d - 4 * w) by lra. assert (W0 : 0 <= d) by (rewrite <- Q; apply Rle_0_sqr).
  assert (0 <= (d - 4 * w) * (x * x + y * y)) by (apply Rmult_le_pos; lra). assert (0 <= d * (z * z)) by (apply Rmult_le_pos; lra). lra.
Qed.
Lemma turn_whole a j v : (Z.abs j <= 2)%Z -> turn (a + IZR j * (2 * PI)) v = turn a v.
Proof. intros J. unfold turn. destruct (sin_turn a j J) as (-> & ->). reflexivity. Qed.

Section Numpy.
Variable L : arrays.
Hypothesis G : accurate_arrays L.

(** ** The rotation of the Earth *)
Lemma angle_leaf e : finite e -> 0 <= value e < 360 -> appr (fto e Udeg Urad) (value e * rad_ratio) 100 8.
Proof.
  intros F B. set (f := fdiv (unit_scale Udeg) (unit_scale Urad)).
  assert (H : appr (feval L (Mul (Leaf e (value e) 0 360) (Leaf f rad_ratio (5 * (2 # 100)) (2 # 100)))) (reval (Mul (Leaf e (value e) 0 360) (Leaf f rad_ratio (5 * (2 # 100)) (2 # 100)))) (Q2R 100) (Q2R 8)).
  { apply (check_ok L 100 8 _ G); [cbn [leaves]; split; [|exact rad_leaf]|vm_compute; reflexivity].
    split; auto. rewrite Q2R_0'. replace (Q2R 360) with 360 by (unfold Q2R; cbn; lra). unfold Rminus. rewrite Rplus_opp_r, Rabs_R0. split; [lra|apply Rabs_le; lra]. }
  replace (Q2R 100) with 100 in H by (unfold Q2R; cbn; lra). replace (Q2R 8) with 8 in H by (unfold Q2R; cbn; lra). exact H.
Qed.
Lemma era_angle jd : dated jd -> let e := fearth_rotation_angle jd in
  finite (fto e Udeg Urad) /\ finite (fto (fneg e) Udeg Urad) /\ Rabs (value (fto e Udeg Urad)) <= 9 /\
  value (fto (fneg e) Udeg Urad) = - value (fto e Udeg Urad) /\
  exists j, (Z.abs j <= 1)%Z /\ Rabs (value (fto e Udeg Urad) - (deg_to_rad (earth_rotation_angle (value jd)) + IZR j * (2 * PI))) <= 5.24 / 1000000000.
Proof.
  intros D e. destruct (era_ok jd D) as (Fe & Be & k & Hk). fold e in Fe, Be, Hk. pose proof uu_pos as U. pose proof uu14 as U'.
  pose proof (angle_leaf e Fe Be) as (Fa & Ea & Ba). set (a := fto e Udeg Urad) in *.
  assert (Neg : finite (fto (fneg e) Udeg Urad) /\ value (fto (fneg e) Udeg Urad) = - value a).
  { destruct (fneg_ok e Fe) as (Fn & Vn). destruct rad_leaf as (Ff & Ef & Bf). unfold fto, a.
    set (f := fdiv (unit_scale Udeg) (unit_scale Urad)) in *.
    assert (Vf : Rabs (value f) <= 1). { apply err_abs in Ef. replace (Q2R (5 * (2 # 100))) with (1 / 10) in Ef by (unfold Q2R; cbn; lra). replace (Q2R (2 # 100)) with (2 / 100) in Bf by (unfold Q2R; cbn; lra). lra. }
    assert (P : Rabs (value e * value f) <= 360).
    { rewrite Rabs_mult. replace 360 with (360 * 1) by ring. apply Rmult_le_compat; auto using Rabs_pos. apply Rabs_le; lra. }
    destruct (fmul_ok e f Fe Ff) as (F1 & V1). { apply small_abs. lra. }
    destruct (fmul_ok (fneg e) f Fn Ff) as (F2 & V2). { rewrite Vn, Ropp_mult_distr_l_reverse, Rabs_Ropp. apply small_abs. lra. }
    split; [exact F2|]. unfold fto. fold f. rewrite V1, V2, Vn, Ropp_mult_distr_l_reverse. apply rnd_opp. }
  destruct Neg as (Fn & Vn). split; [exact Fa|]. split; [exact Fn|]. split; [apply err_abs in Ea; nra|]. split; [exact Vn|].
  set (r := era_rate * (value jd - 2451545) + 28046 / 100) in *.
  assert (ER : exists K, earth_rotation_angle (value jd) = r - 360 * IZR K).
  { exists (Int_part (r / 360)). unfold earth_rotation_angle, Rmod, r, era_rate, earth_rotation_rate_deg_per_day, era_at_jd2000_deg, jd2000_date. cbv zeta.
    replace (360.9856123035484 * (value jd - 2451545) + 280.46) with (3609856123035484 / 10000000000000 * (value jd - 2451545) + 28046 / 100) by (decimals; field). reflexivity. }
  destruct ER as (K & ER). pose proof (Rmod_range (earth_rotation_rate_deg_per_day * (value jd - jd2000_date) + era_at_jd2000_deg) 360 ltac:(lra)) as Er.
  fold (earth_rotation_angle (value jd)) in Er. set (E := earth_rotation_angle (value jd)) in *. clearbody E r.
  apply Rabs_le_inv in Hk. set (j := (k + K)%Z). assert (Dj : Rabs (value e - E - IZR j * 360) <= 3 / 10000000) by (unfold j; rewrite plus_IZR; apply Rabs_le; lra).
  exists j. assert (J : (Z.abs j <= 1)%Z).
  { apply Rabs_le_inv in Dj. assert (IZR j < 2) by lra. assert (-2 < IZR j) by lra. apply (lt_IZR j 2) in H. apply (lt_IZR (-2) j) in H0. lia. }
  split; auto. assert (ED : deg_to_rad E = E * rad_ratio) by (unfold deg_to_rad, rad_ratio, deg_per_rad; decimals; reflexivity). rewrite ED.
  pose proof two_pi_off as T. set (d := 360 * rad_ratio - 2 * PI) in *. 
  replace (value a - (E * rad_ratio + IZR j * (2 * PI))) with ((value a - value e * rad_ratio) + ((value e - E - IZR j * 360) * rad_ratio + IZR j * d)) by (unfold d; ring).
  eapply Rle_trans; [apply Rabs_triang|]. eapply Rle_trans; [apply Rplus_le_compat_l, Rabs_triang|]. rewrite !Rabs_mult.
  assert (P1 : Rabs (value e - E - IZR j * 360) * Rabs rad_ratio <= 3 / 10000000 * (17453293 / 1000000000)).
  { apply Rmult_le_compat; auto using Rabs_pos. unfold rad_ratio. apply Rabs_le. lra. }
  assert (P2 : Rabs (IZR j) * Rabs d <= 1 * uu).
  { apply Rmult_le_compat; auto using Rabs_pos. rewrite <- abs_IZR. apply IZR_le. lia. }
  decimals. lra.
Qed.
End Numpy.
