(** The accuracy of the angles of precession, nutation and rotation. *)
From Coq Require Import List ZArith QArith Qreals Reals Lra Lia Psatz Bool.
From Flocq Require Import Core.Core IEEE754.BinarySingleNaN IEEE754.Binary IEEE754.Bits.
From Verif Require Import Py Fl_Model Fl_Spec Fl_Proofs Flg_Model Flg_Spec Time_Model Time_Spec Time_Proofs Rot_Model Rot_Spec Rot_Proofs Flg_Proofs Flg_Num Flg_Proofs2 Flg_Proofs3
  Flc_Model Flc_Spec Flc_Proofs Flc_Proofs2 Flc_Proofs3 Flc_Proofs4 Flc_Proofs5 Flg_Proofs5 Flr_Model Flr_Spec Flx_Expr Flr_Proofs Flr_Proofs2.
Open Scope R_scope.
#[local] Strategy 1000 [fmul fadd fsub fdiv fneg literal of_Z fpymod].

Ltac decimals := unfold Q2R; cbn [QArith_base.Qnum QArith_base.Qden].
Definition rad_ratio : R := 1 / (5729577951308232 / 100000000000000).
Definition sec_ratio : R := 1 / 3600 / (5729577951308232 / 100000000000000).
Lemma appr_ge x r e b e' b' : appr x r e b -> e <= e' -> b <= b' -> appr x r e' b'. Proof. apply appr_le. Qed.
(** ** Leaves *)
Lemma days_leaf jd : dated jd -> appr (fsub jd (of_Z 2451545)) (value jd - 2451545) (Q2R 0) (Q2R 1742758).
Proof.
  intros D. pose proof D as (Fx & Bx). destruct (of_Z_ok 2451545 ltac:(lia)) as (Fo & Vo).
  destruct (fsub_ok jd (of_Z 2451545) Fx Fo) as (Fd & Vd). { rewrite Vo. apply small_abs, Rabs_le. lra. }
  split; auto. replace (Q2R 1742758) with 1742758 by (unfold Q2R; cbn; lra). rewrite Q2R_0'. split; [|apply Rabs_le; lra].
  rewrite Vd, Vo. destruct (dated_grid jd D) as (k & E & K). rewrite E.
  replace (IZR k * ww - 2451545) with (IZR (k - 2451545 * 2147483648) * ww) by (rewrite minus_IZR, mult_IZR; unfold ww; lra).
  rewrite (rnd_fmt (IZR (k - 2451545 * 2147483648) * ww)) by (apply fmt_ww; lia). rewrite Rminus_eq_0, Rabs_R0. lra.
Qed.
Lemma factor_leaf a b q : kind_of a = kind_of b -> 0 <= size a / size b <= Q2R q ->
  appr (fdiv (unit_scale a) (unit_scale b)) (size a / size b) (Q2R (5 * q)%Q) (Q2R q).
Proof.
  intros K B. destruct (factor_ok a b K) as (F & O). rewrite Q2R_mult. replace (Q2R 5) with 5 by (unfold Q2R; cbn; lra).
  apply appr_off; auto; [rewrite Rabs_pos_eq; lra|lra].
Qed.
Lemma radians_leaf : appr (fdiv (literal 3141592653589793 1000000000000000) (of_Z 180)) (PI / 180) (Q2R (1 # 10)) (Q2R (2 # 100)).
Proof.
  destruct (literal_rnd 3141592653589793 1000000000000000) as (Fl & Vl); try lia. pose proof uu_value as Uv. pose proof PI_near as Pn.
  pose proof (rnd_err_pos (3141592653589793 / 1000000000000000) ltac:(lra)) as E1. rewrite <- Vl in E1. rewrite Uv in E1.
  destruct (of_Z_ok 180 ltac:(lia)) as (Fz & Vz).
  set (p := literal 3141592653589793 1000000000000000) in *. clearbody p.
  destruct (fdiv_ok p (of_Z 180) Fl) as (Fd & Vd). { rewrite Vz; lra. } { rewrite Vz. apply small_abs, Rabs_le. lra. }
  split; auto. rewrite Vd, Vz.
  assert (B : 174 / 10000 <= value p / 180 <= 175 / 10000) by (clear - E1; lra).
  pose proof (rnd_err_pos (value p / 180) ltac:(clear - B; lra)) as E2. rewrite Uv in E2. set (z := rnd (value p / 180)) in *. clearbody z.
  unfold Q2R. cbn [Qnum Qden]. rewrite Uv. split; apply Rabs_le; clear - E1 E2 B Pn; lra.
Qed.
Lemma two_pi_off : Rabs (360 * rad_ratio - 2 * PI) <= uu.
Proof. pose proof PI_near. rewrite uu_value. unfold rad_ratio. apply Rabs_le. split; lra. Qed.
Lemma sin_turn x j : (Z.abs j <= 2)%Z -> sin (x + IZR j * (2 * PI)) = sin x /\ cos (x + IZR j * (2 * PI)) = cos x.
Proof.
  intros J. assert (H : forall y n, sin (y + INR n * (2 * PI)) = sin y /\ cos (y + INR n * (2 * PI)) = cos y).
  { intros y n. replace (y + INR n * (2 * PI)) with (y + 2 * INR n * PI) by ring. split; [apply sin_period|apply cos_period]. }
  destruct (Z_lt_le_dec j 0) as [N|N].
  - destruct (H (x + IZR j * (2 * PI)) (Z.to_nat (- j))) as (A & B). rewrite INR_IZR_INZ, Z2Nat.id, opp_IZR in A, B by lia.
    replace (x + IZR j * (2 * PI) + - IZR j * (2 * PI)) with x in A, B by ring. auto.
  - specialize (H x (Z.to_nat j)). now rewrite INR_IZR_INZ, Z2Nat.id in H by lia.
Qed.
(** A whole turn in degrees more or less *)
Lemma trig_turn k n j : (Z.abs j <= 1)%Z -> (k = 1 \/ k = 2)%Z ->
  Rabs (sin (IZR k * ((n + IZR j * 360) * rad_ratio)) - sin (IZR k * (n * rad_ratio))) <= 2 * uu /\
  Rabs (cos (IZR k * ((n + IZR j * 360) * rad_ratio)) - cos (IZR k * (n * rad_ratio))) <= 2 * uu.
Proof.
  intros J K. set (d := 360 * rad_ratio - 2 * PI). assert (Dd : Rabs d <= uu) by exact two_pi_off.
  replace (IZR k * ((n + IZR j * 360) * rad_ratio)) with ((IZR k * (n * rad_ratio) + IZR (k * j) * d) + IZR (k * j) * (2 * PI)) by (rewrite mult_IZR; unfold d; ring).
  destruct (sin_turn (IZR k * (n * rad_ratio) + IZR (k * j) * d) (k * j) ltac:(lia)) as (-> & ->).
  set (x := IZR k * (n * rad_ratio)). assert (E : Rabs (IZR (k * j) * d) <= 2 * uu).
  { rewrite Rabs_mult. apply Rmult_le_compat; auto using Rabs_pos. rewrite <- abs_IZR. apply IZR_le. lia. }
  split; [eapply Rle_trans; [apply sin_lip|]|eapply Rle_trans; [apply cos_lip|]]; replace (x + IZR (k * j) * d - x) with (IZR (k * j) * d) by ring; exact E.
Qed.

Section Numpy.
Variable L : arrays.
Hypothesis G : accurate_arrays L.

(** ** Precession *)
Section Poly.
Variables (d f : float) (r q : R).
Hypothesis D : appr d r (Q2R 0) (Q2R 1742758).
Hypothesis F : appr f q (Q2R (5 * (1 # 200000))%Q) (Q2R (1 # 200000)).
Let t (p : nat) := Pow (Over (Leaf d r 0 1742758) 36525) p.
Let k := Leaf f q (5 * (1 # 200000)) (1 # 200000).
Definition ezeta (t : nat -> expr) : expr :=
  Sub (Sub (Add (Add (Add (Dec 259796176 100000000) (Mul (Dec 23060809506 10000000) (t 1%nat)))
    (Mul (Dec 3019015 10000000) (t 2%nat))) (Mul (Dec 179663 10000000) (t 3%nat)))
    (Mul (Dec 327 10000000) (t 4%nat))) (Mul (Dec 2 10000000) (t 5%nat)).
Definition etheta (t : nat -> expr) : expr :=
  Sub (Sub (Sub (Sub (Mul (Dec 20041917476 10000000) (t 1%nat)) (Mul (Dec 4269353 10000000) (t 2%nat)))
    (Mul (Dec 418251 10000000) (t 3%nat))) (Mul (Dec 601 10000000) (t 4%nat))) (Mul (Dec 1 10000000) (t 5%nat)).
Definition ez (t : nat -> expr) : expr :=
  Sub (Add (Add (Add (Add (Neg (Dec 25976176 10000000)) (Mul (Dec 23060803226 10000000) (t 1%nat)))
    (Mul (Dec 10947790 10000000) (t 2%nat))) (Mul (Dec 182273 10000000) (t 3%nat)))
    (Mul (Dec 470 10000000) (t 4%nat))) (Mul (Dec 3 10000000) (t 5%nat)).
Lemma zeta_bound : appr (feval L (Mul (ezeta t) k)) (reval (Mul (ezeta t) k)) (Q2R 1000) (Q2R 3).
Proof. apply (check_ok L 1000 3 _ G); [cbn [leaves ezeta t k]; tauto|vm_compute; reflexivity]. Qed.
Lemma theta_bound : appr (feval L (Mul (etheta t) k)) (reval (Mul (etheta t) k)) (Q2R 1000) (Q2R 3).
Proof. apply (check_ok L 1000 3 _ G); [cbn [leaves etheta t k]; tauto|vm_compute; reflexivity]. Qed.
Lemma z_bound : appr (feval L (Neg (Mul (ez t) k))) (reval (Neg (Mul (ez t) k))) (Q2R 1000) (Q2R 3).
Proof. apply (check_ok L 1000 3 _ G); [cbn [leaves ez t k]; tauto|vm_compute; reflexivity]. Qed.
End Poly.
Lemma Q1000 : Q2R 1000 = 1000. Proof. unfold Q2R; cbn; lra. Qed.
Lemma Q3 : Q2R 3 = 3. Proof. unfold Q2R; cbn; lra. Qed.
Lemma sec_leaf : appr (fdiv (unit_scale Uarcsec) (unit_scale Urad)) sec_ratio (Q2R (5 * (1 # 200000))%Q) (Q2R (1 # 200000)).
Proof. apply (factor_leaf Uarcsec Urad); auto. unfold size, Q2R. cbn [Qnum Qden]. split; lra. Qed.
Lemma rad_leaf : appr (fdiv (unit_scale Udeg) (unit_scale Urad)) rad_ratio (Q2R (5 * (2 # 100))%Q) (Q2R (2 # 100)).
Proof. apply (factor_leaf Udeg Urad); auto. unfold size, Q2R. cbn [Qnum Qden]. split; lra. Qed.
Ltac same := cbn [reval ezeta etheta ez]; unfold arcsec_to_rad, zeta_precession_angle, theta_precession_angle, z_precession_angle, sec_ratio, deg_per_rad, centuries, jd2000_date, days_in_century; set (c := (_ - 2451545) / 36525); clearbody c; decimals; field.
Lemma zeta_ok jd : dated jd -> appr (fto (fzeta L jd) Uarcsec Urad) (arcsec_to_rad (zeta_precession_angle (value jd))) 1000 3.
Proof.
  intros D. pose proof (zeta_bound _ _ _ _ (days_leaf jd D) sec_leaf) as H. rewrite Q1000, Q3 in H.
  match type of H with appr _ ?x _ _ => assert (E : arcsec_to_rad (zeta_precession_angle (value jd)) = x) end. { same. }
  rewrite E. exact H.
Qed.
Lemma theta_ok jd : dated jd -> appr (fto (ftheta L jd) Uarcsec Urad) (arcsec_to_rad (theta_precession_angle (value jd))) 1000 3.
Proof.
  intros D. pose proof (theta_bound _ _ _ _ (days_leaf jd D) sec_leaf) as H. rewrite Q1000, Q3 in H.
  match type of H with appr _ ?x _ _ => assert (E : arcsec_to_rad (theta_precession_angle (value jd)) = x) end. { same. }
  rewrite E. exact H.
Qed.
Lemma z_ok jd : dated jd -> appr (fneg (fto (fz_angle L jd) Uarcsec Urad)) (- arcsec_to_rad (z_precession_angle (value jd))) 1000 3.
Proof.
  intros D. pose proof (z_bound _ _ _ _ (days_leaf jd D) sec_leaf) as H. rewrite Q1000, Q3 in H.
  match type of H with appr _ ?x _ _ => assert (E : - arcsec_to_rad (z_precession_angle (value jd)) = x) end. { same. }
  rewrite E. exact H.
Qed.

(** ** Bias *)
Section Bias.
Variables (f : float) (q : R).
Hypothesis F : appr f q (Q2R (1 # 10)) (Q2R (2 # 100)).
Let k := Leaf f q (1 # 10) (2 # 100).
Definition b1 (k : expr) := Mul (Over (Neg (Dec 1460 100000)) 3600) k.
Definition b2 (k : expr) := Mul (Over (Neg (Dec 166170 10000000)) 3600) k.
Definition b3 (k : expr) := Mul (Over (Neg (Neg (Dec 68192 10000000))) 3600) k.
Lemma bias_bounds : appr (feval L (b1 k)) (reval (b1 k)) (Q2R 1000) (Q2R 3) /\ appr (feval L (b2 k)) (reval (b2 k)) (Q2R 1000) (Q2R 3) /\ appr (feval L (b3 k)) (reval (b3 k)) (Q2R 1000) (Q2R 3).
Proof. split; [|split]; (apply (check_ok L 1000 3 _ G); [cbn [leaves b1 b2 b3 k]; tauto|vm_compute; reflexivity]). Qed.
End Bias.
Lemma bias_angles :
  appr (fradians (fdiv (fneg (literal 1460 100000)) (of_Z 3600))) (radians (-0.01460 / 3600)) 1000 3 /\
  appr (fradians (fdiv (fneg (literal 166170 10000000)) (of_Z 3600))) (radians (-0.0166170 / 3600)) 1000 3 /\
  appr (fradians (fdiv (fneg (fneg (literal 68192 10000000))) (of_Z 3600))) (radians (- -0.0068192 / 3600)) 1000 3.
Proof.
  destruct (bias_bounds _ _ radians_leaf) as (A & B & C). rewrite Q1000, Q3 in A, B, C.
  match type of A with appr _ ?x _ _ => replace x with (radians (-0.01460 / 3600)) in A by (cbn [reval b1]; unfold radians; decimals; field) end.
  match type of B with appr _ ?x _ _ => replace x with (radians (-0.0166170 / 3600)) in B by (cbn [reval b2]; unfold radians; decimals; field) end.
  match type of C with appr _ ?x _ _ => replace x with (radians (- -0.0068192 / 3600)) in C by (cbn [reval b3]; unfold radians; decimals; field) end.
  split; [exact A|split; [exact B|exact C]].
Qed.
End Numpy.
