(** The equation of the equinoxes and the equation of time in floating point. *)
From Coq Require Import List ZArith QArith Qreals Reals Lra Lia Psatz Bool.
From Flocq Require Import Core.Core IEEE754.BinarySingleNaN IEEE754.Binary IEEE754.Bits.
From Verif Require Import Py Fl_Model Fl_Spec Fl_Proofs Flg_Model Flg_Spec Time_Model Time_Spec Time_Proofs Rot_Model Rot_Spec Rot_Proofs Flg_Proofs Flg_Num Flg_Proofs2 Flg_Proofs3
  Flc_Model Flc_Spec Flc_Proofs Flc_Proofs2 Flc_Proofs3 Flc_Proofs4 Flc_Proofs5 Flg_Proofs5 Flr_Model Flr_Spec Flx_Expr Flr_Proofs Flr_Proofs2 Flr_Proofs3 Flr_Proofs4 Flr_Proofs5 Flk_Model Flk_Spec Flk_Proofs Flk_Proofs2.
Open Scope R_scope.
#[local] Strategy 1000 [fmul fadd fsub fdiv fneg literal of_Z fpymod].

Lemma tan_lip a b : Rabs a <= 3 / 10 -> Rabs b <= 3 / 10 -> Rabs (tan a - tan b) <= 21 / 10 * Rabs (a - b) /\ Rabs (tan b) <= 1 / 2.
Proof.
  intros A B. assert (C : forall x, Rabs x <= 3 / 10 -> 7 / 10 <= cos x).
  { intros x X. pose proof (cos_lip x 0) as H. rewrite cos_0, Rminus_0_r in H. apply Rabs_le_inv in H. lra. }
  pose proof (C a A) as Ca. pose proof (C b B) as Cb. split.
  - assert (E : tan a - tan b = sin (a - b) * / (cos a * cos b)).
    { unfold tan. rewrite sin_minus. field. split; lra. }
    rewrite E, Rabs_mult. pose proof (sin_lip (a - b) 0) as S. rewrite sin_0, !Rminus_0_r in S.
    assert (I : Rabs (/ (cos a * cos b)) <= 21 / 10).
    { assert (49 / 100 <= cos a * cos b) by nra. rewrite Rabs_pos_eq by (apply Rlt_le, Rinv_0_lt_compat; lra).
      apply Rle_trans with (/ (49 / 100)); [apply Rinv_le_contravar; lra|lra]. }
    rewrite Rmult_comm. apply Rmult_le_compat; auto using Rabs_pos.
  - unfold tan, Rdiv. rewrite Rabs_mult. pose proof (sin_lip b 0) as S. rewrite sin_0, !Rminus_0_r in S.
    assert (I : Rabs (/ cos b) <= 10 / 7) by (rewrite Rabs_pos_eq by (apply Rlt_le, Rinv_0_lt_compat; lra); replace (10 / 7) with (/ (7 / 10)) by field; apply Rinv_le_contravar; lra).
    apply Rle_trans with (3 / 10 * (10 / 7)); [apply Rmult_le_compat; auto using Rabs_pos; lra|lra].
Qed.
Definition deg_leaf : appr (fdiv (unit_scale Urad) (unit_scale Udeg)) (size Urad / size Udeg) (Q2R (5 * (573 # 10))%Q) (Q2R (573 # 10)).
Proof. apply (factor_leaf Urad Udeg); auto. unfold size, Q2R. cbn [Qnum Qden]. split; lra. Qed.

Section Numpy.
Variable L : arrays.
Hypothesis G : accurate_arrays L.
Variable B : more.
Hypothesis H : accurate_more B.
Section Obliquity.
Variables (lo ob me k ad : float) (lor obr mer kr adr : R).
Hypothesis P1 : appr lo lor (Q2R 6100000) (Q2R 19).
Hypothesis P2 : appr ob obr (Q2R 3000000) (Q2R 10).
Hypothesis P3 : appr me mer (Q2R 296) (Q2R (242 # 10)).
Hypothesis K : appr k kr (Q2R (5 * (2 # 100))%Q) (Q2R (2 # 100)).
Hypothesis Ad : appr ad adr (Q2R (5 * (1 # 3600))%Q) (Q2R (1 # 3600)).
Let llo := Leaf lo lor 6100000 19.
Let lob := Leaf ob obr 3000000 10.
Let lme := Leaf me mer 296 (242 # 10).
Let lk := Leaf k kr (5 * (2 # 100)) (2 # 100).
Let lad := Leaf ad adr (5 * (1 # 3600)) (1 # 3600).
Let app := Add lme (Mul lob lad).
Let rad := Mul app lk.
Let half := Over rad 2.
Let eqe := Over (Mul llo (Cos rad)) 15.
Let eqd := Mul eqe lad.
Lemma obliquity_bounds : appr (feval L app) (reval app) (Q2R 1160) (Q2R (243 # 10)) /\ appr (feval L rad) (reval rad) (Q2R 26) (Q2R (1 # 2)) /\
  appr (feval L half) (reval half) (Q2R 14) (Q2R (1 # 4)) /\ appr (feval L eqe) (reval eqe) (Q2R 410000) (Q2R 2) /\ appr (feval L eqd) (reval eqd) (Q2R 120) (Q2R (1 # 1000)).
Proof.
  split; [apply (check_ok L 1160 (243 # 10) _ G)|split; [apply (check_ok L 26 (1 # 2) _ G)|split; [apply (check_ok L 14 (1 # 4) _ G)|split; [apply (check_ok L 410000 2 _ G)|apply (check_ok L 120 (1 # 1000) _ G)]]]];
    try (vm_compute; reflexivity); cbn [leaves app rad half eqe eqd llo lob lme lk lad]; tauto.
Qed.
End Obliquity.
Lemma ad_size x : x * (size Uarcsec / size Udeg) = arcsec_to_deg x.
Proof. unfold arcsec_to_deg, size. field. Qed.
Lemma obliquity_ok jd : dated jd ->
  appr (fapparent_obliquity L jd) (apparent_obliquity (value jd)) (Q2R 1160) (Q2R (243 # 10)) /\
  appr (fto (fapparent_obliquity L jd) Udeg Urad) (deg_to_rad (apparent_obliquity (value jd))) (Q2R 26) (Q2R (1 # 2)) /\
  appr (fdiv (fto (fapparent_obliquity L jd) Udeg Urad) (of_Z 2)) (deg_to_rad (apparent_obliquity (value jd)) / 2) (Q2R 14) (Q2R (1 # 4)) /\
  appr (fequation_of_equinoxes L jd) (equation_of_equinoxes (value jd)) (Q2R 410000) (Q2R 2) /\
  appr (fto (fequation_of_equinoxes L jd) Uarcsec Udeg) (arcsec_to_deg (equation_of_equinoxes (value jd))) (Q2R 120) (Q2R (1 # 1000)).
Proof.
  intros D. destruct (parts_ok L G jd D) as (P1 & P2 & P3 & _).
  destruct (obliquity_bounds _ _ _ _ _ _ _ _ _ _ P1 P2 P3 rad_leaf ad_leaf) as (A1 & A2 & A3 & A4 & A5). cbn [reval] in A1, A2, A3, A4, A5.
  rewrite ?ad_size in A1, A2, A3, A4, A5. fold (apparent_obliquity (value jd)) in A1, A2, A3, A4, A5. rewrite <- ?deg_to_rad_ratio in A2, A3, A4, A5.
  fold (equation_of_equinoxes (value jd)) in A4, A5.
  split; [exact A1|split; [exact A2|split; [exact A3|split; [exact A4|exact A5]]]].
Qed.
Lemma tan_ok x r : appr x r (Q2R 14) (Q2R (1 # 4)) -> appr (n_tan B x) (tan r) (Q2R 40) (Q2R (1 # 2)).
Proof.
  intros (F & E & Bd). pose proof uu_pos as U. pose proof uu14 as U'. rewrite Q2R_int in *. replace (Q2R (1 # 4)) with (1 / 4) in Bd by (unfold Q2R; cbn; lra). replace (Q2R (1 # 2)) with (1 / 2) by (unfold Q2R; cbn; lra).
  pose proof (err_abs _ _ _ E) as Ex. destruct (np_tan_good B H x F ltac:(lra)) as (Ft & Et).
  destruct (tan_lip (value x) r ltac:(lra) ltac:(lra)) as (Lp & T). split; auto. split; auto.
  eapply Rle_trans; [apply (err_trans _ _ _ _ _ Et Lp)|]. assert (/ 2 ^ 50 = 8 * uu) by (rewrite uu_value; lra). lra.
Qed.

(** ** The equation of time *)
Section Eot.
Variables (d k s1 s2 tn su dg : float) (r kr s1r s2r tnr sur dgr : R).
Hypothesis D : appr d r (Q2R 0) (Q2R 1742758).
Hypothesis K : appr k kr (Q2R (5 * (2 # 100))%Q) (Q2R (2 # 100)).
Hypothesis S1 : appr s1 s1r (Q2R (400000 + 4)%Q) (Q2R 1).
Hypothesis S2 : appr s2 s2r (Q2R (800000 + 4)%Q) (Q2R 1).
Hypothesis Tn : appr tn tnr (Q2R 40) (Q2R (1 # 2)).
Hypothesis Su : appr su sur (Q2R 18000000) (Q2R 1720000).
Hypothesis Dg : appr dg dgr (Q2R (5 * (573 # 10))%Q) (Q2R (573 # 10)).
Let t (p : nat) := Pow (Over (Leaf d r 0 1742758) 36525) p.
Let lk := Leaf k kr (5 * (2 # 100)) (2 # 100).
Let ls1 := Leaf s1 s1r (400000 + 4) 1.
Let ls2 := Leaf s2 s2r (800000 + 4) 1.
Let ltn := Leaf tn tnr 40 (1 # 2).
Let lsu := Leaf su sur 18000000 1720000.
Let ldg := Leaf dg dgr (5 * (573 # 10)) (573 # 10).
Let l := Mul lsu lk.
Let e := Sub (Sub (Dec 16708634 1000000000) (Mul (Dec 42037 1000000000) (t 1%nat))) (Mul (Dec 1267 10000000000) (Pow (t 1%nat) 2)).
Let y := Pow ltn 2.
Let e1 := Mul y (Sin (Mul (Whole 2) l)).
Let e2 := Mul (Mul (Whole (-2)) e) ls1.
Let e3 := Mul (Mul (Mul (Mul (Whole 4) e) y) ls1) (Cos (Mul (Whole 2) l)).
Let e4 := Mul (Mul (Neg (Dec 5 10)) (Pow y 2)) (Sin (Mul (Whole 4) l)).
Let e5 := Mul (Mul (Neg (Dec 125 100)) (Pow e 2)) ls2.
Let eot := Add (Add (Add (Add e1 e2) e3) e4) e5.
Let eod := Mul eot ldg.
Lemma eot_bounds : appr (feval L eot) (reval eot) (Q2R 430000) (Q2R (1 # 2)) /\ appr (feval L eod) (reval eod) (Q2R 25000000) (Q2R 20).
Proof.
  split; [apply (check_ok L 430000 (1 # 2) _ G)|apply (check_ok L 25000000 20 _ G)]; try (vm_compute; reflexivity); cbn [leaves eod eot e1 e2 e3 e4 e5 e y l t lk ls1 ls2 ltn lsu ldg]; tauto.
Qed.
End Eot.
Lemma deg_size x : x * (size Urad / size Udeg) = rad_to_deg x.
Proof. unfold rad_to_deg, size, deg_per_rad. decimals. field. Qed.
Lemma eot_ok jd : dated jd ->
  appr (fequation_of_time L B jd) (equation_of_time (value jd)) (Q2R 430000) (Q2R (1 # 2)) /\
  appr (fto (fequation_of_time L B jd) Urad Udeg) (rad_to_deg (equation_of_time (value jd))) (Q2R 25000000) (Q2R 20).
Proof.
  intros D. destruct (parts_ok L G jd D) as (_ & _ & _ & Su). destruct (anomaly_trig L G jd D) as (S1 & S2 & _).
  destruct (obliquity_ok jd D) as (_ & _ & Hf & _). apply tan_ok in Hf.
  destruct (eot_bounds _ _ _ _ _ _ _ _ _ _ _ _ _ _ (days_leaf jd D) rad_leaf S1 S2 Hf Su deg_leaf) as (A1 & A2). cbn [reval] in A1, A2.
  rewrite deg_size in A2. rewrite <- ?deg_to_rad_ratio in A1, A2.
  match type of A1 with appr _ ?x _ _ => assert (E : equation_of_time (value jd) = x) end.
  { unfold equation_of_time, earth_eccentricity. cbv zeta. change (centuries (value jd)) with ((value jd - 2451545) / 36525).
    set (c := (value jd - 2451545) / 36525). set (y := tan _). set (l := deg_to_rad (mean_longitude_of_sun (value jd))). set (m := deg_to_rad (mean_anomaly_of_sun (value jd))).
    set (z1 := sin (2 * l)). set (z2 := sin (4 * l)). set (z3 := cos (2 * l)). set (z4 := sin m). set (z5 := sin (2 * m)). clearbody c y z1 z2 z3 z4 z5. rewrite pow_1. decimals. field. }
  rewrite <- E in A1, A2. split; [exact A1|exact A2].
Qed.
End Numpy.
