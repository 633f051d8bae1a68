(** The right ascension of the sun in floating point. *)
From Coq Require Import List ZArith QArith Qreals Reals Lra Lia Psatz Bool.
From Flocq Require Import Core.Core IEEE754.BinarySingleNaN IEEE754.Binary IEEE754.Bits.
From Verif Require Import Py Fl_Model Fl_Spec Fl_Proofs Flg_Model Flg_Spec Time_Model Time_Spec Time_Proofs Rot_Model Rot_Spec Rot_Proofs Flg_Proofs Flg_Num Flg_Proofs2 Flg_Proofs3
  Flc_Model Flc_Spec Flc_Proofs Flc_Proofs2 Flc_Proofs3 Flc_Proofs4 Flc_Proofs5 Flg_Proofs5 Flr_Model Flr_Spec Flx_Expr Flr_Proofs Flr_Proofs2 Flr_Proofs3 Flr_Proofs4 Flr_Proofs5 Lvlh_Props2 Flk_Model Flk_Spec Flk_Proofs Flk_Proofs2 Flk_Proofs3 Flk_Proofs4.
Open Scope R_scope.
#[local] Strategy 1000 [fmul fadd fsub fdiv fneg literal of_Z fpymod].

(** Two points close to each other and far from the origin have angles close to each other. *)
Lemma half_sin t : Rabs t <= PI / 2 -> Rabs t <= 2 * Rabs (sin t).
Proof.
  assert (P : forall u, 0 <= u <= PI / 2 -> u <= 2 * sin u).
  { intros u U. pose proof PI_near. pose proof (sin_lower u ltac:(lra)). assert (u * u <= 5 / 2) by nra. assert (u * (u * u) <= u * (5 / 2)) by nra. lra. }
  intros T. unfold Rabs at 1 in T. unfold Rabs at 1. destruct (Rcase_abs t).
  - specialize (P (- t) ltac:(lra)). rewrite sin_neg in P. pose proof (Rle_abs (- sin t)) as A. rewrite Rabs_Ropp in A. lra.
  - specialize (P t ltac:(lra)). pose proof (Rle_abs (sin t)). lra.
Qed.
Lemma cos_near d s : 0 <= s -> 1 - cos d <= 2 * (s * s) -> exists k, Rabs (d - IZR k * (2 * PI)) <= 4 * s.
Proof.
  intros S H. pose proof PI_near as P. set (k := Int_part ((d + PI) / (2 * PI))). exists k.
  pose proof (Rmod_range (d + PI) (2 * PI) ltac:(lra)) as R. unfold Rmod in R. fold k in R.
  set (t := (d - IZR k * (2 * PI)) / 2). assert (T : Rabs t <= PI / 2) by (apply Rabs_le; unfold t; lra).
  assert (E : cos d = 1 - 2 * (sin t * sin t)).
  { replace (cos d) with (cos (2 * t)). - rewrite cos_2a_sin. ring. - replace (2 * t) with (d + IZR (- k) * (2 * PI)) by (unfold t; rewrite opp_IZR; field). apply sin_turns. }
  apply half_sin in T. assert (Q : Rabs (sin t) <= s). { assert (W : Rsqr (sin t) <= Rsqr s) by (unfold Rsqr; lra). apply Rsqr_le_abs_0 in W. rewrite (Rabs_pos_eq s) in W; lra. }
  replace (d - IZR k * (2 * PI)) with (2 * t) by (unfold t; field). rewrite Rabs_mult, (Rabs_pos_eq 2) by lra. lra.
Qed.
Lemma atan2_near y x y' x' h : 3 / 4 <= y * y + x * x -> Rabs x <= 1 -> Rabs y <= 1 -> 0 <= h <= 1 / 100 -> Rabs (y' - y) <= h -> Rabs (x' - x) <= h ->
  apart_at_most (2 * PI) (4 * h) (atan2 y' x') (atan2 y x) /\ (x' <> 0 \/ y' <> 0).
Proof.
  intros N X Y Hh Dy Dx. apply Rabs_le_inv in X, Y, Dy, Dx.
  assert (N' : 1 / 2 <= y' * y' + x' * x').
  { assert (y' * y' >= y * y - 2 * h) by (set (d := y' - y) in *; replace y' with (y + d) by (unfold d; ring); clearbody d; nra).
    assert (x' * x' >= x * x - 2 * h) by (set (d := x' - x) in *; replace x' with (x + d) by (unfold d; ring); clearbody d; nra). lra. }
  split; [|destruct (Req_dec x' 0) as [-> |]; [|tauto]; destruct (Req_dec y' 0) as [-> |]; [lra|tauto]].
  assert (Sq : forall u, 1 / 2 <= u -> 1 / 2 <= sqrt u /\ sqrt u * sqrt u = u).
  { intros u U. assert (E : sqrt u * sqrt u = u) by (apply sqrt_sqrt; lra). split; auto. pose proof (sqrt_pos u). nra. }
  destruct (Sq _ N') as (P' & E'). destruct (Sq (y * y + x * x) ltac:(lra)) as (P & E). set (r := sqrt (y * y + x * x)) in *. set (r' := sqrt (y' * y' + x' * x')) in *. clearbody r r'.
  assert (P2 : 8 / 10 <= r) by nra. assert (P2' : 7 / 10 <= r') by nra.
  destruct (atan2_sin_cos y x r ltac:(lra) E) as (S & C). destruct (atan2_sin_cos y' x' r' ltac:(lra) E') as (S' & C').
  assert (K : 1 - cos (atan2 y' x' - atan2 y x) <= 2 * (h * h)).
  { rewrite cos_minus, S, C, S', C'. replace (x' / r' * (x / r) + y' / r' * (y / r)) with ((x' * x + y' * y) / (r * r')) by (field; split; lra).
    assert (rr : 56 / 100 <= r * r') by nra.
    assert (Dd : r * r' - (x' * x + y' * y) <= h * h).
    { assert (A1 : (y' - y) * (y' - y) <= h * h) by nra. assert (A2 : (x' - x) * (x' - x) <= h * h) by nra. pose proof (Rle_0_sqr (r - r')) as A3. unfold Rsqr in A3. nra. }
    set (p := x' * x + y' * y) in *. set (q := r * r') in *. clearbody p q. apply (Rmult_le_reg_r q); [lra|]. unfold Rdiv. rewrite Rmult_minus_distr_r, Rmult_assoc, Rinv_l by lra.
    pose proof (Rle_0_sqr h) as Hs. unfold Rsqr in Hs. set (w := h * h) in *. clearbody w. nra. }
  destruct (cos_near _ h ltac:(lra) K) as (k & Ek). exists k. exact Ek.
Qed.

Section Numpy.
Variable L : arrays.
Hypothesis G : accurate_arrays L.
Variable B : more.
Hypothesis H : accurate_more B.
Section Ascension.
Variables (d k s1 s2 s3 su me p : float) (r kr s1r s2r s3r sur mer pr : R).
Hypothesis D : appr d r (Q2R 0) (Q2R 1742758).
Hypothesis K : appr k kr (Q2R (5 * (2 # 100))%Q) (Q2R (2 # 100)).
Hypothesis S1 : appr s1 s1r (Q2R (400000 + 4)%Q) (Q2R 1).
Hypothesis S2 : appr s2 s2r (Q2R (800000 + 4)%Q) (Q2R 1).
Hypothesis S3 : appr s3 s3r (Q2R (1200000 + 4)%Q) (Q2R 1).
Hypothesis Su : appr su sur (Q2R 18000000) (Q2R 1720000).
Hypothesis Me : appr me mer (Q2R 296) (Q2R (242 # 10)).
Hypothesis P : appr p pr (Q2R (1 # 10)) (Q2R (2 # 100)).
Let t (p : nat) := Pow (Over (Leaf d r 0 1742758) 36525) p.
Let lk := Leaf k kr (5 * (2 # 100)) (2 # 100).
Let ls1 := Leaf s1 s1r (400000 + 4) 1.
Let ls2 := Leaf s2 s2r (800000 + 4) 1.
Let ls3 := Leaf s3 s3r (1200000 + 4) 1.
Let lsu := Leaf su sur 18000000 1720000.
Let lme := Leaf me mer 296 (242 # 10).
Let lp := Leaf p pr (1 # 10) (2 # 100).
Let center := Add (Add (Mul (Sub (Sub (Dec 1914602 1000000) (Mul (Dec 4817 1000000) (t 1%nat))) (Mul (Dec 14 1000000) (t 2%nat))) ls1)
  (Mul (Sub (Dec 19993 1000000) (Mul (Dec 101 1000000) (t 1%nat))) ls2)) (Mul (Dec 289 1000000) ls3).
Let lam := Mul (Add lsu center) lp.
Let ey := Mul (Cos (Mul lme lk)) (Sin lam).
Let ex := Cos lam.
Lemma ascension_bounds : appr (feval L ey) (reval ey) (Q2R 620000) (Q2R (11 # 10)) /\ appr (feval L ex) (reval ex) (Q2R 620000) (Q2R 1).
Proof.
  split; [apply (check_ok L 620000 (11 # 10) _ G)|apply (check_ok L 620000 1 _ G)]; try (vm_compute; reflexivity); cbn [leaves ex ey lam center t lk ls1 ls2 ls3 lsu lme lp]; tauto.
Qed.
End Ascension.
(** The point of the plane whose angle is the right ascension *)
Definition sun_longitude (jd : R) : R :=
  let m := deg_to_rad (mean_anomaly_of_sun jd) in let t := centuries jd in
  radians (mean_longitude_of_sun jd + ((1.914602 - 0.004817 * t - 0.000014 * t ^ 2) * sin m + (0.019993 - 0.000101 * t) * sin (2 * m) + 0.000289 * sin (3 * m))).
Definition sun_angle (jd : R) : R := atan2 (cos (deg_to_rad (mean_obliquity jd)) * sin (sun_longitude jd)) (cos (sun_longitude jd)).
Lemma sun_angle_mod jd : sun_right_ascension jd = Rmod (sun_angle jd) (2 * PI). Proof. reflexivity. Qed.
Lemma obliquity_cos jd : dated jd -> 9 / 10 <= cos (deg_to_rad (mean_obliquity (value jd))) <= 1.
Proof.
  intros D. destruct (parts_ok L G jd D) as (_ & _ & (_ & _ & Bd) & _). replace (Q2R (242 # 10)) with (242 / 10) in Bd by (unfold Q2R; cbn; lra).
  rewrite deg_to_rad_ratio. set (o := mean_obliquity (value jd)) in *. clearbody o. split; [|apply COS_bound].
  set (x := o * rad_ratio). replace (cos x) with (1 - 2 * (sin (x / 2) * sin (x / 2))).
  2:{ replace x with (2 * (x / 2)) at 3 by field. rewrite cos_2a_sin. ring. }
  assert (K : 0 < rad_ratio <= 175 / 10000) by (unfold rad_ratio; lra). apply Rabs_le_inv in Bd.
  assert (X : Rabs (x / 2) <= 213 / 1000) by (apply Rabs_le; unfold x; nra). pose proof (sin_lip (x / 2) 0) as S. rewrite sin_0, !Rminus_0_r in S.
  assert (S' : Rabs (sin (x / 2)) <= 213 / 1000) by lra. apply Rabs_le_inv in S'. nra.
Qed.
Lemma arctan_ok jd : dated jd -> exists alpha, fsun_right_ascension L B jd = fpymod alpha (fmul (of_Z 2) fpi) /\
  finite alpha /\ Rabs (value alpha) <= 22 / 7 /\ apart_at_most (2 * PI) (2800 / 10 ^ 13) (value alpha) (sun_angle (value jd)).
Proof.
  intros D. destruct (parts_ok L G jd D) as (_ & _ & Me & Su). destruct (anomaly_trig L G jd D) as (S1 & S2 & S3). pose proof (obliquity_cos jd D) as Oc.
  destruct (ascension_bounds _ _ _ _ _ _ _ _ _ _ _ _ _ _ _ _ (days_leaf jd D) rad_leaf S1 S2 S3 Su Me radians_leaf) as (Y & X). cbn [reval] in X, Y.
  rewrite <- ?deg_to_rad_ratio in X, Y.
  match type of X with appr _ (cos ?x) _ _ => assert (E : x = sun_longitude (value jd)) end.
  { unfold sun_longitude. cbv zeta. change (centuries (value jd)) with ((value jd - 2451545) / 36525). unfold radians.
    set (c := (value jd - 2451545) / 36525). set (m := deg_to_rad (mean_anomaly_of_sun (value jd))). set (z1 := sin m). set (z2 := sin (2 * m)). set (z3 := sin (3 * m)). clearbody c z1 z2 z3.
    apply (f_equal (fun u => u * (PI / 180))). rewrite pow_1. decimals. field. }
  rewrite E in X, Y. destruct Y as (Fy & Ey & By). destruct X as (Fx & Ex & Bx). rewrite Q2R_int in Ex, Ey. rewrite Q2R_1' in Bx. clear By.
  match type of Fy with finite ?a => set (y := a) in * end. match type of Fx with finite ?a => set (x := a) in * end.
  exists (n_arctan2 B y x). split; [reflexivity|].
  assert (P : 3 / 4 <= (cos (deg_to_rad (mean_obliquity (value jd))) * sin (sun_longitude (value jd))) * (cos (deg_to_rad (mean_obliquity (value jd))) * sin (sun_longitude (value jd))) + cos (sun_longitude (value jd)) * cos (sun_longitude (value jd))).
  { pose proof (sin2_cos2 (sun_longitude (value jd))) as Q. unfold Rsqr in Q. set (c := cos (deg_to_rad _)) in *. set (s := sin _) in *. set (q := cos _) in *. clearbody c s q. assert (81 / 100 <= c * c) by nra.
    pose proof (Rle_0_sqr s) as A1. pose proof (Rle_0_sqr q) as A2. unfold Rsqr in A1, A2. nra. }
  assert (By : Rabs (cos (deg_to_rad (mean_obliquity (value jd))) * sin (sun_longitude (value jd))) <= 1).
  { rewrite Rabs_mult. replace 1 with (1 * 1) by ring. apply Rmult_le_compat; auto using Rabs_pos; apply Rabs_le; [lra|apply SIN_bound]. }
  pose proof uu_value as U. pose proof uu_pos as U0.
  destruct (atan2_near _ _ (value y) (value x) (620000 * uu) P Bx By) as (A & Nz); [rewrite U; lra|exact Ey|exact Ex|].
  destruct (np_arctan2_good B H y x Fy Fx Nz) as (Fa & Ba & k & Ka). split; [exact Fa|]. split; [exact Ba|].
  destruct A as (j & A). fold (sun_angle (value jd)) in A. exists (k + j)%Z. rewrite plus_IZR. clearbody x y.
  match type of Fa with finite ?a => set (al := a) in * end. clearbody al. set (a1 := atan2 (value y) (value x)) in *. clearbody a1.
  replace (value al - sun_angle (value jd) - (IZR k + IZR j) * (2 * PI)) with ((value al - a1 - IZR k * (2 * PI)) + (a1 - sun_angle (value jd) - IZR j * (2 * PI))) by ring.
  eapply Rle_trans; [apply Rabs_triang|]. rewrite U in A. lra.
Qed.
(** [2 * np.pi] is a little less than a turn. *)
Lemma two_fpi : finite (fmul (of_Z 2) fpi) /\ 2 * PI - / 10 ^ 14 <= value (fmul (of_Z 2) fpi) <= 2 * PI.
Proof.
  destruct (literal_rnd 3141592653589793 1000000000000000) as (Fl & Vl); try lia. fold fpi in Fl, Vl. pose proof uu_value as Uv. pose proof PI_near as Pn.
  pose proof (rnd_err_pos (3141592653589793 / 1000000000000000) ltac:(lra)) as E1. rewrite <- Vl in E1. rewrite Uv in E1.
  assert (A : value fpi <= IZR 884279719003555 * bpow radix2 (-48)). { rewrite Vl. apply rnd_le_fmt; [apply fmt_int; lia|]. change (bpow radix2 (-48)) with (/ 281474976710656). lra. }
  destruct (of_Z_ok 2 ltac:(lia)) as (F2 & V2). destruct (fmul_ok (of_Z 2) fpi F2 Fl) as (Fm & Vm). { rewrite V2. apply small_abs, Rabs_le. lra. }
  rewrite V2 in Vm. set (p := value fpi) in *. clearbody p. change (bpow radix2 (-48)) with (/ 281474976710656) in A. split; [exact Fm|].
  pose proof (rnd_err_pos (2 * p) ltac:(lra)) as E2. rewrite <- Vm in E2. rewrite Uv in E2. split; [lra|].
  apply Rle_trans with (IZR 884279719003555 * bpow radix2 (-47)).
  - rewrite Vm. apply rnd_le_fmt; [apply fmt_int; lia|]. change (bpow radix2 (-47)) with (/ 140737488355328). lra.
  - change (bpow radix2 (-47)) with (/ 140737488355328). lra.
Qed.
Lemma ascension_ok jd : dated jd -> finite (fsun_right_ascension L B jd) /\ 0 <= value (fsun_right_ascension L B jd) <= 2 * PI /\
  apart_at_most (2 * PI) (2801 / 10 ^ 13) (value (fsun_right_ascension L B jd)) (sun_angle (value jd)).
Proof.
  intros D. destruct (arctan_ok jd D) as (al & -> & Fa & Ba & k & Ak). destruct two_fpi as (F & V). set (m := fmul (of_Z 2) fpi) in *. clearbody m. pose proof PI_near as Pn. pose proof uu_value as U.
  destruct (fpymod_ok al m Fa F) as (Fm & Vm). { split; [lra|]. pose proof pow_1000. lra. }
  pose proof (modulo_range (value al) (value m) ltac:(lra)) as R. destruct (modulo_shift (value al) (value m)) as (q & Eq).
  split; [exact Fm|]. split.
  - rewrite Vm. split; [rewrite <- rnd_0; apply rnd_le; lra|]. apply Rle_trans with (value m); [|lra]. apply rnd_le_fmt; [apply value_fmt|lra].
  - pose proof (rnd_abs_err (modulo (value al) (value m)) 7 ltac:(rewrite Rabs_pos_eq; lra) ltac:(lra)) as E. rewrite <- Vm in E. rewrite Rabs_bound, U in E.
    apply Rabs_le_inv in Ba, Ak. rewrite Eq in E, R. set (x := value (fpymod al m)) in *. set (M := value m) in *. set (a := value al) in *. clearbody x M a.
    assert (Q : (-1 <= q <= 0)%Z).
    { assert (IZR q < 1) by nra. assert (-2 < IZR q) by nra. apply (lt_IZR q 1) in H0. apply (lt_IZR (-2) q) in H1. lia. }
    exists (k - q)%Z. rewrite minus_IZR. assert (C : q = 0%Z \/ q = (-1)%Z) by lia. apply Rabs_le. destruct C as [-> | ->]; lra.
Qed.
End Numpy.
