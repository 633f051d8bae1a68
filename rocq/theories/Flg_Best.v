(** A mathematics library that rounds correctly, and what the code does with it at a place where
    the cosine comes out above one. *)
From Coq Require Import ZArith Reals Lra Lia Psatz QArith Qreals.
From Flocq Require Import Core.Core IEEE754.BinarySingleNaN IEEE754.Binary IEEE754.Bits.
From Verif Require Import Py Fl_Model Fl_Spec Fl_Proofs Flc_Spec Flg_Model Flg_Spec Rot_Model Rot_Spec Time_Model Flg_Proofs Flg_Num Flg_Proofs2 Flg_Proofs3 Flg_Proofs4 Flg_Proofs5 Flg_Proofs6 Flg_Proofs7 Geo_Model.
Open Scope R_scope.

(** The float nearest to a real number *)
Definition to_float (r : R) : float :=
  binary_normalize 53 1024 (eq_refl : Prec_gt_0 53) (eq_refl : Prec_lt_emax 53 1024) mode_NE
    (ZnearestE (scaled_mantissa radix2 (FLT_exp (-1074) 53) r)) (cexp radix2 (FLT_exp (-1074) 53) r) false.
Lemma to_float_ok r : Rabs r <= bpow radix2 1000 -> nearest_float (to_float r) r.
Proof.
  intros B. unfold nearest_float, to_float, finite, value.
  match goal with |- context [binary_normalize _ _ ?a ?b _ ?m ?e] => pose proof (binary_normalize_correct 53 1024 a b mode_NE m e false) as C end.
  cbn [round_mode] in C. fold (rnd r) in C. change (F2R (Float radix2 (ZnearestE (scaled_mantissa radix2 (FLT_exp (-1074) 53) r)) (cexp radix2 (FLT_exp (-1074) 53) r))) with (rnd r) in C.
  change (SpecFloat.fexp 53 1024) with (FLT_exp (-1074) 53) in C.
  change (round radix2 (FLT_exp (-1074) 53) ZnearestE (rnd r)) with (rnd (rnd r)) in C.
  rewrite (rnd_fmt _ (fmt_rnd r)) in C. rewrite Rlt_bool_true in C; [destruct C as (C1 & C2 & _); auto|].
  apply Rle_lt_trans with (bpow radix2 1000); [apply rnd_abs_le; auto; lia|apply bpow_lt; lia].
Qed.
Definition a_nan : float := fdiv (of_Z 0) (of_Z 0).
Definition best : maths := Maths
  (fun x => to_float (cos (value x))) (fun x => to_float (sin (value x))) (fun x => to_float (value x ^ 2))
  (fun x => if Rle_dec (Rabs (value x)) 1 then to_float (acos (value x)) else a_nan) fdot.
Lemma best_rounded : rounded best.
Proof.
  split; cbn [m_cos m_sin m_square m_arccos m_dot best]; auto.
  - intros x _. apply to_float_ok, small_abs, Rabs_le. pose proof (COS_bound (value x)). lra.
  - intros x _. apply to_float_ok, small_abs, Rabs_le. pose proof (SIN_bound (value x)). lra.
  - intros x _ H. apply to_float_ok, small_abs. rewrite <- RPow_abs. pose proof (Rabs_pos (value x)). nra.
  - intros x _ H. destruct (Rle_dec (Rabs (value x)) 1); [|tauto]. apply to_float_ok, small_abs, Rabs_le. pose proof (acos_bound (value x)). pose proof PI_near. lra.
  - intros x _ H. destruct (Rle_dec (Rabs (value x)) 1); [lra|]. vm_compute. reflexivity.
Qed.
Lemma rnd_1err r k : Rabs r <= k -> 1 <= k -> Rabs (rnd r - r) <= 2 * k * uu.
Proof. intros H K. eapply Rle_trans; [apply rnd_mul_err|]. pose proof ee1. pose proof uu_pos. nra. Qed.

Lemma rounded_accurate M : rounded M -> accurate M.
Proof.
  intros Rm. split.
  - intros x F _. destruct (cos_nearest M Rm x F) as (F1 & V). split; auto. rewrite V. eapply Rle_trans; [apply (rnd_1err _ 1); [apply Rabs_le, COS_bound|lra]|]. rewrite uu_value. lra.
  - intros x F _. destruct (sin_nearest M Rm x F) as (F1 & V). split; auto. rewrite V. eapply Rle_trans; [apply (rnd_1err _ 1); [apply Rabs_le, SIN_bound|lra]|]. rewrite uu_value. lra.
  - intros x F H. destruct (square_nearest M Rm x F H) as (F1 & V). split; auto. rewrite V. eapply Rle_trans; [apply rnd_mul_err|].
    assert (A : Rabs (value x ^ 2) <= 9 / 4) by (rewrite <- RPow_abs; pose proof (Rabs_pos (value x)); nra).
    assert (E : / 2 ^ 51 = 4 * uu) by (rewrite uu_value; lra). rewrite E. pose proof ee1. pose proof uu_pos. nra.
  - intros x F H. destruct (arccos_nearest M Rm x F H) as (F1 & V). split; auto. rewrite V. eapply Rle_trans; [apply (rnd_1err _ 4); [|lra]|].
    + pose proof (acos_bound (value x)). pose proof PI_near. apply Rabs_le. lra.
    + rewrite uu_value. lra.
  - exact (arccos_outside M Rm).
  - intros u v Fu Fv Nu Nv. rewrite (dot_plain M Rm).
    assert (T : forall w, norm (vector w) <= 2 ^ 100 -> Rabs (value (fx w)) <= big /\ Rabs (value (fy w)) <= big /\ Rabs (value (fz w)) <= big).
    { intros w H. destruct (comp_norm (vector w)) as (X & Y & Z). cbn [vector vx vy vz] in *.
      assert (P : 2 ^ 100 <= big) by (rewrite pow_bpow; apply bpow_le; cbn; lia). lra. }
    destruct (fdot_ok u v Fu Fv (T u Nu) (T v Nv)) as (F & E). split; auto. eapply Rle_trans; [exact E|].
    pose proof (abs_cauchy (vector u) (vector v)) as C. cbn [vector vx vy vz] in C. unfold Rdiv. rewrite <- uu_pow53. pose proof uu_pos as U.
    apply Rplus_le_compat.
    + apply Rmult_le_compat_l; [lra|exact C].
    + rewrite pow_bpow, <- bpow_opp. assert (E4 : 4 * ee = bpow radix2 (-1058)) by (unfold ee; change 4 with (bpow radix2 2); now rewrite <- bpow_plus).
      rewrite E4. apply bpow_le. cbn. lia.
Qed.

(** ** Straight overhead of a place at longitude 30 *)
Lemma float_eq x y : finite x -> finite y -> value x = value y -> value y <> 0 -> x = y.
Proof.
  unfold finite, value. intros Fx Fy E N. apply B2R_inj; auto.
  - destruct x; cbn in *; try discriminate; auto; congruence.
  - destruct y; cbn in *; try discriminate; auto; congruence.
Qed.
Lemma zero_cases z : finite z -> value z = 0 -> exists s, z = B754_zero 53 1024 s.
Proof.
  unfold finite, value. destruct z as [s|s|s pl H|s m e H]; cbn [is_finite B2R]; try discriminate; [eauto|]. intros _ E. exfalso. apply eq_0_F2R in E. destruct s; discriminate E.
Qed.
(** A number within the same grid interval rounds to the grid point *)
Lemma rounds_to x k e : (4503599627370496 < k < 9007199254740992)%Z -> (-1021 <= e)%Z ->
  Rabs (x - IZR k * bpow radix2 (e - 53)) < / 2 * bpow radix2 (e - 53) -> rnd x = IZR k * bpow radix2 (e - 53).
Proof.
  intros K E H. set (h := bpow radix2 (e - 53)) in *. assert (Hp : 0 < h) by apply bpow_gt_0. apply Rabs_def2 in H.
  assert (K1 : 4503599627370497 <= IZR k <= 9007199254740991) by (split; apply IZR_le; lia).
  assert (L : bpow radix2 (e - 1) = 4503599627370496 * h). { unfold h. replace (e - 1)%Z with (52 + (e - 53))%Z by ring. rewrite bpow_plus. f_equal. }
  assert (U : bpow radix2 e = 9007199254740992 * h). { unfold h. replace e with (53 + (e - 53))%Z at 1 by ring. rewrite bpow_plus. f_equal. }
  assert (X : bpow radix2 (e - 1) <= x < bpow radix2 e) by (rewrite L, U; split; nra).
  pose proof (rnd_half x e X E) as R. fold h in R. apply Rabs_le_inv in R.
  assert (Y : bpow radix2 (e - 1) <= rnd x < bpow radix2 e) by (rewrite L, U; split; nra).
  destruct (fmt_grid (rnd x) e (fmt_rnd x) Y E) as (j & J). fold h in J. rewrite J in *.
  assert (D : Rabs (IZR (j - k) * h) < 1 * h) by (rewrite minus_IZR; apply Rabs_def1; lra).
  rewrite Rabs_mult, (Rabs_pos_eq h) in D by lra. apply Rmult_lt_reg_r in D; auto. rewrite <- abs_IZR in D. apply lt_IZR in D. replace k with j by lia. reflexivity.
Qed.
Definition dyadic (m : positive) (e : Z) (H : SpecFloat.bounded 53 1024 m e = true) : float := B754_finite 53 1024 false m e H.
Definition lon30 : float := dyadic 4716158501352293 (-53) eq_refl.
Definition cos30 : float := dyadic 7800463371553963 (-53) eq_refl.
Definition sin30 : float := dyadic 9007199254740991 (-54) eq_refl.

Lemma lon_q : value lon30 = Q2R (4716158501352293 # 9007199254740992).
Proof. unfold value, lon30, dyadic, B2R, Q2R, F2R. cbn [Fnum Fexp cond_Zopp Qnum Qden bpow]. reflexivity. Qed.
Lemma cos_30 : rnd (cos (value lon30)) = value cos30.
Proof.
  rewrite lon_q. pose proof (cos_between (4716158501352293 # 9007199254740992) (78004633715539627 # 90071992547409920) (78004633715539633 # 90071992547409920) 8 ltac:(reflexivity) ltac:(reflexivity) ltac:(vm_compute; reflexivity) ltac:(vm_compute; reflexivity)) as B.
  unfold Q2R in B at 1 4. cbn [Qnum Qden] in B.
  assert (V : value cos30 = IZR 7800463371553963 * bpow radix2 (0 - 53)) by (unfold value, cos30, dyadic, B2R, F2R; reflexivity).
  rewrite V. apply rounds_to; [lia|lia|]. change (bpow radix2 (0 - 53)) with (/ 9007199254740992). apply Rabs_def1; lra.
Qed.
Lemma sin_30 : rnd (sin (value lon30)) = value sin30.
Proof.
  rewrite lon_q. pose proof (sin_between (4716158501352293 # 9007199254740992) (36028797018963963 # 72057594037927936) (36028797018963965 # 72057594037927936) 8 ltac:(reflexivity) ltac:(reflexivity) ltac:(vm_compute; reflexivity) ltac:(vm_compute; reflexivity)) as B.
  unfold Q2R in B at 1 4. cbn [Qnum Qden] in B.
  assert (V : value sin30 = IZR 9007199254740991 * bpow radix2 (-1 - 53)) by (unfold value, sin30, dyadic, B2R, F2R; reflexivity).
  rewrite V. apply rounds_to; [lia|lia|]. change (bpow radix2 (-1 - 53)) with (/ 18014398509481984). apply Rabs_def1; lra.
Qed.
(** The place, and a satellite exactly twice as far from the centre of the Earth *)
Definition here : flocation := FLocation (of_Z 0) (of_Z 30) (of_Z 0) Udeg Ukm.
Definition ground_x : float := fmul (fmul fmajor_axis (of_Z 1)) cos30.
Definition ground_y : float := fmul (fmul fmajor_axis (of_Z 1)) sin30.
Definition overhead : fvec := FV (fmul (of_Z 2) ground_x) (fmul (of_Z 2) ground_y) (of_Z 0).

Definition same_bits (x y : float) : Prop := B2FF 53 1024 x = B2FF 53 1024 y.
Lemma same x y : same_bits x y -> x = y. Proof. apply B2FF_inj. Qed.
Lemma fconvert_lat : fconvert (of_Z 0) Udeg Urad = Ok (of_Z 0).
Proof. unfold fconvert. cbn [kind_of kind_eqb negb unit_eqb]. apply (f_equal (@Ok float)), same. vm_compute. reflexivity. Qed.
Lemma fconvert_lon : fconvert (of_Z 30) Udeg Urad = Ok lon30.
Proof. unfold fconvert. cbn [kind_of kind_eqb negb unit_eqb]. apply (f_equal (@Ok float)), same. vm_compute. reflexivity. Qed.
Lemma one_float x : finite x -> value x = 1 -> x = of_Z 1.
Proof. intros F V. destruct (of_Z_ok 1 ltac:(lia)) as (F1 & V1). apply float_eq; auto; rewrite V1; lra. Qed.
Lemma here_ground M : rounded M -> exists s, fitrs M here = Ok (FV ground_x ground_y (B754_zero 53 1024 s)).
Proof.
  intros Rm. pose proof (rounded_accurate M Rm) as A. destruct (of_Z_ok 0 ltac:(lia)) as (F0 & V0).
  destruct (cos_nearest M Rm (of_Z 0) F0) as (Fc & Vc). rewrite V0, cos_0 in Vc. assert (R1 : nearest 1 = 1) by (apply rnd_fmt; change 1 with (bpow radix2 0); apply fmt_pow; lia). rewrite R1 in Vc.
  destruct (sin_nearest M Rm (of_Z 0) F0) as (Fs & Vs). rewrite V0, sin_0 in Vs. assert (R0 : nearest 0 = 0) by apply rnd_0. rewrite R0 in Vs.
  destruct (square_nearest M Rm _ Fs) as (Fq & Vq). { rewrite Vs, Rabs_R0. lra. } rewrite Vs in Vq. replace (0 ^ 2) with 0 in Vq by ring. rewrite R0 in Vq.
  destruct (appr_ecc2 M A) as (Fe & Ee & Be). 
  destruct (fmul_ok _ _ Fe Fq) as (Fm & Vm). { rewrite Vq, Rmult_0_r. apply small_abs. rewrite Rabs_R0. lra. } rewrite Vq, Rmult_0_r, rnd_0 in Vm.
  destruct (of_Z_ok 1 ltac:(lia)) as (F1 & V1). destruct (fsub_ok _ _ F1 Fm) as (Fd & Vd). { rewrite V1, Vm. apply small_abs, Rabs_le. lra. } rewrite V1, Vm, Rminus_0_r in Vd. fold (nearest 1) in Vd. change (rnd 1) with (nearest 1) in Vd. rewrite R1 in Vd.
  apply one_float in Vd; auto.
  assert (N : fprime_vertical M (of_Z 0) = fmajor_axis). { unfold fprime_vertical. rewrite Vd. apply same. vm_compute. reflexivity. }
  apply one_float in Vc; auto. 
  destruct (cos_nearest M Rm lon30 eq_refl) as (Fc' & Vc'). change (nearest (cos (value lon30))) with (rnd (cos (value lon30))) in Vc'. rewrite cos_30 in Vc'.
  destruct (sin_nearest M Rm lon30 eq_refl) as (Fs' & Vs'). change (nearest (sin (value lon30))) with (rnd (sin (value lon30))) in Vs'. rewrite sin_30 in Vs'.
  assert (P : forall m e H, value (dyadic m e H) <> 0). { intros m e H. unfold value, dyadic, B2R. pose proof (F2R_gt_0 radix2 (Float radix2 (cond_Zopp false (Z.pos m)) e) ltac:(cbn; lia)). lra. }
  apply float_eq in Vc'; [|exact Fc'|reflexivity|apply P]. apply float_eq in Vs'; [|exact Fs'|reflexivity|apply P].
  unfold fitrs, fitrs_x, fitrs_y, fitrs_z. cbn [fl_latitude fl_longitude fl_height fl_angle fl_length here]. rewrite fconvert_lat, fconvert_lon. cbn [bind].
  rewrite N, Vc, Vc', Vs'.
  assert (Q : fq_add fmajor_axis Ukm (of_Z 0) Ukm = Ok fmajor_axis).
  { unfold fq_add, fconvert. cbn [kind_of kind_eqb negb unit_eqb bind]. apply (f_equal (@Ok float)), same. vm_compute. reflexivity. }
  rewrite Q. cbn [bind].
  unfold fq_add. cbn [kind_of kind_eqb negb]. unfold fconvert. cbn [kind_of kind_eqb negb unit_eqb]. cbn [bind].
  set (w := fadd (fmul fmajor_axis (fsub (of_Z 1) (m_square M feccentricity))) (of_Z 0)).
  assert (Fw : finite w /\ Rabs (value w) <= 10000).
  { assert (I1 : Rabs (1 - eccentricity ^ 2) <= IZR (Z.abs 1)) by (rewrite ecc_sq; apply Rabs_le; cbn; lra).
    pose proof (appr_sub _ _ _ _ _ _ _ _ (appr_Z 1 ltac:(lia)) (appr_ecc2 M A) ltac:(lra) ltac:(lra) ltac:(cbn; lra) ltac:(lra) I1) as D.
    pose proof (appr_le _ _ _ _ 8 1 D ltac:(cbn; lra) ltac:(cbn; lra)) as D'.
    pose proof (appr_mul _ _ _ _ _ _ _ _ appr_axis D' ltac:(lra) ltac:(lra) ltac:(lra) ltac:(lra)) as X.
    pose proof (appr_add _ _ _ _ _ _ _ _ X (appr_Z 0 ltac:(lia)) ltac:(lra) ltac:(lra) ltac:(lra) ltac:(cbn; lra)) as (Y1 & Y2 & Y3).
    split; [exact Y1|]. eapply Rle_trans; [apply (err_abs _ _ _ Y2)|]. rewrite uu_value. cbn in Y3 |- *. lra. }
  destruct Fw as (Fw & Bw). clearbody w. destruct (fmul_ok w _ Fw Fs) as (Fz & Vz). { rewrite Vs, Rmult_0_r. apply small_abs. rewrite Rabs_R0. lra. } rewrite Vs, Rmult_0_r, rnd_0 in Vz.
  destruct (zero_cases _ Fz Vz) as (s & Z). rewrite Z. exists s. reflexivity.
Qed.
Lemma km_overhead : fkm Ukm overhead = Ok overhead. Proof. reflexivity. Qed.
Lemma above_one s : let g := FV ground_x ground_y (B754_zero 53 1024 s) in
  flt (of_Z 1) (fdiv (fdot (fvsub overhead g) g) (fmul (fnorm (fvsub overhead g)) (fsqrt (fdot g g)))) = true /\
  flt (of_Z 1) (fdiv (fdot (fvsub overhead g) overhead) (fmul (fnorm (fvsub overhead g)) (fnorm overhead))) = true.
Proof. destruct s; split; vm_compute; reflexivity. Qed.
Lemma quotients_finite s : let g := FV ground_x ground_y (B754_zero 53 1024 s) in
  is_finite 53 1024 (fdiv (fdot (fvsub overhead g) g) (fmul (fnorm (fvsub overhead g)) (fsqrt (fdot g g)))) = true /\
  is_finite 53 1024 (fdiv (fdot (fvsub overhead g) overhead) (fmul (fnorm (fvsub overhead g)) (fnorm overhead))) = true.
Proof. destruct s; split; vm_compute; reflexivity. Qed.
Lemma overhead_nan M : rounded M -> exists x y, felevation M here Ukm overhead = Ok x /\ is_NaN x /\ flook_angle M here Ukm overhead = Ok y /\ is_NaN y.
Proof.
  intros Rm. destruct (here_ground M Rm) as (s & E). unfold felevation, flook_angle. rewrite km_overhead, E. cbn [bind]. eexists. eexists. split; [reflexivity|].
  destruct (of_Z_ok 1 ltac:(lia)) as (F1 & V1). destruct (above_one s) as (A1 & A2). destruct (quotients_finite s) as (Q1 & Q2).
  split; [|split; [reflexivity|]].
  - unfold felevation_at, fget_ang, fdegrees. apply nan_sub, nan_mul. unfold fnorm_1d. rewrite (dot_plain M Rm). apply (arccos_outside M Rm); [exact Q1|].
    revert A1 Q1. match goal with |- context [flt (of_Z 1) ?q] => generalize q end. intros q A Q. apply (proj1 (flt_iff _ _ F1 Q)) in A. rewrite V1 in A. rewrite Rabs_pos_eq; lra.
  - unfold fget_ang, fdegrees. apply nan_mul. apply (arccos_outside M Rm); [exact Q2|].
    revert A2 Q2. match goal with |- context [flt (of_Z 1) ?q] => generalize q end. intros q A Q. apply (proj1 (flt_iff _ _ F1 Q)) in A. rewrite V1 in A. rewrite Rabs_pos_eq; lra.
Qed.
