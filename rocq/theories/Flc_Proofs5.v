(** The earth rotation angle and the solar times in floating point. *)
From Coq Require Import List ZArith Reals Lra Lia Bool Psatz.
From Flocq Require Import Core.Core IEEE754.BinarySingleNaN IEEE754.Binary IEEE754.Bits Relative Sterbenz.
From Verif Require Import Py Fl_Model Fl_Spec Fl_Proofs Flc_Model Flc_Spec Flc_Proofs Flc_Proofs2 Flc_Proofs3.
Open Scope R_scope.

#[local] Instance prec53' : Prec_gt_0 53 := eq_refl.

(** The error of rounding a number of known size. *)
Lemma rnd_abs_err x B : Rabs x <= B -> / 10 <= B -> Rabs (rnd x - x) <= uu * B.
Proof.
  intros X Bb. pose proof uu_pos as U. destruct (Rle_or_lt (/ 1000000000000000000) (Rabs x)) as [L|L].
  - eapply Rle_trans; [now apply rnd_err|]. apply Rmult_le_compat_l; lra.
  - assert (R : Rabs (rnd x) <= bpow radix2 (-59)) by (apply rnd_abs_le; [lia|]; cbn; lra).
    apply Rle_trans with (Rabs (rnd x) + Rabs x); [unfold Rminus; eapply Rle_trans; [apply Rabs_triang|]; rewrite Rabs_Ropp; lra|].
    apply Rle_trans with (/ 90071992547409920); [cbn in R; lra|]. rewrite uu_value. lra.
Qed.
Lemma modulo_shift a m : exists k, modulo a m = a - IZR k * m.
Proof. destruct (modulo_ex a m) as (k & E). exists k. lra. Qed.
Lemma fpymod_bounds x y z : (0 < z < 9007199254740992)%Z -> y = of_Z z -> finite x ->
  finite (fpymod x y) /\ value (fpymod x y) = rnd (modulo (value x) (IZR z)) /\ 0 <= value (fpymod x y) <= IZR z.
Proof.
  intros Z -> F. destruct (of_Z_ok z ltac:(lia)) as (Fz & Vz). assert (Zr : 0 < IZR z < 9007199254740992) by (split; apply IZR_lt; lia).
  destruct (fpymod_ok x (of_Z z) F Fz) as (Fm & Vm). { rewrite Vz. pose proof pow_1000. lra. }
  rewrite Vz in Vm. split; auto. split; auto. rewrite Vm. pose proof (modulo_range (value x) (IZR z) ltac:(lra)) as M. split.
  - rewrite <- rnd_0. apply rnd_le. lra.
  - apply rnd_le_fmt; [|lra]. rewrite <- (Rmult_1_r (IZR z)). apply (fmt_int z 0); lia.
Qed.

(** ** The earth rotation angle *)
(** A float of size 256 or more is a multiple of [2 ^ -44]. *)
Lemma coarse w : fmt w -> 256 <= Rabs w -> exists k, w = IZR k * bpow radix2 (-44).
Proof.
  intros F W. assert (M : (9 <= mag radix2 w)%Z).
  { apply mag_ge_bpow. cbn. lra. }
  unfold fmt, generic_format, F2R, scaled_mantissa in F. cbn [Fnum Fexp] in F.
  assert (C : (-44 <= cexp radix2 (SpecFloat.fexp 53 1024) w)%Z) by (unfold cexp; rewrite fexp_FLT; unfold FLT_exp; lia).
  set (c := cexp radix2 (SpecFloat.fexp 53 1024) w) in *.
  exists (Ztrunc (w * bpow radix2 (- c)) * 2 ^ (c + 44))%Z. rewrite F at 1. rewrite mult_IZR.
  change 2%Z with (radix_val radix2). rewrite IZR_Zpower by lia. rewrite Rmult_assoc, <- bpow_plus. f_equal. f_equal. lia.
Qed.
Definition gg : R := bpow radix2 (-44).
Lemma gg_value : gg = / 17592186044416. Proof. unfold gg. cbn. lra. Qed.

Lemma era_literal : finite (literal 28046 100) /\ 28046 / 100 - 281 * uu <= value (literal 28046 100) <= 28046 / 100 + 281 * uu.
Proof.
  destruct (literal_rnd 28046 100) as (Fl & Vl); try lia. split; auto. rewrite Vl.
  pose proof (rnd_err_pos (28046 / 100) ltac:(lra)). pose proof uu_pos. lra.
Qed.
Definition era_rate : R := 3609856123035484 / 10000000000000.
Lemma rate_literal : finite (literal 3609856123035484 10000000000000) /\
  era_rate - 361 * uu <= value (literal 3609856123035484 10000000000000) <= era_rate + 361 * uu.
Proof.
  destruct (literal_rnd 3609856123035484 10000000000000) as (Fl & Vl); try lia. split; auto. rewrite Vl. fold era_rate.
  assert (360 <= era_rate <= 361) by (unfold era_rate; lra).
  pose proof (rnd_err_pos era_rate ltac:(lra)). pose proof uu_pos. nra.
Qed.
Lemma era_ok x : dated x -> finite (fearth_rotation_angle x) /\ 0 <= value (fearth_rotation_angle x) < 360 /\
  apart_at_most 360 (3 / 10000000) (value (fearth_rotation_angle x)) (era_rate * (value x - 2451545) + 28046 / 100).
Proof.
  intros D. pose proof D as (Fx & Bx). destruct (of_Z_ok 2451545 ltac:(lia)) as (Fo & Vo).
  unfold fearth_rotation_angle. cbv zeta.
  destruct (fsub_ok x (of_Z 2451545) Fx Fo) as (Fd & Vd). { rewrite Vo. apply small_abs, Rabs_le. lra. }
  assert (Ed : value (fsub x (of_Z 2451545)) = value x - 2451545).
  { rewrite Vd, Vo. destruct (dated_grid x D) as (k & E & K). rewrite E.
    replace (IZR k * ww - 2451545) with (IZR (k - 2451545 * 2147483648) * ww) by (rewrite minus_IZR, mult_IZR; unfold ww; lra).
    apply rnd_fmt, fmt_ww. lia. }
  set (days := fsub x (of_Z 2451545)) in *. destruct rate_literal as (Fr & Lr). destruct era_literal as (Fe & Le).
  set (rate := literal 3609856123035484 10000000000000) in *. set (era := literal 28046 100) in *.
  pose proof uu_pos as U0. pose proof uu_value as Uv.
  assert (Rb : 3609 / 10 <= era_rate <= 361) by (unfold era_rate; lra).
  assert (Db : -354393 <= value days <= 1742758) by lra.
  assert (Pb : Rabs (value rate * value days) <= 630000000).
  { apply Rabs_le. split; nra. }
  destruct (fmul_ok rate days Fr Fd) as (Fp & Vp); [pose proof pow_1000; lra|].
  pose proof (rnd_abs_err _ 630000000 Pb ltac:(lra)) as Ep. rewrite <- Vp in Ep.
  set (P := fmul rate days) in *.
  assert (Pb' : Rabs (value P + value era) <= 640000000).
  { rewrite Rabs_bound in *. rewrite Uv in *. lra. }
  destruct (fadd_ok P era Fp Fe) as (Fs & Vs); [pose proof pow_1000; lra|].
  pose proof (rnd_abs_err _ 640000000 Pb' ltac:(lra)) as Es. rewrite <- Vs in Es.
  set (v := fadd P era) in *.
  destruct (fpymod_bounds v (of_Z 360) 360 ltac:(lia) eq_refl Fs) as (Fm & Vm & Rm).
  split; auto. split; [split; [apply Rm|]|].
  - (* below 360 *)
    destruct (Rle_or_lt 0 (value v)) as [L|L].
    + destruct (of_Z_ok 360 ltac:(lia)) as (F3 & V3). destruct (fmod_ok v (of_Z 360) Fs F3 ltac:(lra)) as (_ & Vf).
      rewrite V3, Ztrunc_floor in Vf by lra. fold (modulo (value v) 360) in Vf.
      rewrite Vm, <- Vf, rnd_fmt by apply value_fmt. rewrite Vf. apply modulo_range. lra.
    + assert (G : exists k, value v = IZR k * gg).
      { destruct (Rle_or_lt 256 (Rabs (value v))) as [W|W]; [apply coarse; auto; apply value_fmt|].
        assert (PL : value P <= -256).
        { destruct (Rle_or_lt (value P) (-256)) as [|H]; auto. exfalso.
          assert (0 <= value v); [|lra]. rewrite Vs. rewrite <- rnd_0. apply rnd_le. rewrite Uv in *. lra. }
        destruct (coarse (value P) (value_fmt P)) as (k & Ek). { rewrite Rabs_left by lra. lra. }
        destruct (coarse (value era) (value_fmt era)) as (l & El). { rewrite Rabs_pos_eq; rewrite Uv in *; lra. }
        assert (Sum : value P + value era = IZR (k + l) * gg) by (rewrite Ek, El, plus_IZR; unfold gg; ring).
        assert (Kb : (Z.abs (k + l) <= 9007199254740992)%Z).
        { assert (S5 : Rabs (value P + value era) <= 512).
          { destruct (Rle_or_lt (Rabs (value P + value era)) 512) as [|H]; auto. exfalso.
            assert (N : value P + value era <= -512).
            { unfold Rabs in H. destruct (Rcase_abs (value P + value era)); [lra|]. rewrite Rabs_left in W by lra. rewrite Uv in *. lra. }
            assert (value v <= -512).
            { rewrite Vs. apply rnd_le_fmt; auto. replace (-512) with (IZR (-512) * bpow radix2 0) by (cbn; lra). apply fmt_int; lia. }
            rewrite Rabs_left in W by lra. lra. }
          rewrite Sum, Rabs_mult, (Rabs_pos_eq gg) in S5 by (rewrite gg_value; lra). rewrite <- abs_IZR in S5. rewrite gg_value in S5. apply le_IZR. lra. }
        exists (k + l)%Z. rewrite Vs, Sum. apply rnd_fmt. apply fmt_int; lia. }
      destruct G as (k & Gk). destruct (modulo_shift (value v) 360) as (q & Mq). pose proof (modulo_range (value v) 360 ltac:(lra)) as Rq.
      set (n := (k - q * (360 * 17592186044416))%Z). assert (Mn : modulo (value v) 360 = IZR n * gg).
      { rewrite Mq, Gk. unfold n. rewrite minus_IZR, !mult_IZR. rewrite gg_value. lra. }
      rewrite Vm, Mn, rnd_fmt; [rewrite <- Mn; lra|]. apply fmt_int; [|lia]. rewrite Mn, gg_value in Rq.
      destruct Rq as (R1 & R2). assert (0 <= n)%Z by (apply le_IZR; lra). assert (n < 9007199254740992)%Z by (apply lt_IZR; lra). lia.
  - (* accuracy *)
    destruct (modulo_shift (value v) 360) as (q & Mq). exists (- q)%Z. rewrite opp_IZR, Vm.
    pose proof (modulo_range (value v) 360 ltac:(lra)) as Rq.
    pose proof (rnd_abs_err (modulo (value v) 360) 360 ltac:(rewrite Rabs_pos_eq; lra) ltac:(lra)) as Er. rewrite Rabs_bound in Er, Es, Ep |- *.
    assert (Dd : -354393 <= value x - 2451545 <= 1742758) by lra. rewrite Ed in Ep. set (dd := value x - 2451545) in *.
    assert (Err : Rabs ((value rate - era_rate) * dd) <= 361 * uu * 1742758).
    { rewrite Rabs_mult. clearbody dd. apply Rmult_le_compat; [apply Rabs_pos|apply Rabs_pos|apply Rabs_le; clear - Lr; lra|apply Rabs_le; clear - Dd; lra]. }
    rewrite Rabs_bound, Uv in Err. rewrite Uv in Er, Es, Ep, Le. rewrite Mq in Er. rewrite Mq.
    assert (K : (value rate - era_rate) * dd = value rate * dd - era_rate * dd) by ring. rewrite K in Err.
    set (A := value rate * dd) in *. set (Bq := era_rate * dd) in *. clearbody A Bq. lra.
Qed.

(** ** Solar times *)
(** The part of the day since noon. *)
Lemma frac_of x : dated x -> exists j, (0 <= j < 2147483648)%Z /\ finite (fpymod x (of_Z 1)) /\ value (fpymod x (of_Z 1)) = IZR j * ww /\ value (fpymod x (of_Z 1)) = modulo (value x) 1.
Proof.
  intros D. destruct (dated_grid x D) as (k & E & K). destruct (frac_grid x k (proj1 D) E) as (F & V & M).
  exists (k mod 2147483648)%Z. split; [apply Z.mod_pos_bound; lia|auto].
Qed.
Definition futc (x : float) : float := fsub (fmul (of_Z 24) (fpymod x (of_Z 1))) (of_Z 12).
Lemma utc_ok x : dated x -> finite (futc x) /\ value (futc x) = 24 * modulo (value x) 1 - 12 /\
  exists j, (-25769803776 <= j < 25769803776)%Z /\ value (futc x) = IZR j * ww.
Proof.
  intros D. destruct (frac_of x D) as (j & J & F & V & M). unfold futc.
  destruct (of_Z_ok 24 ltac:(lia)) as (F24 & V24). destruct (of_Z_ok 12 ltac:(lia)) as (F12 & V12).
  assert (Jr : 0 <= IZR j * ww < 1). { destruct J as (J1 & J2). apply (IZR_le 0) in J1. apply IZR_lt in J2. unfold ww. lra. }
  destruct (fmul_ok (of_Z 24) _ F24 F) as (Fm & Vm). { rewrite V24, V. apply small_abs, Rabs_le. lra. }
  rewrite V24, V in Vm. replace (24 * (IZR j * ww)) with (IZR (24 * j) * ww) in Vm by (rewrite mult_IZR; ring). rewrite rnd_fmt in Vm by (apply fmt_ww; lia).
  assert (Vm' : value (fmul (of_Z 24) (fpymod x (of_Z 1))) = 24 * (IZR j * ww)) by (rewrite Vm, mult_IZR; ring).
  destruct (fsub_ok _ (of_Z 12) Fm F12) as (Fs & Vs). { rewrite Vm', V12. apply small_abs, Rabs_le. lra. }
  rewrite V12, Vm in Vs. replace (IZR (24 * j) * ww - 12) with (IZR (24 * j - 25769803776) * ww) in Vs by (rewrite minus_IZR; unfold ww; lra).
  rewrite rnd_fmt in Vs by (apply fmt_ww; lia). split; auto. split.
  - rewrite Vs, <- M, V, minus_IZR, mult_IZR. unfold ww. lra.
  - exists (24 * j - 25769803776)%Z. split; [lia|auto].
Qed.
Lemma modulo_grid j : modulo (IZR j * ww) 24 = IZR (j mod 51539607552) * ww.
Proof.
  apply modulo_unique with (j / 51539607552)%Z; [lra| |].
  - pose proof (Z.mod_pos_bound j 51539607552 ltac:(lia)) as (A & B). apply (IZR_le 0) in A. apply IZR_lt in B. unfold ww. lra.
  - rewrite (Z.div_mod j 51539607552) at 1 by lia. rewrite plus_IZR, mult_IZR. unfold ww. lra.
Qed.
Lemma fdiv_zero : finite (fdiv (of_Z 0) (of_Z 15)) /\ value (fdiv (of_Z 0) (of_Z 15)) = 0.
Proof.
  destruct zero_ok as (F0 & V0). destruct (of_Z_ok 15 ltac:(lia)) as (F & V).
  assert (E : 0 / 15 = 0) by lra.
  destruct (fdiv_ok (of_Z 0) (of_Z 15) F0) as (Fd & Vd); [lra|rewrite V0, V, E, Rabs_R0; pose proof pow_1000; lra|].
  split; [exact Fd|]. rewrite Vd, V0, V, E. apply rnd_0.
Qed.
(** Universal time is exact. *)
Lemma ut1_ok x : dated x -> finite (fut1 x) /\ left_over (24 * (value x + / 2)) 24 (value (fut1 x)).
Proof.
  intros D. destruct (utc_ok x D) as (F & V & j & J & G). destruct fdiv_zero as (Fz & Vz). unfold fut1, fmean_solar_time. cbv zeta. fold (futc x).
  assert (Jr : -12 <= IZR j * ww <= 12). { destruct J as (J1 & J2). apply IZR_le in J1. apply IZR_lt in J2. unfold ww. lra. }
  destruct (fadd_ok (futc x) _ F Fz) as (Fa & Va). { rewrite G, Vz. apply small_abs, Rabs_le. lra. }
  rewrite Vz, Rplus_0_r, rnd_fmt in Va by apply value_fmt.
  destruct (fpymod_bounds _ (of_Z 24) 24 ltac:(lia) eq_refl Fa) as (Fm & Vm & _). split; auto.
  rewrite Va, G, modulo_grid in Vm. pose proof (Z.mod_pos_bound j 51539607552 ltac:(lia)) as Mb. rewrite rnd_fmt in Vm by (apply fmt_ww; lia).
  rewrite <- modulo_grid, <- G in Vm. rewrite Vm. split; [apply modulo_range; lra|].
  destruct (modulo_shift (value (futc x)) 24) as (k & Ek). destruct (modulo_shift (value x) 1) as (l & El). rewrite Ek, V, El.
  exists (k + l + 1)%Z. rewrite !plus_IZR. lra.
Qed.
(** A longitude of a whole turn at most. *)
Definition longitude (l : float) : Prop := finite l /\ -360 <= value l <= 360.
Lemma mst_ok x l : dated x -> longitude l -> finite (fmean_solar_time x l) /\ 0 <= value (fmean_solar_time x l) <= 24 /\
  apart_at_most 24 (/ 100000000000000) (value (fmean_solar_time x l)) (24 * (value x + / 2) + value l / 15).
Proof.
  intros D (Fl & Bl). destruct (utc_ok x D) as (F & V & j & J & G). destruct (of_Z_ok 15 ltac:(lia)) as (F15 & V15).
  unfold fmean_solar_time. cbv zeta. fold (futc x). pose proof uu_value as Uv.
  assert (Jr : -12 <= value (futc x) <= 12). { rewrite G. destruct J as (J1 & J2). apply IZR_le in J1. apply IZR_lt in J2. unfold ww. lra. }
  destruct (fdiv_ok l (of_Z 15) Fl) as (Fd & Vd); [lra|rewrite V15; apply small_abs, Rabs_le; lra|]. rewrite V15 in Vd.
  pose proof (rnd_abs_err (value l / 15) 24 ltac:(apply Rabs_le; lra) ltac:(lra)) as E1. rewrite <- Vd in E1. set (a := fdiv l (of_Z 15)) in *.
  rewrite Rabs_bound, Uv in E1.
  destruct (fadd_ok (futc x) a F Fd) as (Fa & Va). { apply small_abs, Rabs_le. lra. }
  pose proof (rnd_abs_err (value (futc x) + value a) 37 ltac:(apply Rabs_le; lra) ltac:(lra)) as E2. rewrite <- Va in E2. set (b := fadd (futc x) a) in *.
  rewrite Rabs_bound, Uv in E2.
  destruct (fpymod_bounds b (of_Z 24) 24 ltac:(lia) eq_refl Fa) as (Fm & Vm & Rm). split; auto. split; auto.
  pose proof (modulo_range (value b) 24 ltac:(lra)) as Rq.
  pose proof (rnd_abs_err (modulo (value b) 24) 24 ltac:(rewrite Rabs_pos_eq; lra) ltac:(lra)) as E3. rewrite <- Vm in E3. rewrite Rabs_bound, Uv in E3.
  destruct (modulo_shift (value b) 24) as (k & Ek). destruct (modulo_shift (value x) 1) as (q & Eq). rewrite Eq in V.
  exists (- k - q - 1)%Z. rewrite !minus_IZR, opp_IZR. rewrite Ek in E3. apply Rabs_bound. lra.
Qed.
Lemma mha_ok x l : dated x -> longitude l -> finite (fmean_hour_angle x l) /\ 0 <= value (fmean_hour_angle x l) <= 24 /\
  apart_at_most 24 (2 / 100000000000000) (value (fmean_hour_angle x l)) (24 * value x + value l / 15).
Proof.
  intros D L. destruct (mst_ok x l D L) as (F & R & q & A). destruct (of_Z_ok 12 ltac:(lia)) as (F12 & V12). unfold fmean_hour_angle. pose proof uu_value as Uv.
  destruct (fsub_ok (fmean_solar_time x l) (of_Z 12) F F12) as (Fs & Vs). { rewrite V12. apply small_abs, Rabs_le. lra. }
  rewrite V12 in Vs. pose proof (rnd_abs_err (value (fmean_solar_time x l) - 12) 12 ltac:(apply Rabs_le; lra) ltac:(lra)) as E1. rewrite <- Vs in E1.
  rewrite Rabs_bound, Uv in E1. set (b := fsub (fmean_solar_time x l) (of_Z 12)) in *. set (t := value (fmean_solar_time x l)) in *.
  destruct (fpymod_bounds b (of_Z 24) 24 ltac:(lia) eq_refl Fs) as (Fm & Vm & Rm). split; auto. split; auto.
  pose proof (modulo_range (value b) 24 ltac:(lra)) as Rq.
  pose proof (rnd_abs_err (modulo (value b) 24) 24 ltac:(rewrite Rabs_pos_eq; lra) ltac:(lra)) as E3. rewrite <- Vm in E3. rewrite Rabs_bound, Uv in E3.
  destruct (modulo_shift (value b) 24) as (k & Ek). rewrite Ek in E3. rewrite Rabs_bound in A.
  exists (q - k)%Z. rewrite minus_IZR. apply Rabs_bound. lra.
Qed.
(** At midnight, a little west of Greenwich, the mean solar time is 24. *)
Lemma mst_24 x l : dated x -> modulo (value x) 1 = / 2 -> finite l -> - / 70368744177664 <= value l < 0 -> value l / 15 <= - / 10 ^ 300 ->
  value (fmean_solar_time x l) = 24.
Proof.
  intros D H Fl Bl Nl. destruct (utc_ok x D) as (F & V & _). destruct (of_Z_ok 15 ltac:(lia)) as (F15 & V15). rewrite H in V.
  unfold fmean_solar_time. cbv zeta. fold (futc x).
  destruct (fdiv_ok l (of_Z 15) Fl) as (Fd & Vd); [lra|rewrite V15; apply small_abs, Rabs_le; lra|]. rewrite V15 in Vd.
  set (a := fdiv l (of_Z 15)) in *.
  assert (A : IZR (-3) * bpow radix2 (-51) <= value a).
  { rewrite Vd. apply rnd_ge; [apply fmt_int; lia|]. cbn. lra. }
  assert (A' : value a < 0).
  { rewrite Vd. apply Rle_lt_trans with (- bpow radix2 (-1022)); [|pose proof (bpow_gt_0 radix2 (-1022)); lra].
    apply rnd_le_fmt.
    - replace (- bpow radix2 (-1022)) with (IZR (-1) * bpow radix2 (-1022)) by lra. apply fmt_int; lia.
    - eapply Rle_trans; [exact Nl|]. apply Ropp_le_contravar. 
      change (-1022)%Z with (- (1022))%Z. rewrite bpow_opp. apply Rinv_le_contravar; [apply pow_lt; lra|].
      rewrite <- IZR_Zpower by lia. rewrite pow_IZR. apply IZR_le. apply Z.leb_le. vm_compute. reflexivity. }
  destruct (fadd_ok (futc x) a F Fd) as (Fa & Va). { rewrite V. apply small_abs, Rabs_le. cbn in A. lra. }
  rewrite V in Va. replace (24 * / 2 - 12 + value a) with (value a) in Va by lra. rewrite rnd_fmt in Va by apply value_fmt.
  destruct (fpymod_bounds _ (of_Z 24) 24 ltac:(lia) eq_refl Fa) as (Fm & Vm & Rm). rewrite Va in Vm.
  assert (M : modulo (value a) 24 = 24 + value a). { apply modulo_unique with (-1)%Z; [lra| |]; cbn in A; lra. }
  rewrite M in Vm. set (r := value (fpymod (fadd (futc x) a) (of_Z 24))) in *.
  destruct Rm as (_ & [Rm|Rm]); auto. exfalso.
  assert (P : (bpow radix2 (5 - 1) <= 24 + value a < bpow radix2 5)) by (cbn in A |- *; lra).
  assert (L : 16 <= r). { rewrite Vm. apply rnd_ge; [replace 16 with (bpow radix2 4) by (cbn; lra); apply fmt_pow; lia|cbn in A; lra]. }
  destruct (fmt_grid r 5) as (k & Ek); [apply value_fmt|cbn; lra|lia|]. change (5 - 53)%Z with (-48)%Z in Ek.
  assert (K : (k <= 24 * 281474976710656 - 1)%Z). { assert (k < 24 * 281474976710656)%Z; [|lia]. apply lt_IZR. rewrite mult_IZR. rewrite Ek in Rm. cbn in Rm. lra. }
  apply IZR_le in K. rewrite minus_IZR, mult_IZR in K.
  assert (Rk : r <= 24 - bpow radix2 (-48)). { rewrite Ek. cbn. lra. }
  pose proof (rnd_half (24 + value a) 5 P ltac:(lia)) as Hh. change (5 - 53)%Z with (-48)%Z in Hh. rewrite <- Vm in Hh. rewrite Rabs_bound in Hh. cbn in Hh, A, Rk. lra.
Qed.
