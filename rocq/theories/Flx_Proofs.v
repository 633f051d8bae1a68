(** Rounding when an angle is split into degrees, minutes and seconds. *)
From Coq Require Import ZArith Reals Lra Lia Psatz Bool.
From Flocq Require Import Core.Core IEEE754.BinarySingleNaN IEEE754.Binary IEEE754.Bits.
From Verif Require Import Py Fl_Model Fl_Spec Fl_Proofs Flg_Num Flx_Model.
Open Scope R_scope.
#[local] Strategy 1000 [fmul fadd fsub fdiv fneg of_Z].

(** ** [int] and [%] *)
Lemma fint_ok x : finite x -> 0 <= value x -> fint x = Ok (Zfloor (value x)).
Proof.
  intros F P. rewrite <- (floor_ok x F). destruct x as [s|s|s pl H|s m e B]; try reflexivity. cbn [fint ffloor].
  destruct s; [|destruct (Z.leb_spec 0 e); [reflexivity|]; f_equal; apply Z.quot_div_nonneg; [lia|apply Z.pow_pos_nonneg; lia]].
  exfalso. unfold value in P. cbn [B2R cond_Zopp] in P. assert (F2R (Float radix2 (Z.neg m) e) < 0) by (apply F2R_lt_0; reflexivity). cbn [cond_Zopp Z.opp] in P. lra.
Qed.
Lemma normalize_ok z e : (Z.abs z <= 9007199254740992)%Z -> (-1074 <= e <= 0)%Z ->
  let r := binary_normalize 53 1024 (eq_refl : Prec_gt_0 53) (eq_refl : Prec_lt_emax 53 1024) mode_NE z e false in finite r /\ value r = IZR z * bpow radix2 e /\ ((0 <= z)%Z -> Bsign 53 1024 r = false).
Proof.
  intros Hz He r. unfold r, finite, value. match goal with |- context [binary_normalize _ _ ?a ?b] => pose proof (binary_normalize_correct 53 1024 a b mode_NE z e false) as C end.
  cbn [round_mode] in C. assert (E : F2R (Float radix2 z e) = IZR z * bpow radix2 e) by reflexivity. rewrite E in C. fold (rnd (IZR z * bpow radix2 e)) in C. rewrite (rnd_fmt (IZR z * bpow radix2 e)) in C by (apply fmt_int; [exact Hz|lia]).
  rewrite Rlt_bool_true in C; [destruct C as (C1 & C2 & C3); split; [exact C2|]; split; [exact C1|]; intros Z0; rewrite C3; pose proof (bpow_gt_0 radix2 e); apply IZR_le in Z0; destruct (Rcompare_spec (IZR z * bpow radix2 e) 0); try reflexivity; nra|]. rewrite Rabs_mult, <- abs_IZR, (Rabs_pos_eq (bpow _ _)) by apply bpow_ge_0.
  apply IZR_le in Hz. assert (B1 : bpow radix2 e <= 1) by (apply (bpow_le radix2 e 0); lia). pose proof (bpow_ge_0 radix2 e).
  apply Rle_lt_trans with (9007199254740992 * 1); [apply Rmult_le_compat; try lra; apply IZR_le; lia|]. rewrite Rmult_1_r. apply Rle_lt_trans with (bpow radix2 100); [cbn; lra|apply bpow_lt; lia].
Qed.
Lemma Zfloor_unique x z : IZR z <= x < IZR z + 1 -> Zfloor x = z.
Proof. intros H. apply Zfloor_imp. rewrite plus_IZR. lra. Qed.
Lemma fremainder_ok x y : finite x -> 0 <= value x -> (0 < y < 9007199254740992)%Z ->
  finite (fremainder x y) /\ value (fremainder x y) = value x - IZR y * IZR (Zfloor (value x / IZR y)) /\ Bsign 53 1024 (fremainder x y) = false.
Proof.
  intros F P Y. assert (Y' : 0 < IZR y) by (apply IZR_lt; lia). destruct x as [s|s|s pl H|s m e B]; cbn in F; try discriminate.
  - cbn [fremainder]. destruct (normalize_ok 0 0 ltac:(lia) ltac:(lia)) as (F0 & V0 & S0). fold (of_Z 0) in F0, V0, S0. split; [exact F0|]. split; [|apply S0; lia]. rewrite V0, Rmult_0_l. unfold value. cbn [B2R]. unfold Rdiv. rewrite Rmult_0_l, (Zfloor_IZR 0). ring.
  - destruct s. { exfalso. unfold value in P. cbn [B2R cond_Zopp] in P. assert (F2R (Float radix2 (Z.neg m) e) < 0) by (apply F2R_lt_0; reflexivity). cbn [cond_Zopp Z.opp] in P. lra. }
    cbn [fremainder]. unfold value at 2 3. cbn [B2R cond_Zopp]. unfold F2R. cbn [Fnum Fexp]. destruct (Z.leb_spec 0 e) as [L|L].
    + pose proof (Z.mod_pos_bound (Z.pos m * 2 ^ e) y ltac:(lia)) as MB. destruct (normalize_ok ((Z.pos m * 2 ^ e) mod y) 0 ltac:(lia) ltac:(lia)) as (F1 & V1 & S1). fold (of_Z ((Z.pos m * 2 ^ e) mod y)) in F1, V1, S1. split; [exact F1|]. split; [|apply S1; lia]. rewrite V1. change (bpow radix2 0) with 1. rewrite Rmult_1_r.
      rewrite <- IZR_Zpower by auto. change (radix2 ^ e)%Z with (2 ^ e)%Z. rewrite <- mult_IZR. set (z := (Z.pos m * 2 ^ e)%Z) in *. rewrite Zfloor_div by lia. rewrite <- mult_IZR, <- minus_IZR. f_equal. pose proof (Z.div_mod z y ltac:(lia)). lia.
    + assert (E0 : (0 < 2 ^ (- e))%Z) by (apply Z.pow_pos_nonneg; lia). pose proof (Z.mod_pos_bound (Z.pos m) (y * 2 ^ (- e)) ltac:(nia)) as MB. pose proof (Z.mod_le (Z.pos m) (y * 2 ^ (- e)) ltac:(lia) ltac:(nia)) as ML.
      assert (MM : (Z.pos m < 9007199254740992)%Z /\ (-1074 <= e)%Z).
      { clear - B. unfold bounded in B. apply andb_true_iff in B. destruct B as (B & _). pose proof (canonical_canonical_mantissa 53 1024 false m e B) as C. apply Zeq_bool_eq in B. unfold SpecFloat.fexp, SpecFloat.emin in B. split; [|lia].
        assert (D : (Z.pos (SpecFloat.digits2_pos m) <= 53)%Z) by lia. rewrite <- Digits.Zdigits2_Zdigits in * || idtac.
        assert (G : (Digits.Zdigits radix2 (Z.pos m) <= 53)%Z) by (rewrite <- Digits.Zpos_digits2_pos; exact D). pose proof (Digits.Zdigits_correct radix2 (Z.pos m)) as (_ & K). eapply Z.lt_le_trans; [exact K|]. change 9007199254740992%Z with (radix2 ^ 53)%Z. apply Zpower_le. exact G. }
      destruct (normalize_ok (Z.pos m mod (y * 2 ^ (- e))) e ltac:(lia) ltac:(lia)) as (F1 & V1 & S1). split; [exact F1|]. split; [|apply S1; lia]. rewrite V1.
      assert (BE : bpow radix2 e = / IZR (2 ^ (- e))). { replace e with (- (- e))%Z at 1 by lia. rewrite bpow_opp, <- IZR_Zpower by lia. reflexivity. } rewrite BE.
      assert (E1 : 0 < IZR (2 ^ (- e))) by (apply IZR_lt; exact E0). replace (IZR (Z.pos m) * / IZR (2 ^ (- e)) / IZR y) with (IZR (Z.pos m) / IZR (y * 2 ^ (- e))) by (rewrite mult_IZR; field; lra). rewrite Zfloor_div by nia.
      rewrite (Zmod_eq_full (Z.pos m)) by nia. rewrite minus_IZR, !mult_IZR. field. lra.
Qed.

(** ** Rounding of multiples *)
Lemma cexp_at t k : (-1021 <= k)%Z -> bpow radix2 (k - 1) <= t < bpow radix2 k -> cexp radix2 (SpecFloat.fexp 53 1024) t = (k - 53)%Z.
Proof. intros K H. unfold cexp. rewrite (mag_unique_pos radix2 t k H), fexp_FLT. unfold FLT_exp. lia. Qed.
Lemma half_even_below n : Z.even n = true -> ZnearestE (IZR n - / 2) = n.
Proof.
  intros E. unfold Znearest. assert (FL : Zfloor (IZR n - / 2) = (n - 1)%Z) by (apply Zfloor_unique; rewrite minus_IZR; lra). assert (CE : Zceil (IZR n - / 2) = n) by (apply Zceil_imp; rewrite minus_IZR; lra).
  rewrite FL, CE. rewrite Rcompare_Eq by (rewrite minus_IZR; lra). rewrite Z.even_sub, E. reflexivity.
Qed.
Lemma round_up t c n : cexp radix2 (SpecFloat.fexp 53 1024) t = c -> Z.even n = true -> (IZR n - / 2) * bpow radix2 c <= t -> IZR n * bpow radix2 c <= rnd t.
Proof.
  intros C E H. unfold rnd, round, F2R, scaled_mantissa. rewrite C. cbn [Fnum Fexp]. apply Rmult_le_compat_r; [apply bpow_ge_0|]. apply IZR_le. rewrite <- (half_even_below n E). apply Zrnd_le; [apply valid_rnd_N|].
  rewrite bpow_opp. pose proof (bpow_gt_0 radix2 c). apply Rmult_le_reg_r with (bpow radix2 c); [lra|]. rewrite Rmult_assoc, Rinv_l by lra. lra.
Qed.
Lemma round_down t c a : t <> 0 -> cexp radix2 (SpecFloat.fexp 53 1024) t = c -> a <= rnd t -> a - / 2 * bpow radix2 c <= t.
Proof.
  intros N C H. assert (E : Rabs (rnd t - t) <= / 2 * bpow radix2 c). { rewrite <- C, <- ulp_neq_0 by exact N. apply error_le_half_ulp. apply (fexp_correct 53 1024). reflexivity. } apply Rabs_le_inv in E. lra.
Qed.
(** A float between 1/64 and 1024 as a whole multiple of a power of two. *)
Lemma split_float x : fmt x -> / 64 <= x < 1024 -> exists X e, (-58 <= e <= -43)%Z /\ (4503599627370496 <= X < 9007199254740992)%Z /\ x = IZR X * bpow radix2 e.
Proof.
  intros F B. destruct (mag radix2 x) as (k & K). specialize (K ltac:(lra)). rewrite Rabs_pos_eq in K by lra.
  assert (K1 : (k <= 10)%Z). { assert (bpow radix2 (k - 1) < bpow radix2 10) by (change (bpow radix2 10) with 1024; lra). apply lt_bpow in H. lia. }
  assert (K2 : (-5 <= k)%Z). { assert (bpow radix2 (-6) < bpow radix2 k) by (change (bpow radix2 (-6)) with (/ 64); lra). apply lt_bpow in H. lia. }
  exists (Ztrunc (scaled_mantissa radix2 (SpecFloat.fexp 53 1024) x)), (k - 53)%Z. split; [lia|].
  pose proof F as G. unfold fmt, generic_format, F2R in G. cbn [Fnum Fexp] in G. rewrite (cexp_at x k ltac:(lia) K) in G. split; [|exact G].
  set (X := Ztrunc _) in *. clearbody X. rewrite G in K. pose proof (bpow_gt_0 radix2 (k - 53)) as P.
  replace (k - 1)%Z with (52 + (k - 53))%Z in K by lia. replace (bpow radix2 k) with (bpow radix2 53 * bpow radix2 (k - 53)) in K by (rewrite <- bpow_plus; f_equal; lia). rewrite bpow_plus in K.
  destruct K as (Ka & Kb). apply Rmult_le_reg_r in Ka; [|exact P]. apply Rmult_lt_reg_r in Kb; [|exact P]. change (bpow radix2 52) with (IZR 4503599627370496) in Ka. change (bpow radix2 53) with (IZR 9007199254740992) in Kb. apply le_IZR in Ka. apply lt_IZR in Kb. lia.
Qed.
Lemma whole_multiple q e : (-58 <= e <= -43)%Z -> exists w, IZR q = IZR (8796093022208 * w) * bpow radix2 e.
Proof.
  intros E. exists (q * 2 ^ (- e - 43))%Z. replace (8796093022208 * (q * 2 ^ (- e - 43)))%Z with (q * (2 ^ 43 * 2 ^ (- e - 43)))%Z by (change (2 ^ 43)%Z with 8796093022208%Z; ring). rewrite <- Z.pow_add_r by lia.
  replace (43 + (- e - 43))%Z with (- e)%Z by lia. rewrite mult_IZR. change (2 ^ (- e))%Z with (radix2 ^ (- e))%Z. rewrite IZR_Zpower by lia. rewrite Rmult_assoc, <- bpow_plus. replace (- e + e)%Z with 0%Z by lia. cbn. ring.
Qed.
Lemma below_stays x D k : fmt x -> / 64 <= x < 1024 -> x < IZR D -> 1 <= k <= 4000 -> rnd (x * k) < IZR D * k.
Proof.
  intros F B L K. destruct (split_float x F B) as (X & e & He & HX & EX). destruct (whole_multiple D e He) as (w & EW). pose proof (bpow_gt_0 radix2 e) as P.
  assert (XW : (X + 1 <= 8796093022208 * w)%Z). { rewrite EX, EW in L. apply Rmult_lt_reg_r in L; [|exact P]. apply lt_IZR in L. lia. }
  assert (L1 : x + bpow radix2 e <= IZR D). { rewrite EX, EW. apply IZR_le in XW. rewrite plus_IZR in XW. nra. }
  assert (L2 : x * uu < bpow radix2 e). { rewrite EX, uu_value. assert (IZR X < 9007199254740992) by (apply IZR_lt; lia). nra. }
  destruct (rnd_rel (x * k)) as (d & Hd & Ed). { rewrite Rabs_pos_eq by nra. apply Rle_trans with (bpow radix2 (-6)); [apply bpow_le; lia|]. change (bpow radix2 (-6)) with (/ 64). nra. }
  rewrite Ed. apply Rabs_le_inv in Hd. assert (x * k * d <= x * k * uu) by (apply Rmult_le_compat_l; [nra|lra]). assert ((x * uu) * k < bpow radix2 e * k) by (apply Rmult_lt_compat_r; lra). assert ((x + bpow radix2 e) * k <= IZR D * k) by (apply Rmult_le_compat_r; lra). lra.
Qed.
(** If the seconds have passed a whole minute then so have the minutes. *)
Lemma minutes_follow x q : fmt x -> 0 <= x < 1000 -> (1 <= q)%Z -> IZR (60 * q) <= rnd (x * 3600) -> IZR q <= rnd (x * 60).
Proof.
  intros F B Q H. assert (Q1 : 1 <= IZR q) by (apply IZR_le; lia). rewrite mult_IZR in H.
  assert (B1 : / 64 <= x). { apply Rnot_lt_le. intros L. assert (G : rnd (x * 3600) <= 57). { apply rnd_le_fmt; [|lra]. replace 57 with (IZR 57 * bpow radix2 0) by (cbn; ring). apply fmt_int; lia. } lra. }
  destruct (split_float x F ltac:(lra)) as (X & e & He & HX & EX). destruct (whole_multiple q e He) as (w & EW). pose proof (bpow_gt_0 radix2 e) as P. set (p := bpow radix2 e) in *.
  assert (T60 : x * 60 = IZR (60 * X) * p) by (rewrite mult_IZR, EX; ring). assert (T36 : x * 3600 = IZR (3600 * X) * p) by (rewrite mult_IZR, EX; ring).
  assert (MAG : forall z k, (0 <= k)%Z -> (2 ^ (k - 1) <= z < 2 ^ k)%Z -> (1 <= k)%Z -> bpow radix2 (k + e - 1) <= IZR z * p < bpow radix2 (k + e)).
  { intros z k K0 (Z1 & Z2) K1. apply IZR_le in Z1. apply IZR_lt in Z2. change (2 ^ (k - 1))%Z with (radix2 ^ (k - 1))%Z in Z1. change (2 ^ k)%Z with (radix2 ^ k)%Z in Z2. rewrite IZR_Zpower in Z1 by lia. rewrite IZR_Zpower in Z2 by lia.
    replace (k + e - 1)%Z with ((k - 1) + e)%Z by lia. rewrite !bpow_plus. fold p. split; [apply Rmult_le_compat_r; lra|apply Rmult_lt_compat_r; lra]. }
  assert (UP : forall k c, (0 <= k)%Z -> c = (k - 53)%Z -> (c = 5 \/ c = 6)%Z -> (2 ^ (k - 1) <= 60 * X < 2 ^ k)%Z -> (8796093022208 * w - 2 ^ (c - 1) <= 60 * X)%Z -> IZR q <= rnd (x * 60)).
  { intros k c K C C' KB L. set (n := (8796093022208 * w / 2 ^ c)%Z). assert (N : (8796093022208 * w = n * 2 ^ c)%Z /\ Z.even n = true).
    { destruct C' as [-> | ->]; unfold n; [replace (8796093022208 * w)%Z with (137438953472 * 2 * w * 2 ^ 5)%Z by lia|replace (8796093022208 * w)%Z with (68719476736 * 2 * w * 2 ^ 6)%Z by lia]; rewrite Z.div_mul by lia; (split; [reflexivity|]); rewrite !Z.even_mul; reflexivity. }
    destruct N as (N1 & N2). assert (CE : bpow radix2 (c + e) = IZR (2 ^ c) * p). { rewrite bpow_plus. fold p. f_equal. change (2 ^ c)%Z with (radix2 ^ c)%Z. rewrite IZR_Zpower by lia. reflexivity. }
    replace (IZR q) with (IZR n * bpow radix2 (c + e)). 2:{ rewrite CE, EW, N1, (mult_IZR n). fold p. ring. }
    apply round_up; [|exact N2|].
    - rewrite T60. rewrite (cexp_at _ (k + e) ltac:(lia) (MAG (60 * X)%Z k K KB ltac:(lia))). lia.
    - rewrite CE, T60. replace ((IZR n - / 2) * (IZR (2 ^ c) * p)) with (IZR (8796093022208 * w - 2 ^ (c - 1)) * p).
      + apply Rmult_le_compat_r; [lra|]. now apply IZR_le.
      + rewrite minus_IZR, N1, mult_IZR. replace (IZR (2 ^ c)) with (2 * IZR (2 ^ (c - 1))) by (rewrite <- mult_IZR; f_equal; destruct C' as [-> | ->]; reflexivity). field. }
  assert (DOWN : forall k c, (0 <= k)%Z -> c = (k - 53)%Z -> (1 <= c)%Z -> (2 ^ (k - 1) <= 3600 * X < 2 ^ k)%Z -> (60 * (8796093022208 * w) - 2 ^ (c - 1) <= 3600 * X)%Z).
  { intros k c K C C1 KB. assert (T0 : x * 3600 <> 0) by lra. pose proof (round_down (x * 3600) (c + e) (60 * IZR q) T0) as R. rewrite T36 in R at 1. rewrite (cexp_at _ (k + e) ltac:(lia) (MAG (3600 * X)%Z k K KB ltac:(lia))) in R. specialize (R ltac:(lia) H).
    rewrite EW, T36, bpow_plus in R. fold p in R. change (bpow radix2 c) with (bpow radix2 c) in R. replace (bpow radix2 c) with (2 * IZR (2 ^ (c - 1))) in R.
    2:{ change (2 ^ (c - 1))%Z with (radix2 ^ (c - 1))%Z. rewrite IZR_Zpower by lia. replace (bpow radix2 c) with (bpow radix2 (1 + (c - 1))) by (f_equal; lia). rewrite bpow_plus. reflexivity. }
    apply le_IZR. rewrite minus_IZR, (mult_IZR 60). apply Rmult_le_reg_r with p; [exact P|]. lra. }
  destruct (Z.le_gt_cases (2 ^ 64) (3600 * X)) as [C|C]; change (2 ^ 64)%Z with 18446744073709551616%Z in C.
  - assert (K : (2 ^ (65 - 1) <= 3600 * X < 2 ^ 65)%Z) by (change (2 ^ (65 - 1))%Z with 18446744073709551616%Z; change (2 ^ 65)%Z with 36893488147419103232%Z; lia).
    pose proof (DOWN 65 12 ltac:(lia) ltac:(lia) ltac:(lia) K)%Z as D. change (2 ^ (12 - 1))%Z with 2048%Z in D.
    apply (UP 59 6)%Z; lia.
  - assert (K : (2 ^ (64 - 1) <= 3600 * X < 2 ^ 64)%Z) by (change (2 ^ (64 - 1))%Z with 9223372036854775808%Z; change (2 ^ 64)%Z with 18446744073709551616%Z; lia).
    pose proof (DOWN 64 11 ltac:(lia) ltac:(lia) ltac:(lia) K)%Z as D. change (2 ^ (11 - 1))%Z with 1024%Z in D. destruct (Z.le_gt_cases 288230376151711744 (60 * X)) as [C2|C2].
    + apply (UP 59 6)%Z; lia.
    + apply (UP 58 5)%Z; lia.
Qed.
