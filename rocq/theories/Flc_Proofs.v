(** Proofs about remainders and truncation in floating point. *)
From Coq Require Import List ZArith Reals Lra Lia Bool Psatz.
From Flocq Require Import Core.Core IEEE754.BinarySingleNaN IEEE754.Binary IEEE754.Bits Relative Sterbenz.
From Verif Require Import Py Fl_Model Fl_Spec Fl_Proofs Flc_Model.
Open Scope R_scope.

#[local] Instance prec53' : Prec_gt_0 53 := eq_refl.

Lemma signed_cond s m : signed s m = cond_Zopp s (Z.pos m). Proof. destruct s; reflexivity. Qed.
Lemma mantissa_bounds m e : SpecFloat.bounded 53 1024 m e = true -> (Z.pos m < 9007199254740992)%Z /\ (-1074 <= e <= 971)%Z.
Proof.
  intros B. unfold SpecFloat.bounded in B. apply andb_prop in B. destruct B as (B & B').
  apply Z.leb_le in B'.
  unfold SpecFloat.canonical_mantissa in B. apply Zeq_bool_eq in B. rewrite fexp_FLT in B. unfold FLT_exp in B.
  assert (D : (Zdigits radix2 (Z.pos m) <= 53)%Z).
  { rewrite <- Digits.Zpos_digits2_pos. revert B. generalize (Digits.digits2_pos m). intros p B. lia. }
  apply Digits.Zpower_gt_Zdigits in D. change (Zpower radix2 53) with 9007199254740992%Z in D. cbn [Z.abs] in D.
  split; [exact D|]. lia.
Qed.
Lemma value_finite s m e H : value (B754_finite 53 1024 s m e H) = IZR (signed s m) * bpow radix2 e.
Proof. unfold value, B2R, F2R. cbn [Fnum Fexp]. now rewrite signed_cond. Qed.
Lemma scaled z e e0 : (e0 <= e)%Z -> IZR z * bpow radix2 e = IZR (z * 2 ^ (e - e0)) * bpow radix2 e0.
Proof.
  intros L. rewrite mult_IZR. change 2%Z with (radix_val radix2). rewrite IZR_Zpower by lia. rewrite Rmult_assoc, <- bpow_plus. f_equal. f_equal. lia.
Qed.

Lemma normalize_exact k e s : (Z.abs k <= 9007199254740992)%Z -> (-1074 <= e <= 971)%Z ->
  finite (binary_normalize 53 1024 (eq_refl : Prec_gt_0 53) (eq_refl : Prec_lt_emax 53 1024) mode_NE k e s) /\
  value (binary_normalize 53 1024 (eq_refl : Prec_gt_0 53) (eq_refl : Prec_lt_emax 53 1024) mode_NE k e s) = IZR k * bpow radix2 e \/ (k = 9007199254740992 \/ k = -9007199254740992)%Z.
Proof.
  intros K E. destruct (Z.eq_dec (Z.abs k) 9007199254740992) as [X|X]; [right; lia|left].
  match goal with |- context [binary_normalize _ _ ?a ?b] => pose proof (binary_normalize_correct 53 1024 a b mode_NE k e s) as C end.
  cbn [round_mode] in C.
  assert (V : F2R (Float radix2 k e) = IZR k * bpow radix2 e) by reflexivity. rewrite V in C.
  fold (rnd (IZR k * bpow radix2 e)) in C. rewrite (rnd_fmt (IZR k * bpow radix2 e)) in C by (apply fmt_int; lia).
  rewrite Rlt_bool_true in C; [unfold finite, value; tauto|].
  rewrite Rabs_mult, (Rabs_pos_eq (bpow radix2 e)) by apply bpow_ge_0. rewrite <- abs_IZR.
  apply Rlt_le_trans with (9007199254740992 * bpow radix2 e).
  - apply Rmult_lt_compat_r; [apply bpow_gt_0|]. apply IZR_lt. lia.
  - replace 9007199254740992 with (bpow radix2 53) by (cbn; lra). rewrite <- bpow_plus. apply bpow_le. lia.
Qed.

Lemma Ztrunc_quot x y : (y <> 0)%Z -> Ztrunc (IZR x / IZR y) = Z.quot x y.
Proof.
  intros Y.
  assert (P : forall a b, (0 <= a)%Z -> (0 < b)%Z -> Ztrunc (IZR a / IZR b) = Z.quot a b).
  { intros a b A B. rewrite Ztrunc_floor.
    - rewrite Zfloor_div by lia. symmetry. now apply Z.quot_div_nonneg.
    - apply IZR_le in A. apply IZR_lt in B. apply Rmult_le_pos; [auto|]. left. now apply Rinv_0_lt_compat. }
  assert (Nz : IZR y <> 0) by (now apply IZR_neq).
  destruct (Z.le_ge_cases 0 x) as [Hx|Hx], (Z.lt_total 0 y) as [Hy|[Hy|Hy]]; try congruence.
  - now apply P.
  - replace (IZR x / IZR y) with (- (IZR x / IZR (- y))) by (rewrite opp_IZR; field; auto).
    rewrite Ztrunc_opp, P by lia. rewrite Z.quot_opp_r by lia. lia.
  - replace (IZR x / IZR y) with (- (IZR (- x) / IZR y)) by (rewrite opp_IZR; field; auto).
    rewrite Ztrunc_opp, P by lia. rewrite Z.quot_opp_l by lia. lia.
  - replace (IZR x / IZR y) with (IZR (- x) / IZR (- y)) by (rewrite !opp_IZR; field; auto).
    rewrite P by lia. now rewrite Z.quot_opp_opp.
Qed.

(** [fmod] is exact. *)
Lemma fmod_ok x y : finite x -> finite y -> value y <> 0 ->
  finite (fmod x y) /\ value (fmod x y) = value x - value y * IZR (Ztrunc (value x / value y)).
Proof.
  intros Fx Fy Ny.
  destruct y as [s'|s'|s' pl' H'|s' m' e' B']; cbn in Fy; try discriminate; [elim Ny; reflexivity|].
  destruct x as [s|s|s pl H|s m e B]; cbn in Fx; try discriminate.
  - cbn [fmod]. split; [reflexivity|]. change (value (B754_zero 53 1024 s)) with 0.
    unfold Rdiv. rewrite Rmult_0_l. rewrite (Ztrunc_IZR 0). lra.
  - destruct (mantissa_bounds m e B) as (M & E). destruct (mantissa_bounds m' e' B') as (M' & E').
    cbn [fmod]. cbv zeta. rewrite !value_finite in *.
    set (e0 := Z.min e e'). assert (L : (e0 <= e)%Z) by lia. assert (L' : (e0 <= e')%Z) by lia.
    rewrite (scaled (signed s m) e e0 L), (scaled (signed s' m') e' e0 L').
    assert (C : (Z.abs (signed s m * 2 ^ (e - e0)) < 9007199254740992 \/ Z.abs (signed s' m' * 2 ^ (e' - e0)) < 9007199254740992)%Z).
    { destruct (Z.min_spec e e') as [(_ & W)|(_ & W)]; fold e0 in W; [left|right]; rewrite <- W, Z.sub_diag, Z.pow_0_r, Z.mul_1_r.
      - destruct s; cbn; lia.
      - destruct s'; cbn; lia. }
    set (X := (signed s m * 2 ^ (e - e0))%Z) in *. set (Y := (signed s' m' * 2 ^ (e' - e0))%Z) in *.
    assert (Y0 : (Y <> 0)%Z).
    { unfold Y. assert (0 < 2 ^ (e' - e0))%Z by (apply Z.pow_pos_nonneg; lia). destruct s'; cbn [signed]; nia. }
    clearbody X Y. clear Ny M M'.
    pose proof (Z.rem_bound_abs X Y Y0) as R1. pose proof (Z.quot_rem' X Y) as R2.
    assert (R3 : (Z.abs (Z.rem X Y) <= Z.abs X)%Z).
    { destruct (Z.eq_dec X 0) as [->|X0]; [rewrite Z.rem_0_l by auto; lia|].
      rewrite <- Z.rem_abs by auto. rewrite Z.rem_mod_nonneg by lia. apply Z.mod_le; lia. }
    assert (P : 0 < bpow radix2 e0) by apply bpow_gt_0.
    destruct (normalize_exact (Z.rem X Y) e0 s) as [(F & V)|W]; [lia|lia| |lia].
    split; [exact F|]. rewrite V. 
    replace (IZR X * bpow radix2 e0 / (IZR Y * bpow radix2 e0)) with (IZR X / IZR Y) by (field; split; [lra|now apply IZR_neq]).
    rewrite Ztrunc_quot by auto. rewrite R2 at 2. rewrite plus_IZR, mult_IZR. ring.
Qed.

Definition modulo (x m : R) : R := x - m * IZR (Zfloor (x / m)).
Lemma modulo_range x m : 0 < m -> 0 <= modulo x m < m.
Proof.
  intros M. unfold modulo. pose proof (Zfloor_lb (x / m)) as A. pose proof (Zfloor_ub (x / m)) as B.
  assert (E : x = m * (x / m)) by (field; lra). split; [|]; rewrite E at 1; nra.
Qed.
Lemma modulo_unique x m r k : 0 < m -> 0 <= r < m -> x = r + IZR k * m -> modulo x m = r.
Proof.
  intros M R E. unfold modulo. assert (F : Zfloor (x / m) = k).
  { apply Zfloor_imp. rewrite plus_IZR. subst x. replace ((r + IZR k * m) / m) with (r / m + IZR k) by (field; lra).
    assert (0 <= r / m < 1); [|lra]. split; [apply Rmult_le_pos; [lra|left; now apply Rinv_0_lt_compat]|].
    apply Rmult_lt_reg_r with m; auto. unfold Rdiv. rewrite Rmult_assoc, Rinv_l by lra. lra. }
  rewrite F. subst. ring.
Qed.
Lemma modulo_ex x m : exists k, x = modulo x m + IZR k * m.
Proof. exists (Zfloor (x / m)). unfold modulo. ring. Qed.

Lemma zero_ok : finite (of_Z 0) /\ value (of_Z 0) = 0.
Proof. apply of_Z_ok. lia. Qed.

(** [%] is the exact remainder, rounded. *)
Lemma fpymod_ok x y : finite x -> finite y -> 0 < value y <= bpow radix2 1000 ->
  finite (fpymod x y) /\ value (fpymod x y) = rnd (modulo (value x) (value y)).
Proof.
  intros Fx Fy Y. destruct zero_ok as (Fz & Vz). destruct (fmod_ok x y Fx Fy ltac:(lra)) as (Fm & Vm).
  pose proof (value_fmt (fmod x y)) as G.
  unfold fpymod. cbv zeta. set (m := fmod x y) in *. clearbody m.
  assert (A1 : feq y (of_Z 0) = false) by (apply not_true_is_false; rewrite feq_iff by auto; lra). rewrite A1.
  assert (A2 : flt y (of_Z 0) = false) by (apply not_true_is_false; rewrite flt_iff by auto; lra). rewrite A2. cbn [xorb].
  set (X := value x) in *. set (M := value y) in *. set (v := value m) in *.
  assert (D : X = M * (X / M)) by (field; lra).
  assert (T : v = modulo X M \/ (v < 0 /\ v + M = modulo X M) \/ v = 0 /\ modulo X M = 0).
  { destruct (Rle_or_lt 0 (X / M)) as [P|P].
    - left. rewrite Vm. unfold modulo. now rewrite Ztrunc_floor.
    - rewrite Ztrunc_ceil in Vm by lra. destruct (Req_dec (IZR (Zfloor (X / M))) (X / M)) as [Q|Q].
      + right. right. assert (Zceil (X / M) = Zfloor (X / M)) as K by (rewrite <- Q at 1; apply Zceil_IZR). rewrite K in Vm. unfold modulo. rewrite Q in *. lra.
      + right. left. pose proof (Zceil_floor_neq _ Q) as K. rewrite K, plus_IZR in Vm.
        assert (modulo X M = v + M) by (unfold modulo; rewrite Vm; ring). split; [|lra].
        pose proof (Zceil_ub (X / M)) as U. rewrite K, plus_IZR in U. pose proof (modulo_range X M ltac:(lra)).
        pose proof (Zfloor_lb (X / M)) as U1. assert (IZR (Zfloor (X / M)) + 1 <> X / M).
        { intros E. apply Q. rewrite <- E at 1. rewrite <- (plus_IZR _ 1), Zfloor_IZR, plus_IZR. 
          exfalso. pose proof (Zfloor_ub (X / M)). lra. }
        rewrite Vm. nra. }
  destruct (feq m (of_Z 0)) eqn:E.
  - apply feq_iff in E; auto. rewrite Vz in E. fold v in E. split; [reflexivity|]. change (value (B754_zero 53 1024 (Bsign 53 1024 y))) with 0.
    assert (K : modulo X M = 0). { destruct T as [T|[T|T]]; lra. }
    now rewrite K, rnd_0.
  - apply not_true_iff_false in E. rewrite feq_iff, Vz in E by auto. fold v in E.
    destruct T as [T|[(T & T')|T]]; [| |lra].
    + assert (flt m (of_Z 0) = false) as ->. { apply not_true_is_false. rewrite flt_iff, Vz by auto. fold v. pose proof (modulo_range X M ltac:(lra)). lra. }
      split; [exact Fm|]. rewrite <- T. symmetry. now apply rnd_fmt.
    + assert (flt m (of_Z 0) = true) as ->. { rewrite flt_iff, Vz by auto. exact T. }
      pose proof (modulo_range X M ltac:(lra)).
      destruct (fadd_ok m y Fm Fy) as (F & V). { fold v M. rewrite Rabs_pos_eq by lra. lra. }
      split; [exact F|]. rewrite V. fold v M. now rewrite T'.
Qed.

(** [astype(int)] *)
Lemma astype_ok x : finite x -> Rabs (value x) < 4611686018427387904 -> astype_int x = Ztrunc (value x).
Proof.
  intros F Bd. destruct x as [s|s|s pl H|s m e B]; cbn in F; try discriminate.
  - cbn [astype_int]. change (value (B754_zero 53 1024 s)) with 0. symmetry. apply (Ztrunc_IZR 0).
  - rewrite value_finite in *. cbn [astype_int]. cbv zeta.
    assert (E : (if (0 <=? e)%Z then (signed s m * 2 ^ e)%Z else Z.quot (signed s m) (2 ^ - e)) = Ztrunc (IZR (signed s m) * bpow radix2 e)).
    { destruct (Z.leb_spec 0 e) as [L|L].
      - rewrite <- IZR_Zpower by auto. rewrite <- mult_IZR. symmetry. apply Ztrunc_IZR.
      - replace e with (- (- e))%Z at 2 by lia. rewrite bpow_opp, <- IZR_Zpower by lia. symmetry. apply Ztrunc_quot.
        assert (0 < 2 ^ (- e))%Z by (apply Z.pow_pos_nonneg; lia). cbn. lia. }
    rewrite E. set (v := IZR (signed s m) * bpow radix2 e) in *. clearbody v.
    assert (R : (- 2 ^ 62 <= Ztrunc v <= 2 ^ 62)%Z).
    { apply Rabs_lt_inv in Bd. change (2 ^ 62)%Z with 4611686018427387904%Z.
      pose proof (Ztrunc_le v (IZR 4611686018427387904) ltac:(lra)) as A. pose proof (Ztrunc_le (IZR (-4611686018427387904)) v ltac:(lra)) as C.
      rewrite Ztrunc_IZR in A, C. lia. }
    assert (((- 2 ^ 63 <=? Ztrunc v)%Z && (Ztrunc v <? 2 ^ 63)%Z) = true) as ->; [|reflexivity].
    apply andb_true_intro. split; [apply Z.leb_le|apply Z.ltb_lt]; lia.
Qed.
