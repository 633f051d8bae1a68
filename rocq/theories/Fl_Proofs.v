(** Proofs about the floating-point model. *)
From Coq Require Import ZArith Reals Lra Lia Bool Psatz.
From Flocq Require Import Core.Core IEEE754.BinarySingleNaN IEEE754.Binary IEEE754.Bits Relative Sterbenz.
From Verif Require Import Py Fl_Model Fl_Spec.
Open Scope R_scope.

Definition rnd (x : R) : R := round radix2 (SpecFloat.fexp 53 1024) ZnearestE x.
Definition fmt (x : R) : Prop := generic_format radix2 (SpecFloat.fexp 53 1024) x.
#[local] Instance prec53 : Prec_gt_0 53 := eq_refl.
#[local] Instance fexp_ok : Valid_exp (SpecFloat.fexp 53 1024).
Proof. apply (fexp_correct 53 1024). exact prec53. Qed.
#[local] Instance fexp_mono : Monotone_exp (SpecFloat.fexp 53 1024).
Proof. apply (fexp_monotone 53 1024). Qed.

Lemma fexp_FLT : SpecFloat.fexp 53 1024 = FLT_exp (-1074) 53. Proof. reflexivity. Qed.
Lemma value_fmt x : fmt (value x). Proof. apply generic_format_B2R. Qed.
Lemma rnd_le x y : x <= y -> rnd x <= rnd y. Proof. apply round_le; apply _. Qed.
Lemma rnd_fmt x : fmt x -> rnd x = x. Proof. apply round_generic; apply _. Qed.
Lemma rnd_0 : rnd 0 = 0. Proof. apply round_0; apply _. Qed.
Lemma rnd_opp x : rnd (- x) = - rnd x. Proof. apply round_NE_opp. Qed.
Lemma fmt_rnd x : fmt (rnd x). Proof. apply generic_format_round; apply _. Qed.
Lemma fmt_pow e : (-1074 <= e)%Z -> fmt (bpow radix2 e).
Proof. intros H. apply generic_format_FLT_bpow; [apply prec53|exact H]. Qed.
Lemma rnd_abs_le x e : (-1074 <= e)%Z -> Rabs x <= bpow radix2 e -> Rabs (rnd x) <= bpow radix2 e.
Proof. intros E H. apply abs_round_le_generic; try apply _; auto. now apply fmt_pow. Qed.

Definition uu : R := / 2 * bpow radix2 (-53 + 1).
Lemma uu_value : uu = / 9007199254740992.
Proof. unfold uu. cbn. lra. Qed.
Lemma rnd_rel x : bpow radix2 (-1022) <= Rabs x -> exists e, Rabs e <= uu /\ rnd x = x * (1 + e).
Proof. intros H. apply (relative_error_N_FLT_ex radix2 (-1074) 53 prec53). exact H. Qed.
Lemma rnd_rel' x : x = 0 \/ bpow radix2 (-1022) <= Rabs x -> exists e, Rabs e <= uu /\ rnd x = x * (1 + e).
Proof.
  intros [->|H]; [|now apply rnd_rel]. exists 0. split; [rewrite Rabs_R0, uu_value; lra|]. rewrite rnd_0. ring.
Qed.

(** ** The operations *)
Lemma big_lt e x : (e < 1024)%Z -> Rabs x <= bpow radix2 e -> (-1074 <= e)%Z -> Rlt_bool (Rabs (rnd x)) (bpow radix2 1024) = true.
Proof. intros E H L. apply Rlt_bool_true. eapply Rle_lt_trans; [exact (rnd_abs_le x e L H)|]. now apply bpow_lt. Qed.

Lemma fmul_ok x y : finite x -> finite y -> Rabs (value x * value y) <= bpow radix2 1000 ->
  finite (fmul x y) /\ value (fmul x y) = rnd (value x * value y).
Proof.
  intros Fx Fy H. unfold fmul, b64_mult, finite, value in *.
  match goal with |- context [Bmult _ _ ?a ?b ?c] => pose proof (Bmult_correct 53 1024 a b c mode_NE x y) as C end.
  cbn [round_mode] in C. fold (rnd (B2R 53 1024 x * B2R 53 1024 y)) in C.
  rewrite (big_lt 1000) in C by (auto; lia). destruct C as (C1 & C2 & _). split; [rewrite C2; now rewrite Fx, Fy|exact C1].
Qed.
Lemma fdiv_ok x y : finite x -> value y <> 0 -> Rabs (value x / value y) <= bpow radix2 1000 ->
  finite (fdiv x y) /\ value (fdiv x y) = rnd (value x / value y).
Proof.
  intros Fx Ny H. unfold fdiv, b64_div, finite, value in *.
  match goal with |- context [Bdiv _ _ ?a ?b ?c] => pose proof (Bdiv_correct 53 1024 a b c mode_NE x y Ny) as C end.
  cbn [round_mode] in C. fold (rnd (B2R 53 1024 x / B2R 53 1024 y)) in C.
  rewrite (big_lt 1000) in C by (auto; lia). destruct C as (C1 & C2 & _). split; [now rewrite C2|exact C1].
Qed.
Lemma fadd_ok x y : finite x -> finite y -> Rabs (value x + value y) <= bpow radix2 1000 ->
  finite (fadd x y) /\ value (fadd x y) = rnd (value x + value y).
Proof.
  intros Fx Fy H. unfold fadd, b64_plus, finite, value in *.
  match goal with |- context [Bplus _ _ ?a ?b ?c] => pose proof (Bplus_correct 53 1024 a b c mode_NE x y Fx Fy) as C end.
  cbn [round_mode] in C. fold (rnd (B2R 53 1024 x + B2R 53 1024 y)) in C.
  rewrite (big_lt 1000) in C by (auto; lia). destruct C as (C1 & C2 & _). split; [now rewrite C2|exact C1].
Qed.
Lemma fsub_ok x y : finite x -> finite y -> Rabs (value x - value y) <= bpow radix2 1000 ->
  finite (fsub x y) /\ value (fsub x y) = rnd (value x - value y).
Proof.
  intros Fx Fy H. unfold fsub, b64_minus, finite, value in *.
  match goal with |- context [Bminus _ _ ?a ?b ?c] => pose proof (Bminus_correct 53 1024 a b c mode_NE x y Fx Fy) as C end.
  cbn [round_mode] in C. fold (rnd (B2R 53 1024 x - B2R 53 1024 y)) in C.
  rewrite (big_lt 1000) in C by (auto; lia). destruct C as (C1 & C2 & _). split; [now rewrite C2|exact C1].
Qed.
Lemma fabs_ok x : finite x -> finite (fabs x) /\ value (fabs x) = Rabs (value x).
Proof. intros F. unfold fabs, b64_abs, finite, value in *. split; [now rewrite is_finite_Babs|apply B2R_Babs]. Qed.
Lemma of_Z_ok z : (Z.abs z < 9007199254740992)%Z -> finite (of_Z z) /\ value (of_Z z) = IZR z.
Proof.
  intros H. unfold of_Z, finite, value.
  match goal with |- context [binary_normalize _ _ ?a ?b] => pose proof (binary_normalize_correct 53 1024 a b mode_NE z 0 false) as C end.
  cbn [round_mode] in C. assert (E : F2R (Float radix2 z 0) = IZR z) by (unfold F2R; cbn; ring). rewrite E in C. fold (rnd (IZR z)) in C.
  assert (F : fmt (IZR z)).
  { apply generic_format_FLT. exists (Float radix2 z 0); auto. cbn. lia. }
  rewrite (rnd_fmt _ F) in C. rewrite Rlt_bool_true in C; [destruct C as (C1 & C2 & _); auto|].
  rewrite <- abs_IZR. apply Rlt_trans with (IZR 9007199254740992); [now apply IZR_lt|]. cbn. apply IZR_lt. reflexivity.
Qed.

Lemma fcmp x y : finite x -> finite y -> b64_compare x y = Some (Rcompare (value x) (value y)).
Proof. intros Fx Fy. apply Bcompare_correct; auto. Qed.
Lemma flt_iff x y : finite x -> finite y -> flt x y = true <-> value x < value y.
Proof. intros Fx Fy. unfold flt. rewrite fcmp by auto. destruct (Rcompare_spec (value x) (value y)); split; intros; try discriminate; auto; lra. Qed.
Lemma fle_iff x y : finite x -> finite y -> fle x y = true <-> value x <= value y.
Proof. intros Fx Fy. unfold fle. rewrite fcmp by auto. destruct (Rcompare_spec (value x) (value y)); split; intros; try discriminate; auto; lra. Qed.
Lemma feq_iff x y : finite x -> finite y -> feq x y = true <-> value x = value y.
Proof. intros Fx Fy. unfold feq. rewrite fcmp by auto. destruct (Rcompare_spec (value x) (value y)); split; intros; try discriminate; auto; lra. Qed.
Lemma bool_iff (b : bool) (P : Prop) : (b = true <-> P) -> (b = false <-> ~ P).
Proof. destruct b; intros (A & B); split; intros; try discriminate; auto; [elim H; auto|]. intros p. now apply B in p. Qed.

(** ** Scales *)
Definition near (s q : R) : Prop := exists e, Rabs e <= uu /\ s = q * (1 + e).
Lemma near_refl q : near q q.
Proof. exists 0. split; [rewrite Rabs_R0, uu_value; lra|ring]. Qed.
Lemma pow_60 : 1000000000000000000 <= bpow radix2 60.
Proof. rewrite <- IZR_Zpower by lia. apply IZR_le. vm_compute. congruence. Qed.
Lemma pow_1000 : 1000000000000000000 <= bpow radix2 1000.
Proof. eapply Rle_trans; [apply pow_60|apply bpow_le; lia]. Qed.
Lemma pow_m1022 : bpow radix2 (-1022) <= / 1000000000000000000.
Proof.
  change (-1022)%Z with (- (1022))%Z. rewrite bpow_opp. apply Rinv_le_contravar; [apply IZR_lt; reflexivity|].
  apply Rle_trans with (bpow radix2 1000); [apply pow_1000|apply bpow_le; lia].
Qed.
Lemma literal_ok n d : (0 < n < 9007199254740992)%Z -> (0 < d < 9007199254740992)%Z ->
  finite (literal n d) /\ near (value (literal n d)) (IZR n / IZR d).
Proof.
  intros N D. destruct (of_Z_ok n) as (Fn & En); [lia|]. destruct (of_Z_ok d) as (Fd & Ed); [lia|].
  assert (N1 : 1 <= IZR n <= 10000000000000000) by (split; apply IZR_le; lia). assert (D1 : 1 <= IZR d <= 10000000000000000) by (split; apply IZR_le; lia).
  assert (P : / 10000000000000000 <= IZR n / IZR d <= 10000000000000000).
  { split.
    - apply Rmult_le_reg_r with (IZR d); [lra|]. unfold Rdiv. rewrite Rmult_assoc, Rinv_l by lra. nra.
    - apply Rmult_le_reg_r with (IZR d); [lra|]. unfold Rdiv. rewrite Rmult_assoc, Rinv_l by lra. nra. }
  assert (A : Rabs (IZR n / IZR d) = IZR n / IZR d) by (apply Rabs_pos_eq; lra).
  destruct (fdiv_ok (of_Z n) (of_Z d)) as (F & V); auto; [rewrite Ed; lra|rewrite En, Ed, A; pose proof pow_1000; lra|].
  split; auto. unfold literal. rewrite V, En, Ed. destruct (rnd_rel (IZR n / IZR d)) as (e & He & Ee); [rewrite A; pose proof pow_m1022; lra|].
  exists e. auto.
Qed.
Lemma scale_ok a : finite (unit_scale a) /\ near (value (unit_scale a)) (size a).
Proof.
  assert (Z1 : forall z, (Z.abs z < 9007199254740992)%Z -> finite (of_Z z) /\ near (value (of_Z z)) (IZR z)).
  { intros z H. destruct (of_Z_ok z H) as (F & ->). split; auto. apply near_refl. }
  destruct a; cbn [unit_scale size]; try (apply Z1; lia); apply literal_ok; lia.
Qed.
Lemma size_bounds a : / 4000 <= size a <= 90000.
Proof. destruct a; cbn [size]; lra. Qed.
Lemma size_ratio a b : kind_of a = kind_of b -> / 2000000 <= size a / size b <= 2000000.
Proof.
  intros E. pose proof (size_bounds b) as B. assert (P : 0 < size b) by lra.
  split; (apply Rmult_le_reg_r with (size b); [auto|]); unfold Rdiv; rewrite (Rmult_assoc (size a)), Rinv_l, Rmult_1_r by lra.
  - destruct a, b; try discriminate E; cbn [size]; lra.
  - destruct a, b; try discriminate E; cbn [size]; lra.
Qed.
Lemma kind_eqb_iff a b : kind_eqb a b = true <-> a = b.
Proof. destruct a, b; cbn; split; intros; try discriminate; auto. Qed.
Lemma unit_eqb_iff a b : unit_eqb a b = true <-> a = b.
Proof. destruct a, b; cbn; split; intros; try discriminate; auto. Qed.

(** ** Conversion *)
Definition off (k x y : R) : Prop := exists e, Rabs e <= k * uu /\ x = y * (1 + e).
Lemma uu_pos : 0 < uu. Proof. rewrite uu_value. lra. Qed.
Lemma uu_small : uu <= / 1000000000000000. Proof. rewrite uu_value. lra. Qed.
Lemma off_le k k' x y : off k x y -> k <= k' -> off k' x y.
Proof. intros (e & A & B) K. exists e. split; auto. pose proof uu_pos. nra. Qed.
Lemma Rabs_bound x k : Rabs x <= k <-> - k <= x <= k.
Proof. split; intros H; [unfold Rabs in H; destruct (Rcase_abs x); lra|apply Rabs_le; auto]. Qed.
Lemma off_trans k l x y z : 0 <= k <= 100 -> 0 <= l <= 100 -> off k x y -> off l y z -> off (k + l + 1) x z.
Proof.
  intros K L (e & A & ->) (f & B & ->). exists (e + f + e * f). split; [|ring].
  pose proof uu_pos as P. pose proof uu_small as Q.
  assert (M : Rabs (e * f) <= uu).
  { rewrite Rabs_mult. apply Rle_trans with ((100 * uu) * (100 * uu)).
    - apply Rmult_le_compat; try apply Rabs_pos; (eapply Rle_trans; [eassumption|apply Rmult_le_compat_r; lra]).
    - replace (100 * uu * (100 * uu)) with (uu * (10000 * uu)) by ring. apply Rle_trans with (uu * 1); [apply Rmult_le_compat_l; lra|lra]. }
  eapply Rle_trans; [apply Rabs_triang|]. eapply Rle_trans; [apply Rplus_le_compat; [apply Rabs_triang|exact M]|]. nra.
Qed.
Lemma off_div x y p q : y <> 0 -> q <> 0 -> off 1 x p -> off 1 y q -> off 3 (x / y) (p / q).
Proof.
  intros Ny Nq (e & A & ->) (f & B & ->). pose proof uu_pos as P. pose proof uu_small as Q. rewrite Rabs_bound in A, B.
  assert (N : 1 + f <> 0) by lra. exists ((1 + e) / (1 + f) - 1). split; [|field; auto].
  replace ((1 + e) / (1 + f) - 1) with ((e - f) * / (1 + f)) by (field; auto). rewrite Rabs_mult, (Rabs_pos_eq (/ (1 + f))) by (left; apply Rinv_0_lt_compat; lra).
  apply Rmult_le_reg_r with (1 + f); [lra|]. rewrite Rmult_assoc, Rinv_l, Rmult_1_r by auto. apply Rabs_le. split; nra.
Qed.
Lemma near_off s q : near s q -> off 1 s q.
Proof. intros (e & A & B). exists e. split; auto. lra. Qed.
Lemma rnd_off x : x = 0 \/ bpow radix2 (-1022) <= Rabs x -> off 1 (rnd x) x.
Proof. intros H. destruct (rnd_rel' x H) as (e & A & B). exists e. split; auto. lra. Qed.

Lemma off_pos k x y : 0 <= k <= 100 -> off k x y -> 0 < y -> y / 2 <= x <= 2 * y.
Proof. intros K (e & A & ->) Y. pose proof uu_pos. pose proof uu_small. rewrite Rabs_bound in A. assert (- (/2) <= e <= 1) by (split; nra). split; nra. Qed.

Lemma factor_ok a b : kind_of a = kind_of b ->
  finite (fdiv (unit_scale a) (unit_scale b)) /\ off 5 (value (fdiv (unit_scale a) (unit_scale b))) (size a / size b).
Proof.
  intros K. destruct (scale_ok a) as (Fa & Na). destruct (scale_ok b) as (Fb & Nb). apply near_off in Na, Nb.
  pose proof (size_bounds a) as Ba. pose proof (size_bounds b) as Bb. pose proof (size_ratio a b K) as R.
  pose proof (off_pos 1 _ _ ltac:(lra) Na ltac:(lra)) as Pa. pose proof (off_pos 1 _ _ ltac:(lra) Nb ltac:(lra)) as Pb.
  assert (O : off 3 (value (unit_scale a) / value (unit_scale b)) (size a / size b)) by (apply off_div; auto; lra).
  pose proof (off_pos 3 _ _ ltac:(lra) O ltac:(lra)) as Po. set (r := value (unit_scale a) / value (unit_scale b)) in *.
  assert (Ar : Rabs r = r) by (apply Rabs_pos_eq; lra).
  destruct (fdiv_ok (unit_scale a) (unit_scale b)) as (F & V); auto; [lra|fold r; rewrite Ar; pose proof pow_1000; lra|].
  split; auto. rewrite V. fold r. replace 5 with (1 + 3 + 1) by ring. eapply off_trans; [lra|lra| |exact O].
  apply rnd_off. right. rewrite Ar. pose proof pow_m1022. lra.
Qed.

Lemma two_pow_900 : 2 ^ 900 = bpow radix2 900.
Proof. rewrite <- IZR_Zpower by lia. rewrite pow_IZR. f_equal. Qed.
Lemma convert_ok x a b : kind_of a = kind_of b -> moderate x ->
  exists y, fconvert x a b = Ok y /\ finite y /\ off 7 (value y) (value x * (size a / size b)).
Proof.
  intros K (Fx & Mx). unfold fconvert. assert (kind_eqb (kind_of a) (kind_of b) = true) as -> by now apply kind_eqb_iff. cbn [negb].
  destruct (unit_eqb a b) eqn:U.
  - apply unit_eqb_iff in U. subst b. exists x. split; auto. split; auto. pose proof (size_bounds a). unfold Rdiv. rewrite Rinv_r, Rmult_1_r by lra.
    exists 0. split; [rewrite Rabs_R0; pose proof uu_pos; lra|ring].
  - eexists. split; [reflexivity|]. destruct (factor_ok a b K) as (Fc & Oc). set (c := fdiv (unit_scale a) (unit_scale b)) in *. clearbody c.
    pose proof (size_ratio a b K) as R. pose proof (off_pos 5 _ _ ltac:(lra) Oc ltac:(lra)) as Pc. rewrite two_pow_900 in Mx.
    assert (Ac : Rabs (value c) = value c) by (apply Rabs_pos_eq; lra).
    assert (Hi : Rabs (value x * value c) <= bpow radix2 1000).
    { rewrite Rabs_mult, Ac. assert (X : Rabs (value x) <= bpow radix2 900) by (destruct Mx as [-> |]; [rewrite Rabs_R0; apply bpow_ge_0|tauto]).
      change 1000%Z with (900 + 100)%Z. rewrite bpow_plus. apply Rmult_le_compat; [apply Rabs_pos|lra|auto|].
      apply Rle_trans with (bpow radix2 60); [pose proof pow_60; lra|apply bpow_le; lia]. }
    assert (Lo : value x * value c = 0 \/ bpow radix2 (-1022) <= Rabs (value x * value c)).
    { destruct Mx as [->|(X & _)]; [left; ring|right]. rewrite Rabs_mult, Ac. rewrite <- bpow_opp in X.
      change (-1022)%Z with (- (900) + - (122))%Z. rewrite bpow_plus. apply Rmult_le_compat; try apply bpow_ge_0; auto.
      apply Rle_trans with (bpow radix2 (-60)); [apply bpow_le; lia|]. change (-60)%Z with (- (60))%Z. rewrite bpow_opp.
      apply Rle_trans with (/ 1000000000000000000); [apply Rinv_le_contravar; [lra|apply pow_60]|lra]. }
    destruct (fmul_ok x c Fx Fc Hi) as (F & V). split; auto. rewrite V. replace 7 with (1 + 5 + 1) by ring.
    eapply off_trans; [lra|lra|apply rnd_off; exact Lo|]. destruct Oc as (e & He & Ee). exists e. split; auto. rewrite Ee. ring.
Qed.
Lemma off_abs k x y : off k x y -> Rabs (x - y) <= k * uu * Rabs y.
Proof. intros (e & A & ->). replace (y * (1 + e) - y) with (e * y) by ring. rewrite Rabs_mult. apply Rmult_le_compat_r; [apply Rabs_pos|auto]. Qed.

(** ** Julian dates *)
Definition ww : R := / 2147483648.
Lemma ww_pow : ww = bpow radix2 (-31). Proof. unfold ww. cbn. lra. Qed.

(** A number of a binade is a multiple of its spacing. *)
Lemma fmt_grid x e : fmt x -> bpow radix2 (e - 1) <= x < bpow radix2 e -> (-1021 <= e)%Z -> exists k, x = IZR k * bpow radix2 (e - 53).
Proof.
  intros F B E. unfold fmt, generic_format, F2R, scaled_mantissa in F. cbn [Fnum Fexp] in F.
  assert (M : mag radix2 x = e :> Z) by (apply mag_unique_pos; auto).
  unfold cexp in F. rewrite M in F. assert (C : SpecFloat.fexp 53 1024 e = (e - 53)%Z) by (rewrite fexp_FLT; unfold FLT_exp; lia). rewrite C in F. eauto.
Qed.
Lemma fmt_int k e : (Z.abs k <= 9007199254740992)%Z -> (-1074 <= e)%Z -> fmt (IZR k * bpow radix2 e).
Proof.
  intros K E. destruct (Z.eq_dec (Z.abs k) 9007199254740992) as [X|X].
  - assert (S : IZR k * bpow radix2 e = bpow radix2 (e + 53) \/ IZR k * bpow radix2 e = - bpow radix2 (e + 53)).
    { rewrite (Z.add_comm e), bpow_plus. assert (W : bpow radix2 53 = 9007199254740992) by (cbn; lra). rewrite W.
      destruct (Z.abs_eq_or_opp k) as [Y|Y]; [left|right]; rewrite X in Y.
      - now rewrite <- Y.
      - replace k with (-9007199254740992)%Z by lia. lra. }
    destruct S as [-> | ->]; [|apply generic_format_opp]; apply fmt_pow; lia.
  - apply generic_format_FLT. exists (Float radix2 k e); [reflexivity|cbn; lia|exact E].
Qed.
(** Rounding stays within half the spacing. *)
Lemma rnd_half x e : bpow radix2 (e - 1) <= x < bpow radix2 e -> (-1021 <= e)%Z -> Rabs (rnd x - x) <= / 2 * bpow radix2 (e - 53).
Proof.
  intros B E. pose proof (error_le_half_ulp radix2 (SpecFloat.fexp 53 1024) (fun z => negb (Z.even z)) x) as H.
  assert (P : 0 < x) by (pose proof (bpow_gt_0 radix2 (e - 1)); lra).
  rewrite ulp_neq_0 in H by lra. unfold cexp in H. rewrite (mag_unique_pos radix2 x e B) in H.
  assert (C : SpecFloat.fexp 53 1024 e = (e - 53)%Z) by (rewrite fexp_FLT; unfold FLT_exp; lia). rewrite C in H. exact H.
Qed.
Lemma jd_grid t : julian_date t -> exists k, value t = IZR k * ww /\ (4503599627370496 <= k < 9007199254740992)%Z.
Proof.
  intros (F & B). destruct (fmt_grid (value t) 22 (value_fmt t)) as (k & E); [cbn; lra|lia|]. change (22 - 53)%Z with (-31)%Z in E. rewrite <- ww_pow in E.
  exists k. split; auto. rewrite E in B. unfold ww in B. split; [apply le_IZR|apply lt_IZR]; lra.
Qed.
Lemma jd_round x : 2097152 <= x <= 4194304 -> Rabs (rnd x - x) <= ww / 2.
Proof.
  intros (A & B). destruct B as [B|B].
  - pose proof (rnd_half x 22) as H. change (22 - 53)%Z with (-31)%Z in H. rewrite <- ww_pow in H. assert (C : bpow radix2 (22 - 1) <= x < bpow radix2 22) by (cbn; lra). specialize (H C ltac:(lia)). lra.
  - subst. rewrite rnd_fmt; [replace (4194304 - 4194304) with 0 by ring; rewrite Rabs_R0; unfold ww; lra|].
    replace 4194304 with (bpow radix2 22) by (cbn; lra). apply fmt_pow. lia.
Qed.
Lemma sum_round x : 4194304 <= x <= 8388608 -> Rabs (rnd x - x) <= ww.
Proof.
  intros (A & B). destruct B as [B|B].
  - pose proof (rnd_half x 23) as H. change (23 - 53)%Z with (-30)%Z in H. assert (C : bpow radix2 (23 - 1) <= x < bpow radix2 23) by (cbn; lra). specialize (H C ltac:(lia)).
    assert (W : bpow radix2 (-30) = 2 * ww) by (unfold ww; cbn; lra). rewrite W in H. lra.
  - subst. rewrite rnd_fmt; [replace (8388608 - 8388608) with 0 by ring; rewrite Rabs_R0; unfold ww; lra|].
    replace 8388608 with (bpow radix2 23) by (cbn; lra). apply fmt_pow. lia.
Qed.
Lemma small_abs x : Rabs x <= 100000000 -> Rabs x <= bpow radix2 1000.
Proof. intros H. pose proof pow_1000. lra. Qed.

Lemma tick_ww : tick = ww. Proof. unfold tick, ww. lra. Qed.
Lemma ww_pos : 0 < ww. Proof. unfold ww. lra. Qed.
Lemma jd_range t d : julian_date t -> some_days d -> Rabs (value t + value d) <= 100000000.
Proof. intros (_ & A) (_ & B). rewrite Rabs_pos_eq by lra. lra. Qed.
Lemma end_ok t d : julian_date t -> some_days d -> finite (fadd t d) /\ value (fadd t d) = rnd (value t + value d).
Proof. intros J D. apply fadd_ok; [apply J|apply D|]. apply small_abs. now apply jd_range. Qed.
Lemma end_above t d : julian_date t -> some_days d -> value t <= value (fadd t d).
Proof. intros J D. destruct (end_ok t d J D) as (_ & ->). rewrite <- (rnd_fmt (value t)) at 1 by apply value_fmt. apply rnd_le. destruct D. lra. Qed.

(** Below a Julian date by comparison: below by half a tick. *)
Lemma below x s : 2097152 <= x -> julian_date s -> rnd x < value s -> x <= value s - ww / 2.
Proof.
  intros X J H. destruct (jd_grid s J) as (k & E & _). pose proof J as (_ & Js).
  assert (Lo : 2097152 <= rnd x).
  { replace 2097152 with (bpow radix2 21) by (cbn; lra). rewrite <- (rnd_fmt (bpow radix2 21)) by (apply fmt_pow; lia). apply rnd_le. cbn. lra. }
  destruct (fmt_grid (rnd x) 22 (fmt_rnd x)) as (j & Ej); [cbn; lra|lia|]. change (22 - 53)%Z with (-31)%Z in Ej. rewrite <- ww_pow in Ej.
  pose proof ww_pos as W. assert (L : (j < k)%Z) by (apply lt_IZR; apply Rmult_lt_reg_r with ww; lra).
  assert (L' : IZR j <= IZR k - 1) by (rewrite <- minus_IZR; apply IZR_le; lia).
  assert (S : rnd x <= value s - ww) by (rewrite Ej, E; nra).
  assert (X4 : x <= 4194304).
  { destruct (Rle_lt_dec x 4194304) as [|G]; auto. exfalso. assert (4194304 <= rnd x); [|lra].
    replace 4194304 with (bpow radix2 22) by (cbn; lra). rewrite <- (rnd_fmt (bpow radix2 22)) by (apply fmt_pow; lia). apply rnd_le. cbn. lra. }
  pose proof (jd_round x ltac:(lra)) as R. rewrite Rabs_bound in R. lra.
Qed.
(** Below by half a tick: below by comparison. *)
Lemma below' x s : 2097152 <= x -> julian_date s -> x < value s - ww / 2 -> rnd x < value s.
Proof.
  intros X (_ & Js) H. pose proof ww_pos. pose proof (jd_round x ltac:(lra)) as R. rewrite Rabs_bound in R. lra.
Qed.

(** Differences of Julian dates are exact. *)
Lemma jd_sub s t : julian_date s -> julian_date t -> finite (fsub s t) /\ value (fsub s t) = value s - value t.
Proof.
  intros Js Jt. pose proof Js as (Fs & Bs). pose proof Jt as (Ft & Bt). destruct (fsub_ok s t Fs Ft) as (F & V).
  { apply small_abs. apply Rabs_le. lra. }
  split; auto. rewrite V. apply rnd_fmt. apply sterbenz; [apply _|apply _|apply value_fmt|apply value_fmt|lra].
Qed.

(** [math.floor] *)
Lemma floor_ok x : finite x -> ffloor x = Ok (Zfloor (value x)).
Proof.
  intros F. destruct x as [s|s|s pl H|s m e B]; cbn in F; try discriminate; unfold value.
  - cbn [ffloor B2R]. f_equal. symmetry. apply (Zfloor_IZR 0).
  - cbn [ffloor B2R]. f_equal.
    assert (Z : cond_Zopp s (Z.pos m) = if s then Z.neg m else Z.pos m) by (destruct s; reflexivity). rewrite Z. set (z := if s then Z.neg m else Z.pos m). clearbody z. clear Z.
    unfold F2R. cbn [Fnum Fexp]. destruct (Z.leb_spec 0 e) as [L|L].
    + rewrite <- IZR_Zpower by auto. rewrite <- mult_IZR. symmetry. apply Zfloor_IZR.
    + replace e with (- (- e))%Z at 2 by lia. rewrite bpow_opp, <- IZR_Zpower by lia. symmetry. apply Zfloor_div. assert (0 < 2 ^ (- e))%Z by (apply Z.pow_pos_nonneg; lia). cbn. lia.
Qed.
Lemma rnd_ge a x : fmt a -> a <= x -> a <= rnd x.
Proof. intros F L. rewrite <- (rnd_fmt a F). now apply rnd_le. Qed.
Lemma rnd_le_fmt a x : fmt a -> x <= a -> rnd x <= a.
Proof. intros F L. rewrite <- (rnd_fmt a F). now apply rnd_le. Qed.
