(** Proofs about quantities of any units in floating point. *)
From Coq Require Import String List ZArith QArith Qpower Qreals Reals Lra Lia Bool Psatz.
From Flocq Require Import Core.Core Plus_error.
From Verif Require Import Py Units_Model Units_Spec Units_Proofs Units_Algebra Units_Proofs2.
From Verif Require Import Fl_Model Fl_Spec Fl_Proofs Flu_Model Flu_Spec.
Import ListNotations.
Open Scope R_scope.
#[local] Strategy 1000 [fmul fadd fsub fdiv fneg of_Z].

(** ** Relative errors as exponents, which add up *)
Definition vv : R := / 9007199254740988.
Definition rel (k x y : R) : Prop := exists e, Rabs e <= k * vv /\ x = y * exp e.
Lemma vv_pos : 0 < vv. Proof. unfold vv. lra. Qed.
Lemma rel_refl x : rel 0 x x.
Proof. exists 0. rewrite Rabs_R0, exp_0. split; lra. Qed.
Lemma rel_le k k' x y : rel k x y -> k <= k' -> rel k' x y.
Proof. intros (e & A & B) H. exists e. split; auto. pose proof vv_pos. nra. Qed.
Lemma rel_trans k l x y z : rel k x y -> rel l y z -> rel (k + l) x z.
Proof.
  intros (e & A & ->) (f & B & ->). exists (f + e). rewrite exp_plus. split; [|ring].
  eapply Rle_trans; [apply Rabs_triang|]. lra.
Qed.
Lemma rel_mul k l x y x' y' : rel k x x' -> rel l y y' -> rel (k + l) (x * y) (x' * y').
Proof.
  intros (e & A & ->) (f & B & ->). exists (e + f). rewrite exp_plus. split; [|ring].
  eapply Rle_trans; [apply Rabs_triang|]. lra.
Qed.
Lemma rel_inv k x y : y <> 0 -> rel k x y -> rel k (/ x) (/ y).
Proof.
  intros N (e & A & ->). exists (- e). rewrite Rabs_Ropp. split; auto. rewrite exp_Ropp. field. split; auto.
  pose proof (exp_pos e). lra.
Qed.
Lemma rel_div k l x y x' y' : y' <> 0 -> rel k x x' -> rel l y y' -> rel (k + l) (x / y) (x' / y').
Proof. intros N A B. unfold Rdiv. apply rel_mul; auto. now apply rel_inv. Qed.
Lemma powerRZ_exp e p : powerRZ (exp e) p = exp (IZR p * e).
Proof.
  assert (P : forall n, exp e ^ n = exp (INR n * e)).
  { induction n as [|n IH]; [cbn; now rewrite Rmult_0_l, exp_0|]. rewrite S_INR. cbn [Init.Nat.add pow]. rewrite IH, <- exp_plus. f_equal. ring. }
  destruct p as [|p|p]; cbn [powerRZ].
  - now rewrite Rmult_0_l, exp_0.
  - rewrite P, INR_IZR_INZ, positive_nat_Z. reflexivity.
  - rewrite P, INR_IZR_INZ, positive_nat_Z. change (Z.neg p) with (- Z.pos p)%Z. rewrite opp_IZR, Ropp_mult_distr_l_reverse, exp_Ropp. reflexivity.
Qed.
Lemma rel_pow k x y p : y <> 0 -> rel k x y -> rel (IZR (Z.abs p) * k) (powerRZ x p) (powerRZ y p).
Proof.
  intros N (e & A & ->). exists (IZR p * e). rewrite powerRZ_mult, powerRZ_exp. split; auto.
  rewrite Rabs_mult, <- abs_IZR, Rmult_assoc. apply Rmult_le_compat_l; auto. apply IZR_le. lia.
Qed.
Lemma ln_le x y : 0 < x -> x <= y -> ln x <= ln y.
Proof. intros P [L| ->]; [left; now apply ln_increasing|lra]. Qed.
Lemma ln_near d k : 0 <= k <= 2 -> Rabs d <= k * uu -> Rabs (ln (1 + d)) <= k * vv.
Proof.
  intros K H. rewrite uu_value in H. apply Rabs_bound in H. unfold vv.
  assert (D : - / 4000000000000000 <= d <= / 4000000000000000) by (split; nra).
  assert (U : ln (1 + d) <= d).
  { pose proof (exp_ineq1_le d) as E. apply Rle_trans with (ln (exp d)); [apply ln_le; lra|rewrite ln_exp; lra]. }
  assert (L : ln (/ (1 + d)) <= / (1 + d) - 1).
  { pose proof (exp_ineq1_le (/ (1 + d) - 1)) as E. 
    apply Rle_trans with (ln (exp (/ (1 + d) - 1))); [apply ln_le; [apply Rinv_0_lt_compat; lra|lra]|rewrite ln_exp; lra]. }
  rewrite ln_Rinv in L by lra.
  assert (Q : / (1 + d) - 1 <= k * / 9007199254740988).
  { apply Rmult_le_reg_r with (1 + d); [lra|]. rewrite Rmult_minus_distr_r, Rinv_l by lra. nra. }
  apply Rabs_le. split; nra.
Qed.
Lemma rel_of_off k x y : 0 <= k <= 2 -> off k x y -> rel k x y.
Proof.
  intros K (e & A & ->). exists (ln (1 + e)). split; [now apply ln_near|]. rewrite exp_ln; auto.
  rewrite uu_value in A. apply Rabs_bound in A. nra.
Qed.
Lemma exp_near e : Rabs e <= / 2 -> / 2 <= exp e <= 2.
Proof.
  intros H. apply Rabs_bound in H. pose proof (exp_ineq1_le e). pose proof (exp_ineq1_le (- e)) as E. rewrite exp_Ropp in E.
  split; [lra|]. pose proof (exp_pos e) as P. assert (exp e * (1 + - e) <= 1); [|nra].
  apply Rle_trans with (exp e * / exp e); [apply Rmult_le_compat_l; lra|rewrite Rinv_r by lra; lra].
Qed.
(** Back to relative errors. *)
Lemma rel_abs k x y : 0 <= k <= 200 -> rel k x y -> Rabs (x - y) <= (k + 1) * / 2 ^ 53 * Rabs y.
Proof.
  intros K (e & A & ->). replace (y * exp e - y) with ((exp e - 1) * y) by ring. rewrite Rabs_mult. apply Rmult_le_compat_r; [apply Rabs_pos|].
  replace (2 ^ 53) with 9007199254740992 by ring. unfold vv in A. apply Rabs_bound in A.
  assert (E : - / 40000000000000 <= e <= / 40000000000000) by (split; nra).
  pose proof (exp_ineq1_le e) as L. pose proof (exp_ineq1_le (- e)) as U. rewrite exp_Ropp in U. pose proof (exp_pos e) as P.
  assert (X : exp e * (1 + - e) <= 1).
  { apply Rle_trans with (exp e * / exp e); [apply Rmult_le_compat_l; lra|rewrite Rinv_r by lra; lra]. }
  apply Rabs_le. split; [nra|]. set (t := exp e) in *. clearbody t.
  assert (Y : t - 1 <= e * t) by lra. assert (T : t <= 1 + / 30000000000000) by nra.
  destruct (Rle_dec e 0) as [N|N]; [nra|]. assert (e * t <= e * (1 + / 30000000000000)) by nra.
  nra.
Qed.

(** ** Ranges *)
Definition span (k : Z) (x : R) : Prop := bpow radix2 (- k) <= x <= bpow radix2 k.
Lemma span_pos k x : span k x -> 0 < x.
Proof. intros (A & _). pose proof (bpow_gt_0 radix2 (- k)). lra. Qed.
Lemma span_le k l x : span k x -> (k <= l)%Z -> span l x.
Proof.
  intros (A & B) H. split; [eapply Rle_trans; [|exact A]|eapply Rle_trans; [exact B|]]; apply bpow_le; lia.
Qed.
Lemma span_mul k l x y : span k x -> span l y -> span (k + l) (x * y).
Proof.
  intros Hx Hy. pose proof (span_pos _ _ Hx). pose proof (span_pos _ _ Hy). destruct Hx as (A & B), Hy as (C & D). split.
  - replace (- (k + l))%Z with (- k + - l)%Z by lia. rewrite bpow_plus. apply Rmult_le_compat; auto; apply bpow_ge_0.
  - rewrite bpow_plus. apply Rmult_le_compat; auto; lra.
Qed.
Lemma span_inv k x : span k x -> span k (/ x).
Proof.
  intros H. pose proof (span_pos _ _ H). destruct H as (A & B). split.
  - rewrite bpow_opp. apply Rinv_le_contravar; auto.
  - rewrite <- (Z.opp_involutive k), bpow_opp. apply Rinv_le_contravar; auto. apply bpow_gt_0.
Qed.
Lemma span_div k l x y : span k x -> span l y -> span (k + l) (x / y).
Proof. intros A B. apply span_mul; auto. now apply span_inv. Qed.
Lemma span_1 : span 0 1. Proof. split; cbn; lra. Qed.
Lemma span_powN k x n : span k x -> span (k * Z.of_nat n) (x ^ n).
Proof.
  intros H. induction n as [|n IH]; [rewrite Z.mul_0_r; exact span_1|]. cbn [pow].
  replace (k * Z.of_nat (S n))%Z with (k + k * Z.of_nat n)%Z by lia. now apply span_mul.
Qed.
Lemma span_pow k x p : span k x -> span (k * Z.abs p) (powerRZ x p).
Proof.
  intros H. destruct p as [|p|p]; cbn [powerRZ Z.abs].
  - rewrite Z.mul_0_r. exact span_1.
  - rewrite <- (positive_nat_Z p). now apply span_powN.
  - apply span_inv. rewrite <- (positive_nat_Z p). now apply span_powN.
Qed.
Lemma span_rel j k x y : 0 <= j <= 200 -> rel j x y -> span k y -> span (k + 1) x.
Proof.
  intros J (e & A & ->) H. apply span_mul; auto. unfold vv in A. destruct (exp_near e) as (L & U); [nra|].
  split; cbn; lra.
Qed.
Lemma pow_bpow n : 2 ^ n = bpow radix2 (Z.of_nat n).
Proof. rewrite <- IZR_Zpower by lia. rewrite <- pow_IZR. reflexivity. Qed.

Definition in_span (k : Z) (x : R) : Prop := x = 0 \/ span k (Rabs x).
Lemma in_span_normal k x : (0 <= k <= 1000)%Z -> in_span k x ->
  Rabs x <= bpow radix2 1000 /\ (x = 0 \/ bpow radix2 (-1022) <= Rabs x).
Proof.
  intros K [-> |(A & B)].
  - split; [rewrite Rabs_R0; apply bpow_ge_0|now left].
  - split; [eapply Rle_trans; [exact B|apply bpow_le; lia]|right; eapply Rle_trans; [|exact A]; apply bpow_le; lia].
Qed.
Lemma in_span_mul k l x y : in_span k x -> span l (Rabs y) -> in_span (k + l) (x * y).
Proof. intros [-> |A] B; [left; ring|right]. rewrite Rabs_mult. now apply span_mul. Qed.
Lemma in_span_rel j k x y : 0 <= j <= 200 -> rel j x y -> in_span k y -> in_span (k + 1) x.
Proof.
  intros J H [-> |B].
  - left. destruct H as (e & _ & ->). ring.
  - right. apply (span_rel j k (Rabs x) (Rabs y)); auto. destruct H as (e & A & ->). exists e. split; auto.
    rewrite Rabs_mult, (Rabs_pos_eq (exp e)); auto. left. apply exp_pos.
Qed.
Lemma sensible_span k x : sensible k x -> finite x /\ in_span (Z.of_nat k) (value x).
Proof.
  intros (F & H). split; auto. destruct H as [-> |(A & B)]; [now left|right]. rewrite pow_bpow in *. split; auto. now rewrite bpow_opp.
Qed.
Lemma rnd_ok k x : (0 <= k <= 1000)%Z -> in_span k x -> rel 1 (rnd x) x.
Proof. intros K H. apply rel_of_off; [lra|]. apply rnd_off. now apply (in_span_normal k). Qed.
Lemma mul_rel k x y : (0 <= k <= 1000)%Z -> finite x -> finite y -> in_span k (value x * value y) ->
  finite (fmul x y) /\ rel 1 (value (fmul x y)) (value x * value y).
Proof.
  intros K Fx Fy H. destruct (fmul_ok x y Fx Fy) as (F & V); [now apply (in_span_normal k)|]. split; auto. rewrite V. now apply (rnd_ok k).
Qed.
Lemma div_rel k x y : (0 <= k <= 1000)%Z -> finite x -> value y <> 0 -> in_span k (value x / value y) ->
  finite (fdiv x y) /\ rel 1 (value (fdiv x y)) (value x / value y).
Proof.
  intros K Fx Ny H. destruct (fdiv_ok x y Fx Ny) as (F & V); [now apply (in_span_normal k)|]. split; auto. rewrite V. now apply (rnd_ok k).
Qed.

(** ** Sizes *)
Lemma Q2R_pow q p : ~ (q == 0)%Q -> Q2R (Qpower q p) = powerRZ (Q2R q) p.
Proof.
  intros N. assert (P : forall p, Q2R (Qpower_positive q p) = Q2R q ^ Pos.to_nat p).
  { intros r. induction r as [|r IH] using Pos.peano_ind.
    - rewrite Pos2Nat.inj_1. cbn [pow]. rewrite Rmult_1_r. apply Qeq_eqR. reflexivity.
    - rewrite Pos2Nat.inj_succ. cbn [pow]. rewrite <- IH, <- Q2R_mult. apply Qeq_eqR. rewrite <- Pos.add_1_l. rewrite Qpower_plus_positive. reflexivity. }
  destruct p as [|p|p]; cbn [Qpower powerRZ].
  - unfold Q2R. cbn. lra.
  - apply P.
  - rewrite Q2R_inv, P; auto. intros E. apply N. clear P.
    destruct (Qeq_dec q 0) as [|M]; auto. exfalso. apply (Qpower_not_0_positive q p M E).
Qed.
Lemma size_env env u : sized env u -> 0 < real_size u.
Proof. intros H. unfold real_size. replace 0 with (Q2R 0) by (unfold Q2R; cbn; lra). apply Qlt_Rlt. now apply (si_size_pos env). Qed.

Section Conversion.
Context (scale : named -> float) (pow : float -> Z -> res float) (POW : accurate_power pow).

Lemma scaled_base n : finite (scale n) /\ / 2 ^ 17 <= Q2R (n_scale n) <= 2 ^ 17 /\
    Rabs (value (scale n) - Q2R (n_scale n)) <= / 2 ^ 53 * Q2R (n_scale n) ->
  finite (scale n) /\ span 17 (Q2R (n_scale n)) /\ rel 1 (value (scale n)) (Q2R (n_scale n)).
Proof.
  intros (F & B & E). assert (P : 0 < Q2R (n_scale n)).
  { assert (0 < / 2 ^ 17) by (apply Rinv_0_lt_compat; apply pow_lt; lra). lra. }
  split; auto. split.
  - rewrite pow_bpow in B. unfold span. rewrite bpow_opp. exact B.
  - apply rel_of_off; [lra|]. exists (value (scale n) / Q2R (n_scale n) - 1). split; [|field; lra].
    replace (value (scale n) / Q2R (n_scale n) - 1) with ((value (scale n) - Q2R (n_scale n)) * / Q2R (n_scale n)) by (field; lra).
    rewrite Rabs_mult, (Rabs_pos_eq (/ _)) by (left; apply Rinv_0_lt_compat; auto).
    apply Rmult_le_reg_r with (Q2R (n_scale n)); auto. rewrite Rmult_assoc, Rinv_l, Rmult_1_r by lra. rewrite uu_value.
    replace (2 ^ 53) with 9007199254740992 in E by ring. lra.
Qed.

Fixpoint power_count (l : list (named * Z)) : Z :=
  match l with [] => 0%Z | (_, p) :: r => (Z.abs p + power_count r)%Z end.
Lemma power_count_nonneg l : (0 <= power_count l)%Z.
Proof. induction l as [|[n p] l IH]; cbn; lia. Qed.
Lemma base_power l : (0 <= power_count l <= base_count l)%Z.
Proof. induction l as [|[n p] l IH]; cbn; lia. Qed.

Lemma bases_ok l : forall s sv k j,
  (forall n p, In (n, p) l -> (0 < n_scale n)%Q) ->
  (forall n p, In (n, p) l -> finite (scale n) /\ / 2 ^ 17 <= Q2R (n_scale n) <= 2 ^ 17 /\
    Rabs (value (scale n) - Q2R (n_scale n)) <= / 2 ^ 53 * Q2R (n_scale n)) ->
  finite s -> (0 <= j)%Z -> (j + base_count l <= 100)%Z -> rel (IZR j) (value s) sv -> (0 <= k)%Z -> span k sv -> (k + 17 * power_count l <= 800)%Z ->
  exists f, fbases_scale scale pow l s = Ok f /\ finite f /\
    rel (IZR (j + base_count l)) (value f) (sv * Q2R (product_size l)) /\
    span (k + 17 * power_count l) (sv * Q2R (product_size l)).
Proof.
  induction l as [|[n p] l IH]; intros s sv k j Pos W Fs J0 J R K S B; cbn [fbases_scale base_count power_count product_size] in *.
  - exists s. split; auto. split; auto. replace (Q2R 1) with 1 by (unfold Q2R; cbn; lra).
    rewrite Z.mul_0_r, !Z.add_0_r, Rmult_1_r. auto.
  - destruct (scaled_base n (W n p (or_introl eq_refl))) as (Fn & Sn & Rn). pose proof (Pos n p (or_introl eq_refl)) as Pn.
    pose proof (base_power l) as BP.
    assert (Rp : rel (IZR (Z.abs p) * 1) (powerRZ (value (scale n)) p) (powerRZ (Q2R (n_scale n)) p)).
    { apply rel_pow; auto. pose proof (span_pos _ _ Sn). lra. }
    rewrite Rmult_1_r in Rp.
    assert (Ap : 0 <= IZR (Z.abs p) <= 97) by (split; apply IZR_le; lia).
    assert (Sp : span (17 * Z.abs p) (powerRZ (Q2R (n_scale n)) p)) by now apply span_pow.
    assert (Sv : span (17 * Z.abs p + 1) (powerRZ (value (scale n)) p)) by (eapply span_rel; [|exact Rp|exact Sp]; lra).
    destruct (POW (scale n) p Fn) as (f & Ef & Ff & Af).
    { rewrite Rabs_pos_eq by (left; eapply span_pos; exact Sv). destruct (span_le _ 1000 _ Sv ltac:(lia)) as (L & U). rewrite pow_bpow, <- bpow_opp. auto. }
    rewrite Ef. cbn [bind].
    assert (Rf : rel 2 (value f) (powerRZ (value (scale n)) p)).
    { pose proof (span_pos _ _ Sv) as Pv. apply rel_of_off; [lra|]. exists (value f / powerRZ (value (scale n)) p - 1). split; [|field; lra].
      set (w := powerRZ (value (scale n)) p) in *. clearbody w. rewrite (Rabs_pos_eq w) in Af by lra.
      replace (value f / w - 1) with ((value f - w) * / w) by (field; lra).
      rewrite Rabs_mult, (Rabs_pos_eq (/ w)) by (left; apply Rinv_0_lt_compat; auto).
      apply Rmult_le_reg_r with w; auto. rewrite Rmult_assoc, Rinv_l, Rmult_1_r by lra. rewrite uu_value.
      replace (2 ^ 53) with 9007199254740992 in Af by ring. lra. }
    pose proof (rel_trans _ _ _ _ _ Rf Rp) as Rg.
    pose proof (rel_mul _ _ _ _ _ _ R Rg) as Rm.
    pose proof (span_mul _ _ _ _ S Sp) as Sm.
    assert (Jr : 0 <= IZR j <= 100) by (split; apply IZR_le; lia).
    assert (Im : in_span (k + 17 * Z.abs p + 1) (value s * value f)).
    { eapply in_span_rel; [|exact Rm|]; [lra|]. right. rewrite Rabs_pos_eq; auto. left. eapply span_pos; exact Sm. }
    destruct (mul_rel (k + 17 * Z.abs p + 1) s f) as (Fm & Em); auto; [lia|].
    pose proof (rel_trans _ _ _ _ _ Em Rm) as Rt.
    assert (Q : Q2R (Qpower (n_scale n) p * product_size l) = powerRZ (Q2R (n_scale n)) p * Q2R (product_size l)).
    { rewrite Q2R_mult, Q2R_pow; auto. intros C. rewrite C in Pn. now apply Qlt_irrefl in Pn. }
    rewrite Q.
    destruct (IH (fmul s f) (sv * powerRZ (Q2R (n_scale n)) p) (k + 17 * Z.abs p)%Z (j + Z.abs p + 3)%Z) as (g & Eg & Fg & Rl & Sl); auto; try lia.
    { intros m q I. apply (Pos m q). now right. }
    { intros m q I. apply (W m q). now right. }
    { eapply rel_le; [exact Rt|]. rewrite !plus_IZR. lra. }
    exists g. split; auto. split; auto. split.
    + replace (j + (Z.abs p + 3 + base_count l))%Z with (j + Z.abs p + 3 + base_count l)%Z by lia. rewrite <- Rmult_assoc. exact Rl.
    + replace (k + 17 * (Z.abs p + power_count l))%Z with (k + 17 * Z.abs p + 17 * power_count l)%Z by lia. rewrite <- Rmult_assoc. exact Sl.
Qed.

Lemma complexity_nonneg u : (0 <= complexity u)%Z.
Proof. destruct u; cbn; [lia|]. pose proof (base_power (c_bases c)). lia. Qed.
Lemma scale_known env u : sized env u -> well_scaled scale u -> (complexity u <= 20)%Z ->
  exists f, fget_unit_scale scale pow u = Ok f /\ finite f /\ rel (IZR (complexity u)) (value f) (real_size u) /\ span 289 (real_size u).
Proof.
  intros S W C. destruct u as [n|c]; cbn [fget_unit_scale complexity] in *.
  - destruct (scaled_base n (W n 1%Z (or_introl eq_refl))) as (F & Sn & R). exists (scale n). split; auto. split; auto. split; auto.
    eapply span_le; [exact Sn|lia].
  - destruct (of_Z_ok 1) as (F1 & E1); [lia|]. cbn [sized] in S. rewrite Forall_forall in S.
    assert (PC : (17 * power_count (c_bases c) <= 289)%Z).
    { clear - C. assert (D : c_bases c = [] \/ (power_count (c_bases c) + 3 <= base_count (c_bases c))%Z).
      { destruct (c_bases c) as [|[n p] l]; [now left|right]. cbn. pose proof (base_power l). lia. }
      destruct D as [-> |D]; [cbn; lia|lia]. }
    destruct (bases_ok (c_bases c) (of_Z 1) 1 0 0) as (f & Ef & Ff & R & Sp); auto; try lia.
    { intros n p I. apply (S (n, p) I). }
    { rewrite E1. apply rel_refl. }
    { exact span_1. }
    exists f. rewrite Rmult_1_l in R, Sp. rewrite Z.add_0_l in R, Sp. repeat split; auto; try apply Sp.
    + apply (span_le _ 289) in Sp; [apply Sp|lia].
    + apply (span_le _ 289) in Sp; [apply Sp|lia].
Qed.

(** ** Conversion *)
Lemma feq_zero f k : finite f -> span k (value f) -> feq f (of_Z 0) = false.
Proof.
  intros F H. destruct (of_Z_ok 0) as (F0 & E0); [lia|]. apply (bool_iff _ _ (feq_iff f (of_Z 0) F F0)). rewrite E0. pose proof (span_pos _ _ H). lra.
Qed.
Definition gap (u v : punit) : Z := (complexity u + complexity v + 2)%Z.
Lemma gap_bound u v : (complexity u <= 20)%Z -> (complexity v <= 20)%Z -> 2 <= IZR (gap u v) <= 42.
Proof. intros A B. pose proof (complexity_nonneg u). pose proof (complexity_nonneg v). unfold gap. split; apply IZR_le; lia. Qed.
Lemma convert_rel env cp q v d k : (0 <= k <= 420)%Z ->
  sized env (fq_unit q) -> sized env v -> well_scaled scale (fq_unit q) -> well_scaled scale v ->
  (complexity (fq_unit q) <= 20)%Z -> (complexity v <= 20)%Z ->
  dimension (fq_unit q) = Ok d -> dimension v = Ok d -> finite (fq_data q) ->
  (in_span k (value (fq_data q)) \/ in_span k (value (fq_data q) * (real_size (fq_unit q) / real_size v))) ->
  exists q', f_convert_to scale pow cp q v = Ok q' /\ finite (fq_data q') /\ f_to scale pow q v = Ok (fq_data q') /\
    repr_unit (fq_unit q') = repr_unit v /\ real_size (fq_unit q') = real_size v /\ dimension (fq_unit q') = Ok d /\
    (fq_unit q' = v \/ (fq_data q' = fq_data q /\ repr_unit (fq_unit q') = repr_unit (fq_unit q))) /\
    in_span 1000 (value (fq_data q')) /\
    rel (IZR (gap (fq_unit q) v)) (value (fq_data q')) (value (fq_data q) * (real_size (fq_unit q) / real_size v)).
Proof.
  intros K Su Sv Wu Wv Cu Cv Du Dv Fx Hx. destruct q as [x u]. cbn [fq_data fq_unit] in *.
  pose proof (size_env env u Su) as Pu. pose proof (size_env env v Sv) as Pv.
  destruct (scale_known env u Su Wu Cu) as (f & Ef & Ff & Rf & Sf).
  destruct (scale_known env v Sv Wv Cv) as (g & Eg & Fg & Rg & Sg).
  assert (Hr : in_span 998 (value x * (real_size u / real_size v))).
  { destruct Hx as [Hx|Hx].
    - replace 998%Z with (420 + 578)%Z by lia. apply in_span_mul.
      + destruct Hx as [-> |Hx]; [now left|right]. eapply span_le; [exact Hx|lia].
      + rewrite Rabs_pos_eq by (left; apply Rdiv_lt_0_compat; auto). now apply (span_div 289 289).
    - destruct Hx as [Hx|Hx]; [now left|right]. eapply span_le; [exact Hx|lia]. }
  unfold f_to, f_convert_to. cbn [fq_data fq_unit]. rewrite Du, Dv. cbn [bind]. rewrite String.eqb_refl. cbn [negb].
  destruct (String.eqb_spec (repr_unit u) (repr_unit v)) as [E|E]; cbn [negb].
  - eexists. split; [reflexivity|]. cbn [rmap fq_data fq_unit]. rewrite repr_copy, dimension_copy.
    assert (Z : real_size u = real_size v) by (unfold real_size; apply Qeq_eqR; now apply (repr_same_size env u v d d)).
    assert (X : value x * (real_size u / real_size v) = value x) by (rewrite Z; field; lra). rewrite X in *.
    repeat split; auto.
    + unfold real_size in *. now rewrite si_size_copy.
    + destruct Hr as [-> |Hr]; [now left|right]. eapply span_le; [exact Hr|lia].
    + eapply rel_le; [apply rel_refl|]. pose proof (gap_bound u v Cu Cv). lra.
  - rewrite Ef, Eg. cbn [bind]. unfold fpy_div.
    assert (Ku : 0 <= IZR (complexity u) <= 20) by (pose proof (complexity_nonneg u); split; apply IZR_le; lia).
    assert (Kv : 0 <= IZR (complexity v) <= 20) by (pose proof (complexity_nonneg v); split; apply IZR_le; lia).
    assert (Sg' : span (289 + 1) (value g)) by (eapply span_rel; [|exact Rg|exact Sg]; lra).
    rewrite (feq_zero g (289 + 1)) by auto. cbn [bind rmap fq_data fq_unit].
    pose proof (rel_div _ _ _ _ _ _ (Rgt_not_eq _ _ Pv) Rf Rg) as Rr.
    pose proof (span_div _ _ _ _ Sf Sg) as Sr.
    assert (Ir : in_span (289 + 289 + 1) (value f / value g)).
    { eapply in_span_rel; [|exact Rr|]; [lra|]. right. rewrite Rabs_pos_eq; auto. left. eapply span_pos; exact Sr. }
    destruct (div_rel (289 + 289 + 1) f g ltac:(lia) Ff (Rgt_not_eq _ _ (span_pos _ _ Sg')) Ir) as (Fd & Rd).
    pose proof (rel_trans _ _ _ _ _ Rd Rr) as Rc.
    pose proof (rel_mul _ _ _ _ _ _ (rel_refl (value x)) Rc) as Rx.
    assert (Ix : in_span (998 + 1) (value x * value (fdiv f g))) by (eapply in_span_rel; [|exact Rx|exact Hr]; lra).
    destruct (mul_rel (998 + 1) x (fdiv f g) ltac:(lia) Fx Fd Ix) as (Fm & Rm).
    pose proof (rel_trans _ _ _ _ _ Rm Rx) as Rt.
    eexists. split; [reflexivity|]. cbn [fq_data fq_unit]. repeat split; auto.
    + replace 1000%Z with (998 + 1 + 1)%Z by lia. eapply in_span_rel; [|exact Rm|exact Ix]. lra.
    + eapply rel_le; [exact Rt|]. unfold gap. rewrite !plus_IZR. lra.
Qed.
End Conversion.
