(** Rounding of the geocentric radius of a ground location. *)
From Coq Require Import List ZArith Reals Lra Lia Psatz.
From Flocq Require Import Core.Core IEEE754.BinarySingleNaN IEEE754.Binary IEEE754.Bits.
From Verif Require Import Py Fl_Model Fl_Spec Fl_Proofs Flg_Model Flg_Spec Rot_Model Rot_Spec Geo_Model Geo_Spec Flg_Proofs Flg_Num Flg_Proofs2 Flg_Proofs3 Flg_Proofs5 Flg_Proofs6 Fly_Model Flb_Model Fln_Spec Flb_Spec.
Open Scope R_scope.
#[local] Strategy 1000 [fmul fadd fsub fdiv fneg of_Z].

(** A float within [k] units of a number, on the scale [S] of that number *)
Definition sc (x : float) (r S k : R) : Prop := finite x /\ Rabs (value x - r) <= k * (uu * S) /\ Rabs r <= S.
Lemma sc_le x r S k S' k' : sc x r S k -> 0 <= k <= k' -> S <= S' -> sc x r S' k'.
Proof.
  intros (F & E & B) K Hs. split; auto. pose proof uu_pos. assert (0 <= S) by (pose proof (Rabs_pos r); lra). assert (0 <= uu * S <= uu * S') by (split; [nra|apply Rmult_le_compat_l; lra]).
  split; [|lra]. eapply Rle_trans; [exact E|]. apply Rmult_le_compat; lra.
Qed.
Lemma sc_appr x r e S : appr x r e S -> 1 <= S -> 0 <= e -> sc x r S e.
Proof. intros (F & E & B) HS He. split; auto. split; [|auto]. eapply Rle_trans; [exact E|]. pose proof uu_pos. apply Rmult_le_compat_l; nra. Qed.
Lemma appr_sc x r S k : sc x r S k -> appr x r (k * S) S.
Proof. intros (F & E & B). split; auto. split; auto. replace (k * S * uu) with (k * (uu * S)) by ring. exact E. Qed.
Definition top : R := bpow radix2 60.
Lemma top_up : top * top <= bpow radix2 200. Proof. unfold top. rewrite <- bpow_plus. apply bpow_le. lia. Qed.
Lemma kuu k : 0 <= k <= 1000 -> k * uu <= / 1000000000000. Proof. intros. rewrite uu_value. lra. Qed.
(** What a number on its scale can be *)
Lemma sc_abs x r S k : sc x r S k -> 0 <= k <= 1000 -> 0 <= S -> Rabs (value x) <= 101 / 100 * S.
Proof. intros (F & E & B) K HS. pose proof (err_abs _ _ _ E) as W. pose proof (kuu k K). assert (k * (uu * S) <= / 1000000000000 * S) by (rewrite <- Rmult_assoc; apply Rmult_le_compat_r; lra). lra. Qed.
Lemma sc_mul x y a b S T k m : sc x a S k -> sc y b T m -> 0 <= k <= 1000 -> 0 <= m <= 1000 -> 1 <= S <= top -> 1 <= T <= top ->
  sc (fmul x y) (a * b) (S * T) (k + m + 3 / 2).
Proof.
  intros (Fx & Ex & Ax) (Fy & Ey & By) K K' HS HT. pose proof uu_pos as U.
  assert (P : 1 <= S * T <= bpow radix2 200). { split; [replace 1 with (1 * 1) by ring; apply Rmult_le_compat; lra|]. eapply Rle_trans; [|apply top_up]. apply Rmult_le_compat; lra. }
  assert (D : Rabs (value x * value y - a * b) <= (k + m + / 100) * (uu * (S * T))).
  { replace (value x * value y - a * b) with (a * (value y - b) + (value x - a) * b + (value x - a) * (value y - b)) by ring.
    eapply Rle_trans; [apply Rabs_triang|]. eapply Rle_trans; [apply Rplus_le_compat_r, Rabs_triang|]. rewrite !Rabs_mult.
    assert (P1 : Rabs a * Rabs (value y - b) <= S * (m * (uu * T))) by (apply Rmult_le_compat; try apply Rabs_pos; auto).
    assert (P2 : Rabs (value x - a) * Rabs b <= k * (uu * S) * T) by (apply Rmult_le_compat; try apply Rabs_pos; auto).
    assert (P3 : Rabs (value x - a) * Rabs (value y - b) <= k * (uu * S) * (m * (uu * T))) by (apply Rmult_le_compat; try apply Rabs_pos; auto).
    assert (P4 : k * (uu * S) * (m * (uu * T)) <= / 100 * (uu * (S * T))).
    { replace (k * (uu * S) * (m * (uu * T))) with ((k * uu * m) * (uu * (S * T))) by ring. apply Rmult_le_compat_r; [nra|]. pose proof (kuu k K). assert (0 <= k * uu) by nra. assert (k * uu * m <= / 1000000000000 * 1000) by (apply Rmult_le_compat; lra). lra. }
    replace ((k + m + / 100) * (uu * (S * T))) with (S * (m * (uu * T)) + k * (uu * S) * T + / 100 * (uu * (S * T))) by ring. lra. }
  assert (AB : Rabs (a * b) <= S * T) by (rewrite Rabs_mult; apply Rmult_le_compat; auto using Rabs_pos).
  set (W := S * T) in *. assert (D' : (k + m + / 100) * (uu * W) <= / 1000 * W).
  { rewrite <- Rmult_assoc. apply Rmult_le_compat_r; [lra|]. rewrite uu_value. lra. }
  pose proof (err_abs _ _ _ D) as E. assert (B : Rabs (value x * value y) <= 1001 / 1000 * W) by lra.
  destruct (fmul_ok x y Fx Fy) as (F & V).
  { eapply Rle_trans; [exact B|]. apply Rle_trans with (bpow radix2 201); [change 201%Z with (1 + 200)%Z; rewrite bpow_plus; change (bpow radix2 1) with 2; lra|apply bpow_le; lia]. }
  split; auto. split; auto. rewrite V. pose proof (rnd_mul_err (value x * value y)) as R. pose proof ee1 as Q. eapply Rle_trans; [apply (err_trans _ _ _ _ _ R D)|].
  assert (uu * Rabs (value x * value y) <= uu * (1001 / 1000 * W)) by (apply Rmult_le_compat_l; lra). assert (uu <= uu * W) by nra. lra.
Qed.
Lemma sc_add x y a b S k m : sc x a S k -> sc y b S m -> 0 <= k <= 1000 -> 0 <= m <= 1000 -> 1 <= S <= bpow radix2 200 -> Rabs (a + b) <= S ->
  sc (fadd x y) (a + b) S (k + m + 3 / 2).
Proof.
  intros (Fx & Ex & Ax) (Fy & Ey & By) K K' HS AB. pose proof uu_pos as U. pose proof (err_plus _ _ _ _ _ _ Ex Ey) as D. pose proof (err_abs _ _ _ D) as E.
  assert (D' : k * (uu * S) + m * (uu * S) <= / 1000 * S).
  { rewrite <- !Rmult_assoc, <- Rmult_plus_distr_r. apply Rmult_le_compat_r; [lra|]. rewrite uu_value. lra. }
  assert (B : Rabs (value x + value y) <= 1001 / 1000 * S) by lra.
  destruct (fadd_ok x y Fx Fy) as (F & V).
  { eapply Rle_trans; [exact B|]. apply Rle_trans with (bpow radix2 201); [change 201%Z with (1 + 200)%Z; rewrite bpow_plus; change (bpow radix2 1) with 2; lra|apply bpow_le; lia]. }
  split; auto. split; auto. rewrite V. pose proof (rnd_add_err _ _ (value_fmt x) (value_fmt y)) as R. eapply Rle_trans; [apply (err_trans _ _ _ _ _ R D)|].
  assert (uu * Rabs (value x + value y) <= uu * (1001 / 1000 * S)) by (apply Rmult_le_compat_l; lra). assert (0 <= uu * S) by nra. lra.
Qed.
Lemma tiny1000 : / 2 ^ 1000 <= / 4 * uu.
Proof.
  rewrite pow_bpow, <- bpow_opp. assert (UB : uu = bpow radix2 (-53)) by (unfold uu; change (/ 2) with (bpow radix2 (-1)); now rewrite <- bpow_plus).
  rewrite UB. change (/ 4) with (bpow radix2 (-2)). rewrite <- bpow_plus. apply bpow_le. lia.
Qed.
Lemma sc_square f x a S k : accurate_square f -> sc x a S k -> 0 <= k <= 400 -> 1 <= S <= top -> sc (f x) (a ^ 2) (S * S) (2 * k + 5).
Proof.
  intros HF (Fx & Ex & Ax) K HS. pose proof uu_pos as U. pose proof (sc_abs x a S k (conj Fx (conj Ex Ax)) ltac:(lra) ltac:(lra)) as B.
  assert (TP : top <= 2 ^ 90). { rewrite pow_bpow. unfold top. apply bpow_le. lia. }
  assert (TQ : 101 / 100 * 2 ^ 90 <= 2 ^ 100). { replace (2 ^ 100) with (2 ^ 90 * 1024) by (simpl; ring). pose proof (pow_lt 2 90 ltac:(lra)). lra. }
  destruct (HF x Fx ltac:(lra)) as (F & E). split; auto. assert (P : 1 <= S * S) by nra. split.
  2: { replace (a ^ 2) with (a * a) by ring. rewrite Rabs_mult. apply Rmult_le_compat; auto using Rabs_pos. }
  assert (D : Rabs (value x ^ 2 - a ^ 2) <= (2 * k + / 100) * (uu * (S * S))).
  { replace (value x ^ 2 - a ^ 2) with ((value x - a) * (value x - a) + 2 * (a * (value x - a))) by ring. eapply Rle_trans; [apply Rabs_triang|]. rewrite !Rabs_mult, (Rabs_pos_eq 2) by lra.
    assert (P2 : Rabs a * Rabs (value x - a) <= S * (k * (uu * S))) by (apply Rmult_le_compat; try apply Rabs_pos; auto).
    assert (P3 : Rabs (value x - a) * Rabs (value x - a) <= k * (uu * S) * (k * (uu * S))) by (apply Rmult_le_compat; try apply Rabs_pos; auto).
    assert (P4 : k * (uu * S) * (k * (uu * S)) <= / 100 * (uu * (S * S))).
    { replace (k * (uu * S) * (k * (uu * S))) with ((k * uu * k) * (uu * (S * S))) by ring. apply Rmult_le_compat_r; [nra|]. pose proof (kuu k ltac:(lra)). assert (0 <= k * uu) by nra. assert (k * uu * k <= / 1000000000000 * 1000) by (apply Rmult_le_compat; lra). lra. }
    replace ((2 * k + / 100) * (uu * (S * S))) with (2 * (S * (k * (uu * S))) + / 100 * (uu * (S * S))) by ring. lra. }
  eapply Rle_trans; [apply (err_trans _ _ _ _ _ E D)|]. replace (/ 2 ^ 51) with (4 * uu) by (rewrite uu_value; lra). pose proof tiny1000 as T.
  assert (XX : value x ^ 2 <= 1021 / 1000 * (S * S)).
  { replace (value x ^ 2) with (Rabs (value x) * Rabs (value x)) by (rewrite <- Rabs_mult, Rabs_pos_eq by nra; ring). pose proof (Rabs_pos (value x)).
    apply Rle_trans with (101 / 100 * S * (101 / 100 * S)); [apply Rmult_le_compat; lra|nra]. }
  assert (4 * uu * value x ^ 2 <= 4 * uu * (1021 / 1000 * (S * S))) by (apply Rmult_le_compat_l; lra). assert (uu <= uu * (S * S)) by nra. lra.
Qed.

Lemma appr_minor : appr fminor_axis minor_axis 6379 6379.
Proof.
  destruct (literal_ok 6356752314245 1000000000 ltac:(lia) ltac:(lia)) as (F & N). fold fminor_axis in F, N. apply near_off in N.
  assert (Q : 6356752314245 / 1000000000 = minor_axis) by (unfold minor_axis; lra). rewrite Q in N. replace 6379 with (1 * 6379) at 1 by ring. apply appr_off; auto; [|lra]. apply Rabs_le. unfold minor_axis. lra.
Qed.
Definition S1 : R := 6379.
Lemma sc_major : sc fmajor_axis major_axis S1 1.
Proof. destruct appr_axis as (F & E & B). split; auto. split; auto. unfold S1. replace (1 * (uu * 6379)) with (6379 * uu) by ring. exact E. Qed.
Lemma sc_minor : sc fminor_axis minor_axis S1 1.
Proof. destruct appr_minor as (F & E & B). split; auto. split; auto. unfold S1. replace (1 * (uu * 6379)) with (6379 * uu) by ring. exact E. Qed.
Lemma top_large : 6379 * 6379 * 6379 * 6379 <= top. Proof. unfold top. replace (bpow radix2 60) with 1152921504606846976 by (cbn; lra). lra. Qed.
Lemma top_200 : top <= bpow radix2 200. Proof. apply bpow_le. lia. Qed.

(** The quotient, on the scale of the denominator *)
Lemma div_close X X' Y Y' P Q : 0 < P -> 0 < Q -> 98 / 100 * P <= X <= P -> 98 / 100 * Q <= Y <= Q ->
  Rabs (X' - X) <= 103 * (uu * P) -> Rabs (Y' - Y) <= 80 * (uu * Q) -> 99 / 100 * Y <= Y' /\ Rabs (X' / Y' - X / Y) <= 195 * (uu * (P / Q)).
Proof.
  intros HP HQ BX BY EX EY. pose proof uu_pos as U. pose proof (kuu 103 ltac:(lra)) as K1. pose proof (kuu 80 ltac:(lra)) as K2.
  assert (UP : 103 * (uu * P) <= / 1000000000000 * P) by nra. assert (UQ : 80 * (uu * Q) <= / 1000000000000 * Q) by nra.
  pose proof (Rabs_le_inv _ _ EX) as EX'. pose proof (Rabs_le_inv _ _ EY) as EY'. assert (Y1 : 99 / 100 * Y <= Y') by lra. split; [exact Y1|].
  replace (X' / Y' - X / Y) with (((X' - X) * Y - X * (Y' - Y)) / (Y' * Y)) by (field; lra).
  assert (YY : 0 < Y' * Y) by (apply Rmult_lt_0_compat; lra).
  unfold Rdiv at 1. rewrite Rabs_mult, (Rabs_pos_eq (/ (Y' * Y))) by (left; now apply Rinv_0_lt_compat).
  apply Rmult_le_reg_r with (Y' * Y); auto. rewrite Rmult_assoc, Rinv_l, Rmult_1_r by lra.
  assert (N : Rabs ((X' - X) * Y - X * (Y' - Y)) <= 183 * (uu * (P * Q))).
  { eapply Rle_trans; [apply Rabs_triang|]. rewrite Rabs_Ropp, !Rabs_mult, (Rabs_pos_eq X), (Rabs_pos_eq Y) by lra.
    assert (Rabs (X' - X) * Y <= 103 * (uu * P) * Q) by (apply Rmult_le_compat; try apply Rabs_pos; lra).
    assert (X * Rabs (Y' - Y) <= P * (80 * (uu * Q))) by (apply Rmult_le_compat; try apply Rabs_pos; lra). lra. }
  eapply Rle_trans; [exact N|]. assert (Z : 95 / 100 * (Q * Q) <= Y' * Y).
  { apply Rle_trans with ((99 / 100 * (98 / 100 * Q)) * (98 / 100 * Q)); [nra|]. apply Rmult_le_compat; lra. }
  assert (W : 183 * (uu * (P * Q)) <= 195 * (uu * (P / Q)) * (95 / 100 * (Q * Q))).
  { replace (195 * (uu * (P / Q)) * (95 / 100 * (Q * Q))) with (18525 / 100 * (uu * (P * Q))) by (field; lra). assert (0 <= uu * (P * Q)) by (apply Rmult_le_pos; nra). lra. }
  eapply Rle_trans; [exact W|]. apply Rmult_le_compat_l; [|exact Z]. assert (0 < P / Q) by now apply Rdiv_lt_0_compat. nra.
Qed.
Section Radius.
Variable M : maths.
Variable square : float -> float.
Hypothesis HM : accurate M.
Hypothesis HQ : accurate_square square.
Lemma radius_at_ok lat phi h hh : appr lat phi 12 2 -> appr h hh 7000 1000 ->
  finite (fradius_at M square lat h) /\
  Rabs (value (fradius_at M square lat h) - (sqrt (((major_axis ^ 2 * cos phi) ^ 2 + (minor_axis ^ 2 * sin phi) ^ 2) / ((major_axis * cos phi) ^ 2 + (minor_axis * sin phi) ^ 2)) + hh)) <= / 10000000000.
Proof.
  intros HL HH. pose proof (sc_appr _ _ _ _ (appr_cos M _ _ _ _ HM HL ltac:(lra) ltac:(lra)) ltac:(lra) ltac:(lra)) as C. pose proof (sc_appr _ _ _ _ (appr_sin M _ _ _ _ HM HL ltac:(lra) ltac:(lra)) ltac:(lra) ltac:(lra)) as S.
  pose proof top_large as TL. pose proof top_200 as T2. assert (H1 : 1 <= S1 <= top) by (unfold S1; lra). assert (H2 : 1 <= S1 * S1 <= top) by (unfold S1; lra). assert (H0 : 1 <= 1 <= top) by lra.
  pose proof (sin2_cos2 phi) as T. unfold Rsqr in T. unfold fradius_at. set (c := cos phi) in *. set (s := sin phi) in *. set (c' := m_cos M lat) in *. set (s' := m_sin M lat) in *. clearbody c s c' s'. 
  pose proof (sc_square _ _ _ _ _ HQ sc_major ltac:(lra) H1) as A2. pose proof (sc_square _ _ _ _ _ HQ sc_minor ltac:(lra) H1) as B2.
  pose proof (sc_mul _ _ _ _ _ _ _ _ A2 C ltac:(lra) ltac:(lra) H2 H0) as AC. pose proof (sc_mul _ _ _ _ _ _ _ _ B2 S ltac:(lra) ltac:(lra) H2 H0) as BS. rewrite Rmult_1_r in AC, BS.
  pose proof (sc_square _ _ _ _ _ HQ AC ltac:(lra) H2) as X1. pose proof (sc_square _ _ _ _ _ HQ BS ltac:(lra) H2) as X2.
  pose proof (sc_mul _ _ _ _ _ _ _ _ sc_major C ltac:(lra) ltac:(lra) H1 H0) as DC. pose proof (sc_mul _ _ _ _ _ _ _ _ sc_minor S ltac:(lra) ltac:(lra) H1 H0) as DS. rewrite Rmult_1_r in DC, DS.
  pose proof (sc_square _ _ _ _ _ HQ DC ltac:(lra) H1) as Y1. pose proof (sc_square _ _ _ _ _ HQ DS ltac:(lra) H1) as Y2.
  assert (c2 : 0 <= c * c) by nra. assert (s2 : 0 <= s * s) by nra.
  assert (BX : 98 / 100 * (S1 * S1 * (S1 * S1)) <= (major_axis ^ 2 * c) ^ 2 + (minor_axis ^ 2 * s) ^ 2 <= S1 * S1 * (S1 * S1)).
  { replace ((major_axis ^ 2 * c) ^ 2 + (minor_axis ^ 2 * s) ^ 2) with (major_axis ^ 4 * (c * c) + minor_axis ^ 4 * (s * s)) by ring. unfold major_axis, minor_axis, S1. lra. }
  assert (BY : 98 / 100 * (S1 * S1) <= (major_axis * c) ^ 2 + (minor_axis * s) ^ 2 <= S1 * S1).
  { replace ((major_axis * c) ^ 2 + (minor_axis * s) ^ 2) with (major_axis ^ 2 * (c * c) + minor_axis ^ 2 * (s * s)) by ring. unfold major_axis, minor_axis, S1. lra. }
  assert (BQ : (98 / 100 * S1) * (98 / 100 * S1) <= ((major_axis ^ 2 * c) ^ 2 + (minor_axis ^ 2 * s) ^ 2) / ((major_axis * c) ^ 2 + (minor_axis * s) ^ 2) <= S1 * S1).
  { assert (E1 : (major_axis ^ 2 * c) ^ 2 + (minor_axis ^ 2 * s) ^ 2 = major_axis ^ 4 * (c * c) + minor_axis ^ 4 * (s * s)) by ring. assert (E2 : (major_axis * c) ^ 2 + (minor_axis * s) ^ 2 = major_axis ^ 2 * (c * c) + minor_axis ^ 2 * (s * s)) by ring.
    set (X := (major_axis ^ 2 * c) ^ 2 + _) in *. set (Y := (major_axis * c) ^ 2 + _) in *. assert (Y0 : 0 < Y) by (unfold S1 in BY; lra).
    split; apply Rmult_le_reg_r with Y; auto; replace (X / Y * Y) with X by (field; lra); rewrite E1, E2; unfold major_axis, minor_axis, S1; lra. }
  pose proof (sc_add _ _ _ _ _ _ _ X1 X2 ltac:(lra) ltac:(lra) ltac:(unfold S1; lra) ltac:(apply Rabs_le; unfold S1 in *; lra)) as X. pose proof (sc_add _ _ _ _ _ _ _ Y1 Y2 ltac:(lra) ltac:(lra) ltac:(unfold S1; lra) ltac:(apply Rabs_le; unfold S1 in *; lra)) as Y.
  set (x := (major_axis ^ 2 * c) ^ 2 + (minor_axis ^ 2 * s) ^ 2) in *. set (y := (major_axis * c) ^ 2 + (minor_axis * s) ^ 2) in *.
  set (fx := fadd (square (fmul (square fmajor_axis) c')) _) in *. set (fy := fadd (square (fmul fmajor_axis c')) _) in *. clearbody fx fy x y. clear X1 X2 Y1 Y2 AC BS DC DS A2 B2.
  destruct X as (FX & EX & _). destruct Y as (FY & EY & _). pose proof uu_pos as U.
  destruct (div_close x (value fx) y (value fy) (S1 * S1 * (S1 * S1)) (S1 * S1) ltac:(unfold S1; lra) ltac:(unfold S1; lra) BX BY) as (Y' & DV).
  { eapply Rle_trans; [exact EX|]. apply Rmult_le_compat_r; [unfold S1; lra|lra]. } { eapply Rle_trans; [exact EY|]. apply Rmult_le_compat_r; [unfold S1; lra|lra]. }
  replace (S1 * S1 * (S1 * S1) / (S1 * S1)) with (S1 * S1) in DV by (field; unfold S1; lra).
  assert (y0 : 0 < y) by (unfold S1 in BY; lra). set (q := x / y) in *. pose proof (err_abs _ _ _ DV) as QA. assert (q0 : 0 < q) by (unfold S1 in BQ; lra). rewrite (Rabs_pos_eq q) in QA by lra.
  pose proof uu_small as US. assert (QB : Rabs (value fx / value fy) <= 41000000) by (unfold S1 in QA, BQ; nra).
  destruct (fdiv_ok fx fy FX ltac:(lra)) as (FQ & VQ). { apply small_abs. lra. }
  assert (EQ : Rabs (value (fdiv fx fy) - q) <= 198 * (uu * (S1 * S1))).
  { rewrite VQ. pose proof (rnd_mul_err (value fx / value fy)) as R. eapply Rle_trans; [apply (err_trans _ _ _ _ _ R DV)|]. pose proof ee1.
    assert (uu * Rabs (value fx / value fy) <= uu * 41000000) by (apply Rmult_le_compat_l; lra). unfold S1. lra. }
  set (fq := fdiv fx fy) in *. clearbody fq q. clear DV VQ EX EY BX BY QA QB.
  pose proof (Rabs_le_inv _ _ EQ) as EQ'. assert (QP : 38000000 <= value fq) by (unfold S1 in *; nra). assert (qP : 39000000 <= q) by (unfold S1 in *; lra).
  destruct (fsqrt_ok fq FQ ltac:(lra)) as (FS & VS).
  assert (SQ : 98 / 100 * S1 <= sqrt q <= S1).
  { split; [rewrite <- (sqrt_square (98 / 100 * S1)) by (unfold S1; lra)|rewrite <- (sqrt_square S1) by (unfold S1; lra)]; apply sqrt_le_1_alt; lra. }
  assert (SR : Rabs (sqrt (value fq) - sqrt q) <= 102 * (uu * S1)).
  { pose proof (sqrt_pos (value fq)) as P0. assert (SS : sqrt (value fq) * sqrt (value fq) = value fq) by (apply sqrt_sqrt; lra). assert (SS' : sqrt q * sqrt q = q) by (apply sqrt_sqrt; lra).
    assert (6160 <= sqrt (value fq)). { rewrite <- (sqrt_square 6160) by lra. apply sqrt_le_1_alt. lra. }
    set (a := sqrt (value fq)) in *. set (b := sqrt q) in *. assert (E : (a - b) * (a + b) = value fq - q) by (rewrite <- SS, <- SS'; ring).
    assert (P : 0 < a + b) by (unfold S1 in SQ; lra). apply Rmult_le_reg_r with (a + b); auto. rewrite <- (Rabs_pos_eq (a + b)) at 1 by lra. rewrite <- Rabs_mult, E. eapply Rle_trans; [exact EQ|].
    assert (1945 / 1000 * S1 <= a + b) by (unfold S1 in *; lra). assert (0 <= uu * S1) by (unfold S1; lra). apply Rle_trans with (102 * (uu * S1) * (1945 / 1000 * S1)); [|apply Rmult_le_compat_l; lra]. unfold S1. lra. }
  assert (SE : appr (fsqrt fq) (sqrt q) (104 * S1) S1).
  { split; auto. split; [|rewrite Rabs_pos_eq by (unfold S1 in SQ; lra); lra]. rewrite VS. pose proof (rnd_mul_err (sqrt (value fq))) as R. eapply Rle_trans; [apply (err_trans _ _ _ _ _ R SR)|]. pose proof ee1.
    pose proof (err_abs _ _ _ SR) as W. rewrite (Rabs_pos_eq (sqrt q)) in W by (unfold S1 in SQ; lra). assert (Rabs (sqrt (value fq)) <= 6380) by (unfold S1 in *; nra).
    assert (uu * Rabs (sqrt (value fq)) <= uu * 6380) by (apply Rmult_le_compat_l; lra). unfold S1. lra. }
  destruct (appr_add _ _ _ _ _ _ _ _ SE HH ltac:(unfold S1; lra) ltac:(lra) ltac:(unfold S1; lra) ltac:(lra)) as (F & E & _). split; auto. eapply Rle_trans; [exact E|]. unfold S1. rewrite uu_value. lra.
Qed.
Lemma radius_ok l : on_earth l -> exists lat r, fconvert (fl_latitude l) (fl_angle l) Urad = Ok lat /\ appr lat (lat_rad (exact_location l)) 12 2 /\
  fradius M square l = Ok r /\ finite r /\ Rabs (value r - radius (exact_location l)) <= / 10000000000.
Proof.
  intros (M1 & M2 & M3 & K1 & K2 & B1 & B2 & B3). apply measures_angle in K1. apply measures_length in K2.
  destruct (conv_rad _ _ 90 M1 K1 B1 ltac:(lra)) as (lat & C1 & A1). destruct (conv_height _ _ M3 K2 B3) as (h & C3 & A3).
  change (to_rad (size (fl_angle l)) (value (fl_latitude l))) with (lat_rad (exact_location l)) in A1. change (to_km (size (fl_length l)) (value (fl_height l))) with (height_km (exact_location l)) in A3.
  pose proof (appr_le _ _ _ _ 12 2 A1 ltac:(lra) ltac:(lra)) as A1'. exists lat. exists (fradius_at M square lat h). unfold fradius. rewrite C1, C3. cbn [bind].
  split; auto. split; auto. split; auto. exact (radius_at_ok lat _ h _ A1' A3).
Qed.
End Radius.
