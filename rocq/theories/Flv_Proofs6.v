(** The angles of an attitude in floating point, from the positions in the LVLH frame. *)
From Coq Require Import ZArith Reals Lra Lia Psatz.
From Flocq Require Import Core.Core IEEE754.BinarySingleNaN IEEE754.Binary IEEE754.Bits.
From Verif Require Import Py Fl_Model Fl_Spec Fl_Proofs Flg_Model Flg_Spec Rot_Model Rot_Spec Rot_Proofs Geo_Model Geo_Spec Lvlh_Spec Lvlh_Proofs Lvlh_Props2 Flg_Proofs Flg_Proofs2 Flg_Proofs3 Flg_Proofs7
  Flc_Model Flc_Spec Flk_Proofs5 Flr_Model Flr_Spec Flr_Proofs Time_Model Flk_Model Flk_Spec Flv_Model Flv_Spec Flv_Proofs Flv_Proofs2 Flv_Proofs5.
Open Scope R_scope.
#[local] Strategy 1000 [fmul fadd fsub fdiv fneg of_Z].

Lemma PI_bounds : 3.141 < PI < 3.1422. Proof. split; [apply Time_Proofs.PI_low|apply Time_Proofs.PI_high]. Qed.
Lemma norm_sub_le a b : norm (sub a b) <= norm a + norm b.
Proof. pose proof (norm_tri a zero b) as T. replace (sub a zero) with a in T by (destruct a as [x y z]; unfold sub, zero; cbn [vx vy vz]; f_equal; ring). replace (norm (sub zero b)) with (norm b) in T; auto. unfold norm, dot, sub, zero. cbn [vx vy vz]. f_equal. ring. Qed.
Lemma uu_num : uu <= / 9007199254740992.
Proof.
  assert (U : uu = bpow radix2 (-53)) by (unfold uu; change (/ 2) with (bpow radix2 (-1)); now rewrite <- bpow_plus).
  rewrite U. change (bpow radix2 (-53)) with (/ 9007199254740992). lra.
Qed.
(** ** The inverse functions *)
Lemma asin_slope a b c h : 0 < c -> - (PI / 2) <= a -> a < b -> b <= PI / 2 -> sin a * sin a <= 1 - c * c -> sin b * sin b <= 1 - c * c -> sin b - sin a <= h -> b - a <= h / c.
Proof.
  intros C A L B SA SB H. destruct (MVT_cor2 sin cos a b L) as (x & E & X). { intros; apply derivable_pt_lim_sin. }
  assert (C0 : 0 <= cos x) by (apply cos_ge_0; lra). pose proof (sin2_cos2 x) as S. unfold Rsqr in S.
  assert (M1 : sin a <= sin x) by (apply sin_incr_1; lra). assert (M2 : sin x <= sin b) by (apply sin_incr_1; lra).
  assert (SX : sin x * sin x <= 1 - c * c). { destruct (Rle_dec 0 (sin x)); nra. }
  assert (CX : c <= cos x) by nra. apply Rmult_le_reg_r with c; auto. unfold Rdiv. rewrite Rmult_assoc, Rinv_l by lra. nra.
Qed.
Lemma asin_near y y' c h : 0 < c <= 1 -> 0 <= h -> 3 * h <= 19 / 100 * (c * c) -> y * y <= 1 - c * c -> Rabs (y' - y) <= h ->
  Rabs y' <= 1 /\ Rabs (asin y' - asin y) <= 112 / 100 * (h / c).
Proof.
  intros C H0 H Y E. apply Rabs_le_inv in E. assert (Y1 : -1 <= y <= 1) by (split; nra). assert (H1 : h <= 1) by nra.
  assert (Y2 : y' * y' <= 1 - 81 / 100 * (c * c)) by nra. assert (Y3 : -1 <= y' <= 1) by (split; nra). split; [apply Rabs_le; lra|].
  pose proof (asin_bound y) as B. pose proof (asin_bound y') as B'. assert (SI : sin (asin y) = y) by (apply sin_asin; lra). assert (SI' : sin (asin y') = y') by (apply sin_asin; lra).
  assert (P : 0 <= h / c) by (apply Rmult_le_pos; [lra|left; apply Rinv_0_lt_compat; lra]).
  assert (Q : h / (9 / 10 * c) <= 112 / 100 * (h / c)). { replace (h / (9 / 10 * c)) with (10 / 9 * (h / c)) by (field; lra). lra. }
  destruct (Rtotal_order (asin y) (asin y')) as [L|[L|L]].
  - rewrite Rabs_pos_eq by lra. pose proof (asin_slope (asin y) (asin y') (9 / 10 * c) h ltac:(lra) ltac:(lra) L ltac:(lra) ltac:(rewrite SI; nra) ltac:(rewrite SI'; nra) ltac:(rewrite SI, SI'; lra)). lra.
  - rewrite L. rewrite Rminus_diag_eq by auto. rewrite Rabs_R0. lra.
  - rewrite Rabs_minus_sym, Rabs_pos_eq by lra. pose proof (asin_slope (asin y') (asin y) (9 / 10 * c) h ltac:(lra) ltac:(lra) L ltac:(lra) ltac:(rewrite SI'; nra) ltac:(rewrite SI; nra) ltac:(rewrite SI, SI'; lra)). lra.
Qed.
Lemma atan2_right y x : 0 < x -> atan2 y x = atan (y / x). Proof. intros H. unfold atan2. destruct (Rlt_dec 0 x); [auto|lra]. Qed.
Lemma apart_zero d a b : apart_at_most (2 * PI) d a b -> d <= 1 / 10 -> Rabs (a - b) < 2 * PI - 1 / 10 -> Rabs (a - b) <= d.
Proof.
  intros (k & K) D H. apply Rabs_le_inv in K as K'. apply Rabs_def2 in H. pose proof PI_RGT_0 as P. pose proof PI_bounds as PB.
  assert (KL : IZR k < 1) by nra. assert (KG : -1 < IZR k) by nra. assert (k = 0%Z) by (apply lt_IZR in KL; apply lt_IZR in KG; lia). subst k. now rewrite Rmult_0_l, Rminus_0_r in K.
Qed.
Lemma atan2_right_near y x y' x' c h : 0 < c <= x -> c * c <= y * y + x * x <= 1 -> 0 <= h -> h / c <= 1 / 1000 -> Rabs (y' - y) <= h -> Rabs (x' - x) <= h ->
  0 < x' /\ Rabs (atan2 y' x' - atan2 y x) <= 4 * (h / c).
Proof.
  intros C RR H0 H Y X. assert (HC : h <= c / 1000). { apply Rmult_le_reg_r with (/ c); [apply Rinv_0_lt_compat; lra|]. replace (c / 1000 * / c) with (1 / 1000) by (field; lra). exact H. }
  apply Rabs_le_inv in X as X'. assert (PX : 0 < x') by lra. split; auto. set (r := sqrt (y * y + x * x)).
  assert (RC : c <= r). { unfold r. rewrite <- (sqrt_square c) by lra. apply sqrt_le_1_alt. lra. }
  assert (R2 : r * r = y * y + x * x) by (apply sqrt_sqrt; nra). assert (R0 : 0 < r) by lra. clearbody r. pose proof (Rinv_0_lt_compat r R0) as IR.
  assert (SC : forall a b, 0 < b -> atan2 (a / r) (b / r) = atan2 a b). { intros a b P. rewrite !atan2_right; auto; [f_equal; field; lra|now apply Rdiv_lt_0_compat]. }
  assert (HR : h / r <= h / c) by (apply Rmult_le_compat_l; [auto|]; apply Rinv_le_contravar; lra). assert (HR0 : 0 <= h / r) by (apply Rmult_le_pos; lra).
  assert (SM : forall a b, Rabs (a - b) <= h -> Rabs (a / r - b / r) <= h / r). { intros a b AB. replace (a / r - b / r) with ((a - b) * / r) by (field; lra). rewrite Rabs_mult, (Rabs_pos_eq (/ r)) by lra. apply Rmult_le_compat_r; lra. }
  assert (N1 : y / r * (y / r) + x / r * (x / r) = 1). { replace (y / r * (y / r) + x / r * (x / r)) with ((y * y + x * x) / (r * r)) by (field; lra). rewrite R2. apply Rinv_r. nra. }
  assert (BX : Rabs (x / r) <= 1) by (apply Rabs_le; split; nra). assert (BY : Rabs (y / r) <= 1) by (apply Rabs_le; split; nra).
  destruct (atan2_near (y / r) (x / r) (y' / r) (x' / r) (h / r) ltac:(lra) BX BY ltac:(lra) (SM _ _ Y) (SM _ _ X)) as (AP & _). rewrite !SC in AP by lra.
  rewrite !atan2_right in * by lra. pose proof (atan_bound (y' / x')). pose proof (atan_bound (y / x)). pose proof PI_bounds.
  apply Rle_trans with (4 * (h / r)); [|lra]. apply apart_zero; auto; [lra|]. apply Rabs_def1; lra.
Qed.
(** ... as computed *)
Lemma arctan2_right B y x y0 x0 c h : accurate_more B -> cl h y y0 -> cl h x x0 -> 0 < c <= x0 -> c * c <= y0 * y0 + x0 * x0 <= 1 -> 0 <= h -> h / c <= 1 / 1000 ->
  cl (4 * (h / c) + / 2 ^ 50) (n_arctan2 B y x) (atan2 y0 x0).
Proof.
  intros AB (Fy & Ey) (Fx & Ex) C RR H0 H. destruct (atan2_right_near y0 x0 (value y) (value x) c h C RR H0 H Ey Ex) as (P & E).
  destruct (np_arctan2_good B AB y x Fy Fx ltac:(left; lra)) as (F & V & AP). split; auto. pose proof PI_bounds as PB. assert (T : / 2 ^ 50 <= 1 / 1000) by lra.
  rewrite atan2_right in AP by auto. pose proof (atan_bound (value y / value x)) as AT. apply Rabs_le_inv in V.
  assert (E2 : Rabs (value (n_arctan2 B y x) - atan (value y / value x)) <= / 2 ^ 50). { apply apart_zero; auto; [lra|]. apply Rabs_def1; lra. }
  rewrite atan2_right in E by auto. pose proof (err_trans _ _ _ _ _ E2 E). lra.
Qed.
Lemma yaw_place x y z : x * x + y * y + z * z = 1 -> 0 < z -> let a := - (x * y / (1 + z)) in let b := 1 - y * y / (1 + z) in z <= b /\ a * a + b * b = 1 - y * y.
Proof.
  intros H Z a b. assert (B : b = z + x * x / (1 + z)). { unfold b. replace (y * y) with (1 - x * x - z * z) by lra. field. lra. } split.
  - assert (0 <= x * x / (1 + z)) by (apply Rmult_le_pos; [nra|left; apply Rinv_0_lt_compat; lra]). lra.
  - unfold a, b. assert (E : x * x = 1 - y * y - z * z) by lra. replace (- (x * y / (1 + z)) * - (x * y / (1 + z)) + (1 - y * y / (1 + z)) * (1 - y * y / (1 + z))) with ((x * x * (y * y) + (1 + z - y * y) * (1 + z - y * y)) / ((1 + z) * (1 + z))) by (field; lra).
    rewrite E. field. lra.
Qed.

Section Angles.
Variable B : more.
Hypothesis AB : accurate_more B.
Variable arcsin : float -> float.
Hypothesis AS : accurate_arcsin arcsin.
Variables (lp gl : fvec) (X : vec) (Rr k : R).
Hypothesis Fl : finite_vec lp.
Hypothesis Fg : finite_vec gl.
Hypothesis HR : 5000 <= Rr <= 100000.
Hypothesis Hk : 1 <= k <= 1000.
Hypothesis El : norm (sub (vector lp) (V 0 0 (- Rr))) <= 35 / 10 ^ 13 * k * Rr.
Hypothesis Eg : norm (sub (vector gl) X) <= 6 / 10 ^ 7 * k.
Let e := sub X (V 0 0 (- Rr)).
Let d := norm e.
Let t := unit_of e.
Hypothesis HX : norm X <= 13000.
Hypothesis Hc : / 100 <= vz t.
Hypothesis Hd : k <= d * vz t.

Lemma norm_down : norm (V 0 0 (- Rr)) = Rr.
Proof. unfold norm, dot. cbn [vx vy vz]. replace (0 * 0 + 0 * 0 + - Rr * - Rr) with (Rr * Rr) by ring. apply sqrt_square. lra. Qed.
Lemma unit_down : opposite (unit_of (V 0 0 (- Rr))) = nadir.
Proof. unfold unit_of. rewrite norm_down. unfold opposite, times, nadir. cbn [vx vy vz]. f_equal; field; lra. Qed.
Lemma e_nz : e <> zero.
Proof. intros E. assert (D0 : d = 0). { unfold d. rewrite E. unfold norm, dot, zero. cbn [vx vy vz]. replace (0 * 0 + 0 * 0 + 0 * 0) with 0 by ring. apply sqrt_0. } nra. Qed.
Lemma t_unit : dot t t = 1. Proof. apply unit_dot, e_nz. Qed.
Lemma d_range : k <= d <= 113000 /\ vz t <= 1.
Proof.
  pose proof t_unit as U. unfold dot in U. assert (Z1 : vz t <= 1) by nra. split; auto. pose proof (norm_sub_le X (V 0 0 (- Rr))) as S. rewrite norm_down in S. fold e d in S. pose proof (Flg_Proofs.norm_pos e) as D0. fold d in D0. split; [nra|lra].
Qed.
Let n := 21 / 10 ^ 7 * (k / d).
Lemma n_range : n <= 21 / 10 ^ 7 * vz t /\ n <= / 100000 /\ 100000 * uu <= n /\ 0 < n.
Proof.
  destruct d_range as (D & ZT). assert (K0 : k / d <= vz t). { apply Rmult_le_reg_r with d; [lra|]. unfold Rdiv. rewrite Rmult_assoc, Rinv_l by lra. lra. }
  assert (K1 : / 113000 <= k / d). { apply Rle_trans with (1 / d); [unfold Rdiv; rewrite Rmult_1_l; apply Rinv_le_contravar; lra|]. apply Rmult_le_compat_r; [left; apply Rinv_0_lt_compat; lra|lra]. }
  assert (U : uu <= / 9007199254740992) by apply uu_num. pose proof uu_pos. unfold n. repeat split; lra.
Qed.
Let s := fvover (fvneg lp) (fnorm lp).
Let f := fvsub gl lp.
Let g := fvover f (fnorm f).
Lemma s_close : finite_vec s /\ norm (sub (vector s) nadir) <= n.
Proof.
  destruct d_range as (D & _). destruct n_range as (_ & _ & U & _). set (eps := 35 / 10 ^ 13 * k). assert (EP : 0 <= eps <= 1 / 1000) by (unfold eps; lra).
  pose proof norm_down as ND. destruct (unit_near (vector lp) (V 0 0 (- Rr)) eps ltac:(lra) EP) as (P & UN); [rewrite ND; exact El|].
  pose proof (norm_near (vector lp) (V 0 0 (- Rr))) as NN. rewrite ND in NN. apply Rabs_le_inv in NN.
  assert (N1 : 4000 <= norm (vector lp) <= 110000). { assert (35 / 10 ^ 13 * k * Rr <= 1) by nra. lra. }
  destruct (minus_unit_ok lp) as (F & E). { split; auto. assert (bpow radix2 (-400) <= 1) by (change 1 with (bpow radix2 0); apply bpow_le; lia). assert (bpow radix2 20 <= bpow radix2 100) by (apply bpow_le; lia). change (bpow radix2 20) with 1048576 in *. lra. }
  split; [exact F|]. pose proof (norm_tri (vector s) (opposite (unit_of (vector lp))) nadir) as T. fold s in E.
  assert (O : norm (sub (opposite (unit_of (vector lp))) nadir) <= 2.01 * eps). { rewrite <- unit_down. rewrite sub_opposite. exact UN. }
  assert (K1 : / 113000 * k <= k / d). { unfold Rdiv. rewrite Rmult_comm. apply Rmult_le_compat_l; [lra|]. apply Rinv_le_contravar; lra. }
  assert (U2 : uu <= / 9007199254740992) by apply uu_num.
  unfold n, eps in *. lra.
Qed.
Lemma g_close : finite_vec g /\ norm (sub (vector g) t) <= n.
Proof.
  destruct d_range as (D & _). pose proof uu_pos as U0. assert (U2 : uu <= / 9007199254740992) by apply uu_num.
  pose proof (norm_near (vector lp) (V 0 0 (- Rr))) as NN. rewrite norm_down in NN. apply Rabs_le_inv in NN. pose proof (norm_near (vector gl) X) as NG. apply Rabs_le_inv in NG.
  assert (KR : 35 / 10 ^ 13 * k * Rr <= 35 / 10 ^ 8 * k) by nra.
  destruct (sub_ok gl lp Fg Fl ltac:(lra) ltac:(lra)) as (Ff & Ef). fold f in Ff, Ef.
  assert (E1 : norm (sub (sub (vector gl) (vector lp)) e) <= 95 / 10 ^ 8 * k).
  { assert (Q : sub (sub (vector gl) (vector lp)) e = sub (sub (vector gl) X) (sub (vector lp) (V 0 0 (- Rr)))) by (unfold e, sub; cbn [vx vy vz]; f_equal; ring).
    rewrite Q. eapply Rle_trans; [apply norm_sub_le|]. lra. }
  pose proof (norm_near (sub (vector gl) (vector lp)) e) as N1. fold d in N1. apply Rabs_le_inv in N1.
  pose proof (norm_tri (vector f) (sub (vector gl) (vector lp)) e) as T1. assert (W : uu * norm (sub (vector gl) (vector lp)) <= uu * 120000) by (apply Rmult_le_compat_l; lra).
  set (eps := 96 / 10 ^ 8 * (k / d)). pose proof (proj1 n_range) as NR. assert (KD : 0 < k / d <= 1).
  { split; [apply Rdiv_lt_0_compat; lra|]. apply Rmult_le_reg_r with d; [lra|]. unfold Rdiv. rewrite Rmult_assoc, Rinv_l by lra. lra. }
  assert (EF : norm (sub (vector f) e) <= eps * norm e). { fold d. unfold eps. replace (96 / 10 ^ 8 * (k / d) * d) with (96 / 10 ^ 8 * k) by (field; lra). lra. }
  assert (P : 0 < norm e) by (fold d; lra). destruct (unit_near (vector f) e eps P ltac:(unfold eps; lra) EF) as (Pf & UN).
  pose proof (norm_near (vector f) e) as N2. fold d in N2. apply Rabs_le_inv in N2. assert (ED : eps * norm e <= 96 / 10 ^ 8 * d). { fold d. unfold eps. nra. }
  destruct (plus_unit_ok f) as (F & E). { split; auto. assert (bpow radix2 (-400) <= / 2) by (change (/ 2) with (bpow radix2 (-1)); apply bpow_le; lia). assert (bpow radix2 20 <= bpow radix2 100) by (apply bpow_le; lia). change (bpow radix2 20) with 1048576 in *. lra. }
  split; [exact F|]. fold g in E. pose proof (norm_tri (vector g) (unit_of (vector f)) t) as T. fold t in UN.
  assert (K1 : / 113000 <= k / d). { apply Rle_trans with (1 / d); [unfold Rdiv; rewrite Rmult_1_l; apply Rinv_le_contravar; lra|]. apply Rmult_le_compat_r; [left; apply Rinv_0_lt_compat; lra|lra]. }
  unfold n, eps in *. lra.
Qed.
Lemma angles_close : exists roll pitch yaw, fattitude_angles B arcsin lp gl = (roll, pitch, yaw) /\
  cl (/ 10 ^ 4 * (k / (d * vz t))) roll (g_roll t) /\ cl (/ 10 ^ 4 * (k / (d * vz t))) pitch (g_pitch t) /\ cl (/ 10 ^ 4 * (k / (d * vz t))) yaw (g_yaw t).
Proof.
  destruct s_close as (Fs & Es). destruct g_close as (Fgg & Egg). destruct n_range as (N1 & N2 & N3 & N0). destruct d_range as (D & Z1). pose proof t_unit as TU.
  pose proof (entries_close s g t n Fs Fgg Es Egg TU Hc N2 N3) as E. cbv zeta in E. destruct E as (E32 & E31 & E33 & E12 & E22).
  unfold fattitude_angles. fold s. fold f. fold g. cbv zeta. eexists. eexists. eexists. split; [reflexivity|].
  assert (UD : dot t t = vx t * vx t + vy t * vy t + vz t * vz t) by reflexivity. rewrite TU in UD.
  assert (NC : n / vz t = 21 / 10 ^ 7 * (k / (d * vz t))) by (unfold n; field; lra).
  assert (HC : 11 * n / vz t = 231 / 10 ^ 7 * (k / (d * vz t))) by (unfold n; field; lra).
  assert (N4 : n <= 21 / 10 ^ 7 * vz t) by exact N1. assert (U2 : uu <= / 9007199254740992) by apply uu_num.
  assert (NK : n / vz t <= 21 / 10 ^ 7). { apply Rmult_le_reg_r with (vz t); [lra|]. unfold Rdiv at 1. rewrite Rmult_assoc, Rinv_l by lra. lra. }
  assert (NN : n <= n / vz t). { apply Rmult_le_reg_r with (vz t); [lra|]. unfold Rdiv. rewrite Rmult_assoc, Rinv_l by lra. nra. }
  assert (U3 : 113 / 10 ^ 11 <= n * 100). { unfold n. assert (K1 : / 113000 <= k / d). { apply Rle_trans with (1 / d); [unfold Rdiv; rewrite Rmult_1_l; apply Rinv_le_contravar; lra|]. apply Rmult_le_compat_r; [left; apply Rinv_0_lt_compat; lra|lra]. } lra. }
  assert (T50 : / 2 ^ 50 <= n / 1000) by lra.
  assert (H0 : 0 <= 11 * n) by lra. assert (HS : 11 * n / vz t <= 1 / 1000) by (replace (11 * n / vz t) with (11 * (n / vz t)) by (field; lra); lra).
  assert (FIN : 4 * (11 * n / vz t) + / 2 ^ 50 <= / 10 ^ 4 * (k / (d * vz t))) by (rewrite HC; lra).
  split; [|split].
  - destruct E32 as (F & E). destruct (asin_near (- vy t) _ (vz t) (11 * n) ltac:(lra) H0 ltac:(nra) ltac:(nra) E) as (A1 & A2).
    destruct (AS _ F A1) as (Fa & Ea). unfold g_roll. rewrite <- (Ropp_involutive (asin (vy t))), <- asin_opp. apply cl_neg. split; auto. pose proof (err_trans _ _ _ _ _ Ea A2). lra.
  - unfold g_pitch. apply cl_le with (4 * (11 * n / vz t) + / 2 ^ 50); auto. apply arctan2_right; auto; [lra|]. split; nra.
  - unfold g_yaw. destruct (yaw_place (vx t) (vy t) (vz t) ltac:(lra) ltac:(lra)) as (Y1 & Y2).
    apply cl_le with (4 * (11 * n / vz t) + / 2 ^ 50); auto. apply arctan2_right; auto; [lra|]. rewrite Y2. split; nra.
Qed.
End Angles.

(** ** Turning by angles that are close *)
Lemma turn2 a b x y : (cos a * x - sin a * y - (cos b * x - sin b * y)) ^ 2 + (sin a * x + cos a * y - (sin b * x + cos b * y)) ^ 2 <= (a - b) ^ 2 * (x * x + y * y).
Proof.
  pose proof (sin2_cos2 a) as SA. pose proof (sin2_cos2 b) as SB. unfold Rsqr in *.
  assert (E : (cos a * x - sin a * y - (cos b * x - sin b * y)) ^ 2 + (sin a * x + cos a * y - (sin b * x + cos b * y)) ^ 2 = (2 - 2 * cos (a - b)) * (x * x + y * y)).
  { rewrite cos_minus. transitivity (((sin a * sin a + cos a * cos a) + (sin b * sin b + cos b * cos b) - 2 * (cos a * cos b + sin a * sin b)) * (x * x + y * y)); [ring|]. rewrite SA, SB. ring. }
  rewrite E. apply Rmult_le_compat_r; [nra|]. set (c := a - b). replace c with (2 * (c / 2)) at 1 by field. rewrite cos_2a_sin.
  assert (SN : Rabs (sin (c / 2)) <= Rabs (c / 2)). { pose proof (Flg_Proofs6.sin_lip (c / 2) 0) as S. rewrite sin_0, !Rminus_0_r in S. exact S. }
  pose proof (Rabs_pos (sin (c / 2))). assert (Q : Rabs (sin (c / 2)) * Rabs (sin (c / 2)) <= Rabs (c / 2) * Rabs (c / 2)) by nra. rewrite <- !Rabs_mult, !Rabs_pos_eq in Q by nra. nra.
Qed.
Lemma sqrt_near a b : 0 <= b -> a <= b ^ 2 -> sqrt a <= b.
Proof. intros B H. rewrite <- (sqrt_pow2 b B). now apply sqrt_le_1_alt. Qed.
Lemma turn_bound (t : R -> vec -> vec) a b v : (t = turn_about_x \/ t = turn_about_y \/ t = turn_about_z) -> norm (sub (t a v) (t b v)) <= Rabs (a - b) * norm v.
Proof.
  intros T. pose proof (Rabs_pos (a - b)) as P. pose proof (Flg_Proofs.norm_pos v) as PV. unfold norm at 1. apply sqrt_near; [nra|].
  assert (E : (Rabs (a - b) * norm v) ^ 2 = (a - b) ^ 2 * (vx v * vx v + vy v * vy v + vz v * vz v)).
  { rewrite Rpow_mult_distr, pow2_abs. f_equal. unfold norm. rewrite pow2_sqrt; [reflexivity|]. unfold dot. nra. }
  rewrite E. pose proof (pow2_ge_0 (a - b)) as S0.
  destruct T as [-> | [-> | ->]]; unfold turn_about_x, turn_about_y, turn_about_z, dot, sub; cbn [vx vy vz].
  - pose proof (turn2 a b (vy v) (vz v)). assert (0 <= (a - b) ^ 2 * (vx v * vx v)) by (apply Rmult_le_pos; nra). nra.
  - pose proof (turn2 a b (vz v) (vx v)). assert (0 <= (a - b) ^ 2 * (vy v * vy v)) by (apply Rmult_le_pos; nra). nra.
  - pose proof (turn2 a b (vx v) (vy v)). assert (0 <= (a - b) ^ 2 * (vz v * vz v)) by (apply Rmult_le_pos; nra). nra.
Qed.
Lemma turn_norm (t : R -> vec -> vec) a v : (t = turn_about_x \/ t = turn_about_y \/ t = turn_about_z) -> norm (t a v) = norm v.
Proof.
  intros T. unfold norm. f_equal. pose proof (sin2_cos2 a) as S. unfold Rsqr in S.
  destruct T as [-> | [-> | ->]]; unfold turn_about_x, turn_about_y, turn_about_z, dot; cbn [vx vy vz].
  - transitivity (vx v * vx v + (sin a * sin a + cos a * cos a) * (vy v * vy v + vz v * vz v)); [ring|rewrite S; ring].
  - transitivity (vy v * vy v + (sin a * sin a + cos a * cos a) * (vx v * vx v + vz v * vz v)); [ring|rewrite S; ring].
  - transitivity (vz v * vz v + (sin a * sin a + cos a * cos a) * (vx v * vx v + vy v * vy v)); [ring|rewrite S; ring].
Qed.
Lemma turn_apart (t : R -> vec -> vec) a u v : (t = turn_about_x \/ t = turn_about_y \/ t = turn_about_z) -> norm (sub (t a u) (t a v)) = norm (sub u v).
Proof.
  intros T. rewrite <- (turn_norm t a (sub u v) T). f_equal. destruct T as [-> | [-> | ->]]; unfold turn_about_x, turn_about_y, turn_about_z, sub; cbn [vx vy vz]; f_equal; ring.
Qed.
Lemma euler_near r p y r' p' y' v e : Rabs (r' - r) <= e -> Rabs (p' - p) <= e -> Rabs (y' - y) <= e ->
  norm (sub (mat_vec (euler_213 r' p' y') v) (mat_vec (euler_213 r p y) v)) <= 3 * e * norm v.
Proof.
  intros R P Y. rewrite !euler_turns. pose proof (Flg_Proofs.norm_pos v) as N.
  assert (M : forall a b, Rabs (a - b) <= e -> Rabs (- a - - b) <= e) by (intros a b H; replace (- a - - b) with (- (a - b)) by ring; now rewrite Rabs_Ropp).
  apply M in R, P, Y. set (u' := turn_about_y (- p') v). set (u := turn_about_y (- p) v). set (w' := turn_about_x (- r') u'). set (w := turn_about_x (- r) u).
  assert (E1 : norm (sub u' u) <= e * norm v). { eapply Rle_trans; [apply (turn_bound turn_about_y); auto|]. apply Rmult_le_compat_r; auto. }
  assert (NU : norm u' = norm v) by (apply (turn_norm turn_about_y); auto). assert (NW : norm w' = norm v) by (rewrite <- NU; apply (turn_norm turn_about_x); auto).
  assert (E2 : norm (sub w' w) <= 2 * e * norm v).
  { pose proof (norm_tri w' (turn_about_x (- r) u') w) as T. unfold w in T at 2. rewrite (turn_apart turn_about_x) in T by auto.
    pose proof (turn_bound turn_about_x (- r') (- r) u' ltac:(auto)) as B. fold w' in B. rewrite NU in B. assert (Rabs (- r' - - r) * norm v <= e * norm v) by (apply Rmult_le_compat_r; auto). lra. }
  pose proof (norm_tri (turn_about_z (- y') w') (turn_about_z (- y) w') (turn_about_z (- y) w)) as T. rewrite (turn_apart turn_about_z) in T by auto.
  pose proof (turn_bound turn_about_z (- y') (- y) w' ltac:(auto)) as B. rewrite NW in B. assert (Rabs (- y' - - y) * norm v <= e * norm v) by (apply Rmult_le_compat_r; auto). lra.
Qed.
