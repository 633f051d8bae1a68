(** One step of the altitude loop in floating point. *)
From Coq Require Import ZArith Reals Lra Lia Psatz.
From Flocq Require Import Core.Core IEEE754.BinarySingleNaN IEEE754.Binary IEEE754.Bits.
From Verif Require Import Py Fl_Model Fl_Spec Fl_Proofs Flg_Model Flg_Spec Flg_Proofs2 Flg_Proofs3 Rot_Model Rot_Spec Geo_Model Geo_Spec Geo_Alt Geo_Alt2 Geo_Acc
  Flr_Model Flr_Spec Flv_Model Fly_Model Fly_Spec Fly_Proofs.
Open Scope R_scope.
#[local] Strategy 1000 [fmul fadd fsub fdiv fneg of_Z].

Lemma pow51 : / 2 ^ 51 = 4 * uu. Proof. rewrite uu_value. lra. Qed.
Lemma pow50 : / 2 ^ 50 = 8 * uu. Proof. rewrite uu_value. lra. Qed.
Lemma uu16 : 0 < uu <= 12 / 100000000000000000. Proof. rewrite uu_value. lra. Qed.
Lemma rc_value h x r : rc h x r -> 0 < r -> r * (1 - h) <= value x <= r * (1 + h).
Proof. intros (F & E) P. rewrite (Rabs_pos_eq r) in E by lra. apply Rabs_le_inv in E. lra. Qed.
Lemma rc_lit n d r : (0 < n < 9007199254740992)%Z -> (0 < d < 9007199254740992)%Z -> IZR n / IZR d = r -> / 1000000000000000000 <= r <= 1000000000000000000 -> rc uu (literal n d) r.
Proof.
  intros N D E M. destruct (literal_ok n d N D) as (F & e & He & V). split; auto. rewrite V, E. replace (r * (1 + e) - r) with (e * r) by ring.
  rewrite Rabs_mult. apply Rmult_le_compat_r; [apply Rabs_pos|exact He].
Qed.
Lemma major_rc : rc uu fmajor_axis A.
Proof. apply rc_lit; try lia; rewrite A_val; lra. Qed.
Lemma minor_rc : rc uu fminor_axis B.
Proof. apply rc_lit; try lia; rewrite B_val; lra. Qed.

Section Step.
Variable L : arrays.
Variable J : geodesy.
Hypothesis HL : accurate_arrays L.
Hypothesis HJ : accurate_geodesy J.

Lemma rc_square h x a : rc h x a -> / 1000 <= a <= 10000 -> 0 <= h <= 1 / 5000 -> rc (2001 / 1000 * h + 401 / 100 * uu) (g_square J x) (a * a).
Proof.
  intros (F & E) R H. rewrite (Rabs_pos_eq a) in E by lra. assert (E' := E). apply Rabs_le_inv in E'. assert (X : 0 < 4999 / 5000 * a <= value x /\ value x <= 2 * a) by nra.
  destruct (square_good J HJ x F) as (F' & E2). { rewrite Rabs_pos_eq by lra. split; lra. }
  apply (rc_of ((2001 / 1000 * h + 401 / 100 * uu) * (a * a))); [exact F'| |rewrite (Rabs_pos_eq (a * a)) by nra; lra]. rewrite pow51 in E2. pose proof uu16 as U.
  assert (D : Rabs (value x ^ 2 - a * a) <= 20005 / 10000 * h * (a * a)).
  { replace (value x ^ 2 - a * a) with ((value x - a) * (value x + a)) by ring. rewrite Rabs_mult, (Rabs_pos_eq (value x + a)) by lra.
    apply Rle_trans with (h * a * (20005 / 10000 * a)); [apply Rmult_le_compat; try apply Rabs_pos; try lra|]; nra. }
  eapply Rle_trans; [apply (err_trans _ _ _ _ _ E2 D)|]. assert (V2 : value x ^ 2 <= 10005 / 10000 * (a * a)). { apply Rabs_le_inv in D. assert (0 <= a * a) by nra. nra. }
  assert (0 <= a * a) by nra. assert (4 * uu * value x ^ 2 <= 4 * uu * (10005 / 10000 * (a * a))) by (apply Rmult_le_compat_l; lra). assert (0 <= uu * (a * a)) by (apply Rmult_le_pos; lra). assert (0 <= h * (a * a)) by (apply Rmult_le_pos; lra). lra.
Qed.
Lemma ratio_rc : rc (14 * uu) (fratio J) kap.
Proof.
  pose proof uu16 as U. pose proof A_val as VA. pose proof B_val as VB. pose proof kap_bounds as K.
  pose proof (rc_square _ _ _ major_rc ltac:(lra) ltac:(lra)) as RA. pose proof (rc_square _ _ _ minor_rc ltac:(lra) ltac:(lra)) as RB.
  replace kap with (B * B / (A * A)) in * by (unfold kap; field; lra).
  eapply rc_le; [apply (rc_div _ _ _ _ _ _ RB RA); [apply Rgt_not_eq; nra|apply mid_pos; lra|lra|lra]|lra].
Qed.
Lemma one_ok : finite (of_Z 1) /\ value (of_Z 1) = 1. Proof. apply of_Z_ok. lia. Qed.
Lemma e2_rc : rc (2200 * uu) (fe_squared J) (1 - kap).
Proof.
  pose proof uu16 as U. pose proof kap_bounds as K. destruct ratio_rc as (FK & EK). rewrite (Rabs_pos_eq kap) in EK by lra. assert (EK' : 14 * uu * kap <= 14 * uu * 1) by (apply Rmult_le_compat_l; lra). assert (EK2 : 2150 * uu * (66 / 10000) <= 2150 * uu * (1 - kap)) by (apply Rmult_le_compat_l; lra). assert (EK3 : uu * (1 - kap + 0 + 14 * uu) <= uu * (1 / 100)) by (apply Rmult_le_compat_l; lra). destruct one_ok as (F1 & V1).
  destruct (ab_sub 0 (14 * uu) (of_Z 1) (fratio J) 1 kap F1 FK) as (F & E); [rewrite V1; replace (1 - 1) with 0 by ring; rewrite Rabs_R0; lra|lra|rewrite Rabs_pos_eq by lra; lra|].
  rewrite (Rabs_pos_eq (1 - kap)) in E by lra. assert (R1 : rc (2150 * uu) (fsub (of_Z 1) (fratio J)) (1 - kap)). { apply (rc_of _ _ _ _ F E). rewrite Rabs_pos_eq by lra. lra. }
  assert (SQ : 8 / 100 <= sqrt (1 - kap) <= 1 / 10).
  { split. - rewrite <- (sqrt_square (8 / 100)) by lra. apply sqrt_le_1_alt. lra. - rewrite <- (sqrt_square (1 / 10)) by lra. apply sqrt_le_1_alt. lra. }
  pose proof (rc_sqrt _ _ _ R1 ltac:(lra) ltac:(apply mid_pos; lra) ltac:(apply mid_pos; lra) ltac:(lra)) as R2.
  pose proof (rc_square _ _ _ R2 ltac:(lra) ltac:(lra)) as R3. rewrite sqrt_sqrt in R3 by lra. eapply rc_le; [exact R3|lra].
Qed.
End Step.
(** How the arctangent shrinks errors. *)
Lemma cos_atan_pos x : 0 < cos (atan x). Proof. pose proof (atan_bound x). apply cos_gt_0; lra. Qed.
Lemma cos2_atan x : cos (atan x) * cos (atan x) * (1 + x * x) = 1.
Proof. rewrite cos_atan. change (1 + x²) with (1 + x * x). assert (0 < 1 + x * x) by nra. pose proof (sqrt_sqrt (1 + x * x) ltac:(lra)) as E. pose proof (sqrt_lt_R0 (1 + x * x) ltac:(lra)). set (s := sqrt (1 + x * x)) in *. clearbody s. rewrite <- E. field. lra. Qed.
Lemma atan_close x y r t : Rabs (y - x) <= r * Rabs x + t -> 0 <= r <= 1 / 1000000 -> 0 <= t <= 1 / 1000000 ->
  Rabs (atan y - atan x) <= 1001 / 1000 * (r * cos (atan x) + t).
Proof.
  intros D HR HT. pose proof (cos_atan_pos x) as C0. pose proof (cos2_atan x) as C2. assert (CX : cos (atan x) <= 1) by apply COS_bound.
  assert (CAX : cos (atan x) * Rabs x <= 1).
  { apply Rsqr_incr_0_var; [|lra]. unfold Rsqr. replace (cos (atan x) * Rabs x * (cos (atan x) * Rabs x)) with (cos (atan x) * cos (atan x) * (Rabs x * Rabs x)) by ring. rewrite <- Rabs_mult, (Rabs_pos_eq (x * x)) by nra. nra. }
  assert (K : forall c, Rabs (c - x) <= r * Rabs x + t -> / (1 + c * c) <= 1001 / 1000 * (cos (atan x) * cos (atan x))).
  { intros c Hc. apply Rmult_le_reg_r with (1 + c * c); [nra|]. rewrite Rinv_l by nra. 
    assert (1 + x * x <= 1001 / 1000 * (1 + c * c)).
    { pose proof (Rabs_pos x) as AX. assert (H1 : Rabs c >= Rabs x * (1 - r) - t). { rewrite Rabs_minus_sym in Hc. pose proof (err_abs _ _ _ Hc). lra. }
      rewrite <- (Rabs_pos_eq (x * x)), <- (Rabs_pos_eq (c * c)), !Rabs_mult by nra. set (a := Rabs x) in *. set (b := Rabs c) in *. assert (0 <= b) by apply Rabs_pos. clearbody a b.
      assert (a * (999999 / 1000000) <= a * (1 - r)) by (apply Rmult_le_compat_l; lra). assert (AB : a <= 1000002 / 1000000 * b + 2 / 1000000) by lra. assert (a * a <= (1000002 / 1000000 * b + 2 / 1000000) * (1000002 / 1000000 * b + 2 / 1000000)) by (apply Rmult_le_compat; lra). pose proof (sq0 (b - 1)). lra. }
    nra. }
  assert (M : exists c, atan y - atan x = / (1 + c * c) * (y - x) /\ Rabs (c - x) <= Rabs (y - x)).
  { destruct (Rtotal_order x y) as [H|[H|H]].
    - destruct (MVT_cor2 atan (fun c => / (1 + c ^ 2)) x y H) as (c & E & I); [intros; apply derivable_pt_lim_atan|]. exists c. replace (c ^ 2) with (c * c) in E by ring. split; [exact E|]. rewrite !Rabs_pos_eq by lra. lra.
    - subst y. exists x. split; [ring|]. lra.
    - destruct (MVT_cor2 atan (fun c => / (1 + c ^ 2)) y x H) as (c & E & I); [intros; apply derivable_pt_lim_atan|]. exists c. replace (c ^ 2) with (c * c) in E by ring. split; [lra|]. rewrite !Rabs_left1 by lra. lra. }
  destruct M as (c & E & I). rewrite E, Rabs_mult. specialize (K c ltac:(lra)). rewrite (Rabs_pos_eq (/ _)) by (apply Rlt_le, Rinv_0_lt_compat; nra).
  apply Rle_trans with (1001 / 1000 * (cos (atan x) * cos (atan x)) * (r * Rabs x + t)); [apply Rmult_le_compat; auto; [apply Rlt_le, Rinv_0_lt_compat; nra|apply Rabs_pos]|].
  set (k := cos (atan x)) in *. clearbody k. set (a := Rabs x) in *. assert (0 <= a) by apply Rabs_pos. clearbody a.
  replace (1001 / 1000 * (k * k) * (r * a + t)) with (1001 / 1000 * (r * (k * (k * a)) + k * k * t)) by ring. apply Rmult_le_compat_l; [lra|].
  apply Rplus_le_compat; [apply Rmult_le_compat_l; [lra|]; nra|nra].
Qed.
Lemma cos_atan_ratio x m n : 1 <= m <= 101 / 100 -> 1 <= n <= 101 / 100 -> cos (atan (x * m)) <= 102 / 100 * cos (atan (x * n)).
Proof.
  intros M N. pose proof (cos_atan_pos (x * m)) as P1. pose proof (cos_atan_pos (x * n)) as P2. pose proof (cos2_atan (x * m)) as E1. pose proof (cos2_atan (x * n)) as E2.
  set (a := cos (atan (x * m))) in *. set (b := cos (atan (x * n))) in *. clearbody a b. apply Rsqr_incr_0_var; [|lra]. unfold Rsqr.
  assert (X : 0 <= x * x) by nra. assert (K : 1 + x * n * (x * n) <= 10201 / 10000 * (1 + x * m * (x * m))).
  { replace (x * n * (x * n)) with (x * x * (n * n)) by ring. replace (x * m * (x * m)) with (x * x * (m * m)) by ring. assert (n * n <= 10201 / 10000 * (m * m)) by nra. assert (x * x * (n * n) <= x * x * (10201 / 10000 * (m * m))) by (apply Rmult_le_compat_l; auto). lra. }
  set (u := 1 + x * m * (x * m)) in *. set (v := 1 + x * n * (x * n)) in *. assert (0 < v) by (unfold v; nra). assert (0 < u) by (unfold u; nra). clearbody u v.
  apply Rmult_le_reg_r with u; auto. rewrite E1. apply Rle_trans with (102 / 100 * (102 / 100) * (b * b * u)); [|lra]. assert (b * b * v <= b * b * (10201 / 10000 * u)) by (apply Rmult_le_compat_l; nra). lra.
Qed.
